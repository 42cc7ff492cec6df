(** Clipping: the walk of clipPolyEmitClippedPolygons along the arcs; proofs *)
From Coq Require Import Arith Bool Lia List Permutation.
From Verif Require Import Base PgModel ClModel ClSpec ClProofs ClFind ClMark ClArcs.
Import ListNotations.

Section Emit.
Variable F : arith.
Notation fld f d i := (@ClSpec.field F _ (f F) d i).
Implicit Types d : list (vertex F).
Notation vertex := (vertex F).

Lemma path_app {A : Type} (R : A -> A -> Prop) l u r : path R (l ++ u :: r) <-> path R (l ++ [u]) /\ path R (u :: r).
Proof.
  induction l as [|x l IH]; [cbn [app path]; tauto|]. destruct l as [|y l]; cbn [app] in *.
  - change (path R (x :: u :: r)) with (R x u /\ path R (u :: r)). change (path R [x; u]) with (R x u /\ True). tauto.
  - change (path R (x :: y :: l ++ u :: r)) with (R x y /\ path R (y :: l ++ u :: r)). change (path R (x :: y :: l ++ [u])) with (R x y /\ path R (y :: l ++ [u])). tauto.
Qed.
Lemma still_next v w : still F v = still F w -> next F v = next F w. Proof. unfold still. congruence. Qed.
Lemma still_prev v w : still F v = still F w -> prev F v = prev F w. Proof. unfold still. congruence. Qed.
Lemma still_isect v w : still F v = still F w -> isect F v = isect F w. Proof. unfold still. congruence. Qed.
Lemma still_exit v w : still F v = still F w -> exit F v = exit F w. Proof. unfold still. congruence. Qed.
Lemma still_pos v w : still F v = still F w -> pos F v = pos F w. Proof. unfold still. congruence. Qed.
Lemma still_neighbor v w : still F v = still F w -> neighbor F v = neighbor F w. Proof. unfold still. congruence. Qed.

Lemma walk_spec (back : bool) n max : forall vs d i x fuel o, path (fun u v => ClSpec.field F (if back then prev F else next F) d u = Some v) (i :: vs ++ [x]) ->
  (forall v, In v vs -> v < n) -> n <= x -> (forall u, In u (vs ++ [x]) -> fld isect d u = Some (n <=? u)) -> length vs < fuel -> length (out F o) + length vs + 1 <= max ->
  exists d' P, walk F fuel back d i o max = Some (x, d', Output F (out F o ++ P) (polys F o)) /\ map (still F) d' = map (still F) d
  /\ (forall u, ~ In u (vs ++ [x]) -> nth_error d' u = nth_error d u) /\ fld seen d' x = Some true /\ map Some P = map (ClSpec.field F (pos F) d) (vs ++ [x]).
Proof.
  induction vs as [|v vs IH]; intros d i x fuel o PA LT GE IS FU MA; (destruct fuel as [|fuel]; [lia|]); cbn [walk].
  all: cbn [app] in PA; destruct PA as [ST PA].
  all: unfold ClSpec.field in ST; destruct (nth_error d i) as [vi|]; [|discriminate]; cbn [option_map] in ST.
  all: match type of ST with _ = Some ?t => assert (EI : (if back then prev F vi else next F vi) = t) by (destruct back; congruence); rewrite EI; clear ST;
        assert (exists vx, nth_error d t = Some vx /\ isect F vx = (n <=? t)) as [vx [NX EX]] by (specialize (IS t (or_introl eq_refl)); unfold ClSpec.field in IS; destruct (nth_error d t) as [vx|]; [|discriminate]; exists vx; split; [reflexivity|cbn [option_map] in IS; congruence]) end.
  all: destruct (update_spec d _ (set_seen F) vx NX) as [d1 [U [L1 [V1 W1]]]]; rewrite U; cbv beta iota; rewrite V1; cbv beta iota; pose proof (update_map F (still F) d _ (set_seen F) d1 (fun _ => eq_refl) U) as M1.
  all: unfold assert_; destruct (Nat.leb_spec (length (out F o) + 1) max) as [_|C]; [|cbn [length] in *; lia].
  all: change (isect F (set_seen F vx)) with (isect F vx); change (pos F (set_seen F vx)) with (pos F vx); rewrite EX.
  - destruct (Nat.leb_spec n x) as [_|C]; [|lia]. exists d1, [pos F vx]. split; [reflexivity|]. split; [exact M1|]. split; [intros u Hu; apply W1; intros ->; apply Hu; left; reflexivity|]. split; [unfold ClSpec.field; rewrite V1; reflexivity|].
    cbn [app map]. unfold ClSpec.field. rewrite NX. reflexivity.
  - pose proof (LT v (or_introl eq_refl)) as LV. destruct (Nat.leb_spec n v) as [C|_]; [lia|].
    destruct (IH d1 v x fuel (Output F (out F o ++ [pos F vx]) (polys F o))) as [d2 [P [E2 [M2 [W2 [S2 P2]]]]]].
    + assert (G : forall l, path (fun u v => ClSpec.field F (if back then prev F else next F) d u = Some v) l -> path (fun u v => ClSpec.field F (if back then prev F else next F) d1 u = Some v) l).
      { induction l as [|a l IHl]; [auto|]. destruct l as [|b l]; [auto|]. intros [Q1 Q2]. split; [|apply IHl; exact Q2]. rewrite <- Q1. destruct back; apply (map_field F (still F)); try exact M1; [apply still_prev|apply still_next]. }
      apply G. exact PA.
    + intros u Hu. apply LT. right. exact Hu.
    + exact GE.
    + intros u Hu. rewrite (map_field F (still F) (isect F) d d1 u still_isect M1). apply IS. right. exact Hu.
    + cbn [length] in *. lia.
    + cbn [out]. rewrite app_length. cbn [length] in *. lia.
    + exists d2, (pos F vx :: P). rewrite E2. cbn [out polys]. rewrite <- app_assoc. split; [reflexivity|]. split; [congruence|]. split.
      * intros u Hu. rewrite W2 by (intros K; apply Hu; right; exact K). apply W1. intros ->. apply Hu. left. reflexivity.
      * split; [exact S2|]. cbn [app map]. f_equal; [unfold ClSpec.field; rewrite NX; reflexivity|]. rewrite P2. apply map_ext. intros u. apply (map_field F (still F) (pos F) d d1 u still_pos M1).
Qed.

Section Rings.
Variables (ds : bool -> list vertex) (n : bool -> nat) (segs : bool -> nat -> list nat) (ins : bool -> bool) (k : nat).
Hypothesis R : forall s, ring F (ds s) (n s) (segs s).
Hypothesis pos_n : forall s, 0 < n s.
Hypothesis L : forall s, length (ds s) = n s + k.
Hypothesis M : forall s, marks F (ds s) (n s) (order (n s) (segs s)) (ins s).
Hypothesis even_k : Nat.even k = true.
Hypothesis NB : forall s m, m < k -> fld neighbor (ds s) (n s + m) = Some (n (negb s) + m).
Hypothesis PL : forall m, m < k -> fld pos (ds true) (n true + m) = fld pos (ds false) (n false + m).

(** From crossing [m] along polygon [s] over the corners [N] to crossing [m'] *)
Definition darc (s : bool) (m : nat) (N : list place) (m' : nat) : Prop := exists vs, N = map (Corner s) vs /\ m < k /\ m' < k /\ (arc F (ds s) (n s) (n s + m) vs (n s + m') \/ arc F (ds s) (n s) (n s + m') (rev vs) (n s + m)).
Lemma darc_total s m : m < k -> exists N m', darc s m N m'.
Proof.
  intros Hm. assert (Hl : n s + m < length (ds s)) by (rewrite L; lia).
  destruct (exit_known F (ds s) (n s) (segs s) (ins s) (R s) (M s) (n s + m) ltac:(lia) Hl) as [b Hb]. destruct b.
  - destruct (arc_to F (ds s) (n s) k (segs s) (ins s) (R s) (pos_n s) (L s) (M s) even_k (n s + m) ltac:(lia) Hl Hb) as [e [vs A]]. destruct (arc_entry _ _ _ _ _ _ A) as [E1 [E2 _]]. rewrite L in E2.
    exists (map (Corner s) (rev vs)), (e - n s), (rev vs). split; [reflexivity|]. split; [exact Hm|]. split; [lia|]. right. rewrite rev_involutive. replace (n s + (e - n s)) with e by lia. exact A.
  - destruct (arc_from F (ds s) (n s) k (segs s) (ins s) (R s) (pos_n s) (L s) (M s) even_k (n s + m) ltac:(lia) Hl Hb) as [vs [x A]]. destruct (arc_exit _ _ _ _ _ _ A) as [E1 [E2 _]]. rewrite L in E2.
    exists (map (Corner s) vs), (x - n s), vs. split; [reflexivity|]. split; [exact Hm|]. split; [lia|]. left. replace (n s + (x - n s)) with x by lia. exact A.
Qed.
Lemma darc_sym s m N m' : darc s m N m' -> darc s m' (rev N) m.
Proof. intros [vs [-> [H1 [H2 H]]]]. exists (rev vs). split; [rewrite map_rev; reflexivity|]. split; [exact H2|]. split; [exact H1|]. rewrite rev_involutive. tauto. Qed.
Lemma darc_det s m N m' N2 m2 : darc s m N m' -> darc s m N2 m2 -> N = N2 /\ m' = m2.
Proof.
  intros [vs [-> [H1 [H2 H]]]] [vs2 [-> [H3 [H4 H5]]]]. destruct H as [A|A]; destruct H5 as [B|B].
  - destruct (arc_next_det F _ _ _ _ _ _ _ A B) as [-> E]. split; [reflexivity|lia].
  - pose proof (arc_entry _ _ _ _ _ _ A) as K1. pose proof (arc_exit _ _ _ _ _ _ B) as K2. destruct K1 as [_ [_ K1]]. destruct K2 as [_ [_ K2]]. congruence.
  - pose proof (arc_entry _ _ _ _ _ _ B) as K1. pose proof (arc_exit _ _ _ _ _ _ A) as K2. destruct K1 as [_ [_ K1]]. destruct K2 as [_ [_ K2]]. congruence.
  - destruct (arc_prev_det F _ _ _ _ _ _ _ A B) as [E1 E2]. split; [f_equal; rewrite <- (rev_involutive vs), E1, rev_involutive; reflexivity|lia].
Qed.
Lemma darc_irr s m N : ~ darc s m N m.
Proof.
  intros [vs [_ [_ [_ H]]]]. assert (G : forall l, ~ arc F (ds s) (n s) (n s + m) l (n s + m)).
  { intros l A. pose proof (arc_entry _ _ _ _ _ _ A) as K1. pose proof (arc_exit _ _ _ _ _ _ A) as K2. destruct K1 as [_ [_ K1]]. destruct K2 as [_ [_ K2]]. congruence. }
  destruct H as [A|A]; apply (G _ A).
Qed.
Lemma darc_lt s m N m' : darc s m N m' -> m < k /\ m' < k. Proof. intros [vs [_ [H1 [H2 _]]]]. auto. Qed.
Lemma darc_nodup s m N m' : darc s m N m' -> NoDup N.
Proof.
  intros [vs [-> [_ [_ H]]]]. apply FinFun.Injective_map_NoDup; [intros x y E; congruence|]. destruct H as [A|A]; [apply A|]. apply arc_nodup in A. rewrite <- (rev_involutive vs). apply NoDup_rev. exact A.
Qed.
Lemma darc_corner s m N m' q : darc s m N m' -> In q N -> exists c, q = Corner s c /\ c < n s.
Proof.
  intros [vs [-> [_ [_ H]]]] I. apply in_map_iff in I. destruct I as [c [<- I]]. exists c. split; [reflexivity|]. destruct H as [A|A]; apply (arc_corners _ _ _ _ _ _ A); [exact I|apply in_rev in I; exact I].
Qed.
Lemma darc_share s m N m' m2 N2 m2' q : darc s m N m' -> darc s m2 N2 m2' -> In q N -> In q N2 -> (m2 = m /\ m2' = m') \/ (m2 = m' /\ m2' = m).
Proof.
  intros [vs [-> [H1 [H2 H]]]] [vs2 [-> [H3 [H4 H5]]]] I1 I2. apply in_map_iff in I1. destruct I1 as [c [<- I1]]. apply in_map_iff in I2. destruct I2 as [c2 [E I2]]. assert (c2 = c) by congruence. subst c2.
  pose proof (proj1 (in_rev vs c) I1) as J1. pose proof (proj1 (in_rev vs2 c) I2) as J2.
  destruct H as [A|A]; destruct H5 as [B|B].
  - destruct (arc_share F _ _ _ _ _ _ _ _ c A B I1 I2) as [E1 [_ E2]]. lia.
  - destruct (arc_share F _ _ _ _ _ _ _ _ c A B I1 J2) as [E1 [_ E2]]. lia.
  - destruct (arc_share F _ _ _ _ _ _ _ _ c A B J1 I2) as [E1 [_ E2]]. lia.
  - destruct (arc_share F _ _ _ _ _ _ _ _ c A B J1 J2) as [E1 [_ E2]]. lia.
Qed.
Lemma darc_cover s c : c < n s -> 0 < k -> ((exists m N m', darc s m N m' /\ In (Corner s c) N) <-> xorb (ins s) (Nat.odd (passed (segs s) c)) = true).
Proof.
  intros Hc Hk. rewrite <- (arc_cover F (ds s) (n s) k (segs s) (ins s) (R s) (pos_n s) (L s) (M s) even_k c Hc Hk). split.
  - intros [m [N [m' [[vs [-> [_ [_ H]]]] I]]]]. apply in_map_iff in I. destruct I as [c2 [E I]]. assert (c2 = c) by congruence. subst c2. destruct H as [A|A]; eexists; eexists; eexists; (split; [exact A|]); [exact I|apply in_rev in I; exact I].
  - intros [e [vs [x [A I]]]]. destruct (arc_entry _ _ _ _ _ _ A) as [E1 [E2 _]]. destruct (arc_exit _ _ _ _ _ _ A) as [X1 [X2 _]]. rewrite L in E2, X2.
    exists (e - n s), (map (Corner s) vs), (x - n s). split; [|apply in_map; exact I]. exists vs. split; [reflexivity|]. split; [lia|]. split; [lia|]. left. replace (n s + (e - n s)) with e by lia. replace (n s + (x - n s)) with x by lia. exact A.
Qed.
(** the walk along it *)
Lemma chain_path d l : chain F d l -> path (fun u v => fld next d u = Some v) l.
Proof. induction l as [|x l IH]; [auto|]. destruct l as [|y l]; [auto|]. intros [[N _] C]. split; [exact N|apply IH; exact C]. Qed.
Lemma chain_path_rev d : forall l, chain F d l -> path (fun u v => fld prev d u = Some v) (rev l).
Proof.
  intros l. induction l as [|x l IH]; [auto|]. destruct l as [|y l]; [auto|]. intros [[_ N] C]. fold (@chain F) in C. specialize (IH C). cbn [rev] in *. rewrite <- app_assoc in *. cbn [app] in *.
  change ([y] ++ [x]) with (y :: [x]). apply path_app. split; [exact IH|]. split; [exact N|exact I].
Qed.
Lemma chain_joined s l : chain F (ds s) l -> path (fun u v => links F (ds s) u v) l.
Proof. induction l as [|x l IH]; [auto|]. destruct l as [|y l]; [auto|]. intros [N C]. split; [exact N|apply IH; exact C]. Qed.
Lemma path_rev {A : Type} (Q : A -> A -> Prop) l : path Q l -> path (fun u v => Q v u) (rev l).
Proof.
  induction l as [|x l IH]; [auto|]. destruct l as [|y l]; [auto|]. intros [N C]. fold (@path A) in C. specialize (IH C). cbn [rev] in *. rewrite <- app_assoc in *. cbn [app] in *.
  change ([y] ++ [x]) with (y :: [x]). apply path_app. split; [exact IH|]. split; [exact N|exact I].
Qed.
Definition spot (s : bool) (u : nat) : place := if n s <=? u then Cross (u - n s) else Corner s u.
Lemma spot_at s u : vertex_at n s (spot s u) = Some u.
Proof. unfold spot. destruct (Nat.leb_spec (n s) u); cbn [vertex_at]; [f_equal; lia|rewrite eqb_reflx; reflexivity]. Qed.
Lemma spots s m vs m' : (forall v, In v vs -> v < n s) -> map (spot s) (n s + m :: vs ++ [n s + m']) = Cross m :: map (Corner s) vs ++ [Cross m'].
Proof.
  intros H. cbn [map]. rewrite map_app. cbn [map]. f_equal; [unfold spot; destruct (Nat.leb_spec (n s) (n s + m)); [f_equal; lia|lia]|]. f_equal.
  - apply map_ext_in. intros v Hv. unfold spot. specialize (H v Hv). destruct (Nat.leb_spec (n s) v); [lia|reflexivity].
  - f_equal. unfold spot. destruct (Nat.leb_spec (n s) (n s + m')); [f_equal; lia|lia].
Qed.
Lemma path_map {A B : Type} (f : A -> B) (Q : A -> A -> Prop) (Q' : B -> B -> Prop) l : (forall x y, Q x y -> Q' (f x) (f y)) -> path Q l -> path Q' (map f l).
Proof. intros H. induction l as [|x l IH]; [auto|]. destruct l as [|y l]; [auto|]. intros [N C]. split; [apply H; exact N|apply IH; exact C]. Qed.
Lemma darc_path s m N m' : darc s m N m' -> path (joined F ds n) (Cross m :: N ++ [Cross m']).
Proof.
  intros [vs [-> [_ [_ H]]]].
  assert (LT : forall v, In v vs -> v < n s) by (intros v Hv; destruct H as [A|A]; apply (arc_corners _ _ _ _ _ _ A); [exact Hv|apply in_rev in Hv; exact Hv]).
  rewrite <- (spots s m vs m' LT). destruct H as [A|A].
  - apply (path_map _ (fun u v => links F (ds s) u v)); [|apply chain_joined; apply A]. intros x y K. exists s, x, y. rewrite !spot_at. auto.
  - apply (path_map _ (fun u v => links F (ds s) v u)); [intros x y K; exists s, x, y; rewrite !spot_at; auto|].
    pose proof (path_rev _ _ (chain_joined s _ (arc_chain _ _ _ _ _ _ A))) as K. cbn [rev] in K. rewrite rev_app_distr in K. cbn [rev app] in K. rewrite rev_involutive in K. exact K.
Qed.
(** Flags only *)
Definition seen_in (m : nat) (V : list nat) : bool := existsb (Nat.eqb m) V.
Lemma seen_in_iff m V : seen_in m V = true <-> In m V.
Proof. unfold seen_in. rewrite existsb_exists. split; [intros [x [H E]]; apply Nat.eqb_eq in E; subst; exact H|intros H; exists m; split; [exact H|apply Nat.eqb_refl]]. Qed.
Record live (ab : list vertex * list vertex) (V : list nat) : Prop := Live {
  live_data : forall s, map (still F) (current F s ab) = map (still F) (ds s);
  live_seen : forall m, m < k -> fld seen (fst ab) (n true + m) = Some (seen_in m V)
}.
Lemma live_len ab V s : live ab V -> length (current F s ab) = n s + k.
Proof. intros [H _]. rewrite (map_len F (still F) _ _ (H s)). apply L. Qed.
Lemma live_field {B} (g : vertex -> B) ab V s i : live ab V -> (forall v w, still F v = still F w -> g v = g w) -> ClSpec.field F g (current F s ab) i = ClSpec.field F g (ds s) i.
Proof. intros [H _] G. apply (map_field F (still F)); [exact G|apply H]. Qed.
Lemma round_spec max start fuel ab s m N m' V o : live ab V -> darc s m N m' -> length (out F o) + length N + 1 <= max ->
  exists ab' P, arcs F (S fuel) ab s (n s + m) start o max =
    (if (n (negb s) + m' =? start) && negb s then Some (ab', Output F (out F o ++ P) (polys F o)) else arcs F fuel ab' (negb s) (n (negb s) + m') start (Output F (out F o ++ P) (polys F o)) max)
  /\ live ab' (m' :: V) /\ map Some P = map (where_ F ds n) (N ++ [Cross m']).
Proof.
  intros LV [vs [-> [Hm [Hm' H]]]] MA. rewrite map_length in MA.
  assert (LT : forall v, In v vs -> v < n s) by (intros v Hv; destruct H as [A|A]; apply (arc_corners _ _ _ _ _ _ A); [exact Hv|apply in_rev in Hv; exact Hv]).
  set (d := current F s ab). pose proof (live_len ab V s LV) as LD. fold d in LD.
  assert (exists v, nth_error d (n s + m) = Some v) as [v NV] by (destruct (nth_error d (n s + m)) as [v|] eqn:E; [exists v; reflexivity|apply nth_error_None in E; lia]).
  assert (EV : fld exit (ds s) (n s + m) = Some (exit F v)) by (rewrite <- (live_field (exit F) ab V s _ LV still_exit); fold d; unfold ClSpec.field; rewrite NV; reflexivity).
  assert (PA : path (fun u w => ClSpec.field F (if exit F v then prev F else next F) d u = Some w) (n s + m :: vs ++ [n s + m'])).
  { assert (G : forall (b : bool) l, path (fun u w => ClSpec.field F (if b then prev F else next F) (ds s) u = Some w) l -> path (fun u w => ClSpec.field F (if b then prev F else next F) d u = Some w) l).
    { intros b l. induction l as [|x l IHl]; [auto|]. destruct l as [|y l]; [auto|]. intros [Q1 Q2]. split; [|apply IHl; exact Q2]. rewrite <- Q1. unfold d. destruct b; apply (live_field _ ab V s); try exact LV; [apply still_prev|apply still_next]. }
    apply G. destruct H as [A|A].
    - destruct (arc_entry _ _ _ _ _ _ A) as [_ [_ K]]. assert (E : exit F v = false) by congruence. rewrite E. apply chain_path. apply A.
    - destruct (arc_exit _ _ _ _ _ _ A) as [_ [_ K]]. assert (E : exit F v = true) by congruence. rewrite E. pose proof (chain_path_rev _ _ (arc_chain _ _ _ _ _ _ A)) as Q. cbn [rev] in Q. rewrite rev_app_distr in Q. cbn [rev app] in Q. rewrite rev_involutive in Q. exact Q. }
  destruct (walk_spec (exit F v) (n s) max vs d (n s + m) (n s + m') (S max) o PA LT) as [d1 [P [E1 [M1 [W1 [S1 P1]]]]]]; [lia| |lia|lia|].
  { intros u Hu. unfold d. rewrite (live_field (isect F) ab V s u LV still_isect). apply (ring_corners _ _ _ _ (R s)). rewrite L. apply in_app_or in Hu. destruct Hu as [Hu|[<-|[]]]; [specialize (LT u Hu); lia|lia]. }
  assert (LD1 : length d1 = n s + k) by (rewrite (map_len F (still F) _ _ M1); exact LD).
  assert (M1' : map (still F) d1 = map (still F) (ds s)) by (rewrite M1; apply (live_data _ _ LV s)).
  assert (exists w, nth_error d1 (n s + m') = Some w /\ neighbor F w = n (negb s) + m') as [w [NW EW]].
  { destruct (nth_error d1 (n s + m')) as [w|] eqn:E; [|apply nth_error_None in E; lia]. exists w. split; [reflexivity|]. pose proof (NB s m' Hm') as K. rewrite <- (map_field F (still F) (neighbor F) (ds s) d1 (n s + m') still_neighbor M1') in K. unfold ClSpec.field in K. rewrite E in K. cbn [option_map] in K. congruence. }
  set (ab1 := with_current F s d1 ab). set (d2 := current F (negb s) ab1).
  assert (M2 : map (still F) d2 = map (still F) (ds (negb s))) by (unfold d2, ab1, with_current, current; destruct s; cbn [negb fst snd]; [apply (live_data _ _ LV false)|apply (live_data _ _ LV true)]).
  assert (LD2 : length d2 = n (negb s) + k) by (rewrite (map_len F (still F) _ _ M2); apply L).
  assert (exists w2, nth_error d2 (n (negb s) + m') = Some w2 /\ isect F w2 = true) as [w2 [NW2 IW2]].
  { destruct (nth_error d2 (n (negb s) + m')) as [w2|] eqn:E; [|apply nth_error_None in E; lia]. exists w2. split; [reflexivity|].
    pose proof (ring_corners _ _ _ _ (R (negb s)) (n (negb s) + m') ltac:(rewrite L; lia)) as K. rewrite <- (map_field F (still F) (isect F) _ _ _ still_isect M2) in K. unfold ClSpec.field in K. rewrite E in K. cbn [option_map] in K.
    destruct (Nat.leb_spec (n (negb s)) (n (negb s) + m')); [congruence|lia]. }
  destruct (update_spec d2 _ (set_seen F) w2 NW2) as [d3 [U3 [L3 [V3 W3]]]]. pose proof (update_map F (still F) d2 _ (set_seen F) d3 (fun _ => eq_refl) U3) as M3.
  exists (with_current F (negb s) d3 ab1), P. split; [|split; [|]].
  - cbn [arcs]. fold d. rewrite NV. cbv beta iota. rewrite E1. cbv beta iota. fold ab1. rewrite NW. cbv beta iota. rewrite EW. fold d2. rewrite U3. cbv beta iota. rewrite V3. cbv beta iota. unfold assert_. change (isect F (set_seen F w2)) with (isect F w2). rewrite IW2. reflexivity.
  - constructor.
    + intros t. destruct s, t; unfold with_current, current, ab1, with_current; cbn [negb fst snd]; [exact M1'|rewrite M3; exact M2|rewrite M3; exact M2|exact M1'].
    + intros m2 Hm2. change (seen_in m2 (m' :: V)) with ((m2 =? m') || seen_in m2 V). pose proof (live_seen _ _ LV m2 Hm2) as K. destruct s; unfold with_current, ab1, with_current; cbn [negb fst snd].
      * destruct (Nat.eqb_spec m2 m') as [->|NE]; cbn [orb]; [exact S1|]. unfold ClSpec.field. rewrite W1; [exact K|]. intros I. apply in_app_or in I. destruct I as [I|[I|[]]]; [specialize (LT _ I); lia|lia].
      * assert (E2 : d2 = fst ab) by reflexivity. destruct (Nat.eqb_spec m2 m') as [->|NE]; cbn [orb].
        -- unfold ClSpec.field. cbn [negb] in V3. rewrite V3. reflexivity.
        -- unfold ClSpec.field. rewrite W3 by (cbn [negb]; lia). rewrite E2. exact K.
  - rewrite P1, !map_app. cbn [map]. f_equal.
    + rewrite map_map. apply map_ext. intros u. cbn [where_]. apply (live_field (pos F) ab V s u LV still_pos).
    + f_equal. cbn [where_]. unfold d. rewrite (live_field (pos F) ab V s _ LV still_pos). destruct s; [reflexivity|]. symmetry. apply PL. exact Hm'.
Qed.

(** Crossings visited [V] and places written [E]; [op]: where the polygon that is being written starts *)
Record tracked (V : list nat) (op : option nat) (E : list place) : Prop := Tracked {
  tracked_nodup : NoDup E;
  tracked_cross : forall v, In (Cross v) E <-> In v V /\ op <> Some v;
  tracked_corner : forall s c, In (Corner s c) E <-> exists m N m', darc s m N m' /\ In (Corner s c) N /\ In m V /\ In m' V /\ (s = false -> op <> Some m /\ op <> Some m')
}.
Definition closed (V : list nat) : Prop := forall s v N v', In v V -> darc s v N v' -> In v' V.
Definition phase (s : bool) (V : list nat) (m m0 : nat) : Prop :=
  if s then (forall v N v', In v V -> v <> m -> darc true v N v' -> In v' V) /\ (forall N v', darc true m N v' -> ~ In v' V) /\ (forall v N v', In v V -> v <> m0 -> darc false v N v' -> In v' V)
  else m <> m0 /\ (forall v N v', In v V -> darc true v N v' -> In v' V) /\ (forall v N v', In v V -> v <> m0 -> v <> m -> darc false v N v' -> In v' V) /\ (forall N v', darc false m N v' -> v' = m0 \/ ~ In v' V).
Lemma track_step s V m m0 N m' E : tracked V (Some m0) E -> In m V -> In m0 V -> (forall v, In v V -> v < k) -> darc s m N m' -> ~ In m' V -> (s = false -> m <> m0) ->
  (forall N2 v, darc (negb s) m' N2 v -> In v V -> v = m0 /\ s = true) -> tracked (m' :: V) (Some m0) (E ++ N ++ [Cross m']).
Proof.
  intros [T1 T2 T3] Im Im0 BD D Nm' SF OTH. assert (N0 : m' <> m0) by (intros ->; contradiction). constructor.
  - apply nodup_app. split; [exact T1|]. split.
    + apply nodup_app. split; [apply (darc_nodup _ _ _ _ D)|]. split; [constructor; [intros []|constructor]|]. intros q Hq [<-|[]]. destruct (darc_corner _ _ _ _ _ D Hq) as [c [E1 _]]. discriminate.
    + intros q Hq Hq2. apply in_app_or in Hq2. destruct Hq2 as [Hq2|[<-|[]]]; [|apply T2 in Hq; apply Nm'; apply Hq].
      destruct (darc_corner _ _ _ _ _ D Hq2) as [c [-> _]]. apply T3 in Hq. destruct Hq as [a [N2 [a' [D2 [I2 [Va [Va' _]]]]]]]. destruct (darc_share _ _ _ _ _ _ _ _ D D2 Hq2 I2) as [[-> ->]|[-> ->]]; contradiction.
  - intros v. rewrite !in_app_iff. cbn [In]. split.
    + intros [H|[H|[H|[]]]]; [apply T2 in H; split; [right; apply H|apply H]|destruct (darc_corner _ _ _ _ _ D H) as [c [E1 _]]; discriminate|]. assert (v = m') by congruence. subst v. split; [left; reflexivity|congruence].
    + intros [[<-|H] O]; [right; right; left; reflexivity|left; apply T2; auto].
  - intros t c. rewrite !in_app_iff. cbn [In]. split.
    + intros [H|[H|[H|[]]]]; [| |discriminate].
      * apply T3 in H. destruct H as [a [N2 [a' [D2 [I2 [Va [Va' O]]]]]]]. exists a, N2, a'. split; [exact D2|]. split; [exact I2|]. split; [right; exact Va|]. split; [right; exact Va'|exact O].
      * destruct (darc_corner _ _ _ _ _ D H) as [c2 [E1 _]]. assert (t = s) by congruence. subst t. exists m, N, m'. split; [exact D|]. split; [exact H|]. split; [right; exact Im|]. split; [left; reflexivity|]. intros S. split; [intros Q; apply (SF S); congruence|congruence].
    + intros [a [N2 [a' [D2 [I2 [Va [Va' O]]]]]]].
      assert (G : forall b N3 b', darc t b N3 b' -> In (Corner t c) N3 -> In b (m' :: V) -> In b' (m' :: V) -> (t = false -> Some m0 <> Some b /\ Some m0 <> Some b') -> b = m' -> In (Corner t c) N).
      { intros b N3 b' D3 I3 _ Vb' O3 ->. destruct (Bool.bool_dec t s) as [->|NS].
        - destruct (darc_det s m' _ _ _ _ (darc_sym _ _ _ _ D) D3) as [E1 _]. apply in_rev. rewrite E1. exact I3.
        - assert (t = negb s) by (destruct t, s; try reflexivity; congruence). subst t. destruct Vb' as [<-|Vb']; [exfalso; apply (darc_irr _ _ _ D3)|]. destruct (OTH _ _ D3 Vb') as [-> S]. subst s. destruct (O3 eq_refl) as [_ K]. congruence. }
      destruct (Nat.eq_dec a m') as [Ea|Na]; [right; left; apply (G a N2 a' D2 I2 Va Va' O Ea)|].
      destruct (Nat.eq_dec a' m') as [Ea|Na']; [right; left; apply (G a' (rev N2) a (darc_sym _ _ _ _ D2) (proj1 (in_rev _ _) I2) Va' Va (fun S => conj (proj2 (O S)) (proj1 (O S))) Ea)|].
      left. apply T3. exists a, N2, a'. split; [exact D2|]. split; [exact I2|]. split; [destruct Va as [<-|Va]; [congruence|exact Va]|]. split; [destruct Va' as [<-|Va']; [congruence|exact Va']|exact O].
Qed.
Lemma step_true V m m0 N m' E : phase true V m m0 -> tracked V (Some m0) E -> In m V -> In m0 V -> (forall v, In v V -> v < k) -> darc true m N m' ->
  ~ In m' V /\ phase false (m' :: V) m' m0 /\ tracked (m' :: V) (Some m0) (E ++ N ++ [Cross m']).
Proof.
  intros [P1 [P2 P3]] T Im Im0 BD D. pose proof (P2 _ _ D) as NI. assert (N0 : m' <> m0) by (intros ->; contradiction).
  assert (BO : forall N2 v, darc false m' N2 v -> In v V -> v = m0).
  { intros N2 v D2 Iv. destruct (Nat.eq_dec v m0) as [E0|NE]; [exact E0|]. exfalso. apply NI. apply (P3 v _ m' Iv NE (darc_sym _ _ _ _ D2)). }
  split; [exact NI|]. split.
  - split; [exact N0|]. split; [|split].
    + intros v N2 v' [<-|Iv] D2.
      * destruct (darc_det _ _ _ _ _ _ (darc_sym _ _ _ _ D) D2) as [_ <-]. right. exact Im.
      * destruct (Nat.eq_dec v m) as [->|NE]; [destruct (darc_det _ _ _ _ _ _ D D2) as [_ <-]; left; reflexivity|right; apply (P1 v N2 v' Iv NE D2)].
    + intros v N2 v' [<-|Iv] N1 N3 D2; [congruence|]. right. apply (P3 v N2 v' Iv N1 D2).
    + intros N2 v' D2. destruct (in_dec Nat.eq_dec v' V) as [Iv|NV]; [left; apply (BO N2 v' D2 Iv)|]. right. intros [<-|Iv]; [apply (darc_irr _ _ _ D2)|contradiction].
  - apply (track_step true V m m0 N m' E T Im Im0 BD D NI); [discriminate|]. intros N2 v D2 Iv. split; [apply (BO N2 v D2 Iv)|reflexivity].
Qed.
Lemma step_false V m m0 N m' E : phase false V m m0 -> tracked V (Some m0) E -> In m V -> In m0 V -> (forall v, In v V -> v < k) -> darc false m N m' -> m' <> m0 ->
  ~ In m' V /\ phase true (m' :: V) m' m0 /\ tracked (m' :: V) (Some m0) (E ++ N ++ [Cross m']).
Proof.
  intros [P0 [P1 [P2 P3]]] T Im Im0 BD D N0. assert (NI : ~ In m' V) by (destruct (P3 _ _ D) as [K|K]; [contradiction|exact K]).
  assert (AO : forall N2 v, darc true m' N2 v -> In v V -> False) by (intros N2 v D2 Iv; apply NI; apply (P1 v _ m' Iv (darc_sym _ _ _ _ D2))).
  split; [exact NI|]. split.
  - split; [|split].
    + intros v N2 v' [<-|Iv] N1 D2; [congruence|]. right. apply (P1 v N2 v' Iv D2).
    + intros N2 v' D2 [<-|Iv]; [apply (darc_irr _ _ _ D2)|apply (AO _ _ D2 Iv)].
    + intros v N2 v' [<-|Iv] N1 D2.
      * destruct (darc_det _ _ _ _ _ _ (darc_sym _ _ _ _ D) D2) as [_ <-]. right. exact Im.
      * destruct (Nat.eq_dec v m) as [->|NE]; [destruct (darc_det _ _ _ _ _ _ D D2) as [_ <-]; left; reflexivity|right; apply (P2 v N2 v' Iv N1 NE D2)].
  - apply (track_step false V m m0 N m' E T Im Im0 BD D NI); [intros _; exact P0|]. intros N2 v D2 Iv. exfalso. apply (AO _ _ D2 Iv).
Qed.
Lemma step_close V m m0 N E : phase false V m m0 -> tracked V (Some m0) E -> In m V -> In m0 V -> (forall v, In v V -> v < k) -> darc false m N m0 ->
  closed V /\ tracked V None (E ++ N ++ [Cross m0]).
Proof.
  intros [P0 [P1 [P2 P3]]] [T1 T2 T3] Im Im0 BD D. split.
  - intros [|] v N2 v' Iv D2; [apply (P1 v N2 v' Iv D2)|]. destruct (Nat.eq_dec v m) as [->|NE]; [destruct (darc_det _ _ _ _ _ _ D D2) as [_ <-]; exact Im0|].
    destruct (Nat.eq_dec v m0) as [->|NE0]; [destruct (darc_det _ _ _ _ _ _ (darc_sym _ _ _ _ D) D2) as [_ <-]; exact Im|]. apply (P2 v N2 v' Iv NE0 NE D2).
  - constructor.
    + apply nodup_app. split; [exact T1|]. split.
      * apply nodup_app. split; [apply (darc_nodup _ _ _ _ D)|]. split; [constructor; [intros []|constructor]|]. intros q Hq [<-|[]]. destruct (darc_corner _ _ _ _ _ D Hq) as [c [E1 _]]. discriminate.
      * intros q Hq Hq2. apply in_app_or in Hq2. destruct Hq2 as [Hq2|[<-|[]]]; [|apply T2 in Hq; destruct Hq; congruence].
        destruct (darc_corner _ _ _ _ _ D Hq2) as [c [-> _]]. apply T3 in Hq. destruct Hq as [a [N2 [a' [D2 [I2 [Va [Va' O]]]]]]]. destruct (O eq_refl) as [O1 O2]. destruct (darc_share _ _ _ _ _ _ _ _ D D2 Hq2 I2) as [[-> ->]|[-> ->]]; congruence.
    + intros v. rewrite !in_app_iff. cbn [In]. split.
      * intros [H|[H|[H|[]]]]; [apply T2 in H; split; [apply H|discriminate]|destruct (darc_corner _ _ _ _ _ D H) as [c [E1 _]]; discriminate|]. assert (v = m0) by congruence. subst v. split; [exact Im0|discriminate].
      * intros [H _]. destruct (Nat.eq_dec v m0) as [->|NE]; [right; right; left; reflexivity|left; apply T2; split; [exact H|congruence]].
    + intros t c. rewrite !in_app_iff. cbn [In]. split.
      * intros [H|[H|[H|[]]]]; [| |discriminate].
        -- apply T3 in H. destruct H as [a [N2 [a' [D2 [I2 [Va [Va' O]]]]]]]. exists a, N2, a'. repeat (split; [assumption|]). intros _. split; discriminate.
        -- destruct (darc_corner _ _ _ _ _ D H) as [c2 [E1 _]]. assert (t = false) by congruence. subst t. exists m, N, m0. split; [exact D|]. split; [exact H|]. split; [exact Im|]. split; [exact Im0|]. intros _. split; discriminate.
      * intros [a [N2 [a' [D2 [I2 [Va [Va' _]]]]]]]. destruct t; [left; apply T3; exists a, N2, a'; repeat (split; [assumption|]); discriminate|].
        destruct (Nat.eq_dec a m0) as [->|Na].
        { destruct (darc_det _ _ _ _ _ _ (darc_sym _ _ _ _ D) D2) as [E1 _]. right. left. apply in_rev. rewrite E1. exact I2. }
        destruct (Nat.eq_dec a' m0) as [->|Na'].
        { destruct (darc_det _ _ _ _ _ _ (darc_sym _ _ _ _ D) (darc_sym _ _ _ _ D2)) as [E1 _]. right. left. apply in_rev. rewrite E1. apply in_rev in I2. exact I2. }
        left. apply T3. exists a, N2, a'. repeat (split; [assumption|]). intros _. split; congruence.
Qed.
Lemma track_length V op E : tracked V op E -> (forall v, In v V -> v < k) -> length E <= n true + n false + k.
Proof.
  intros [T1 T2 T3] BD. set (U := map (Corner true) (seq 0 (n true)) ++ map (Corner false) (seq 0 (n false)) ++ map Cross (seq 0 k)).
  replace (n true + n false + k) with (length U) by (unfold U; rewrite !app_length, !map_length, !seq_length; lia). apply NoDup_incl_length; [exact T1|]. intros [s c|v] Hq; unfold U; rewrite !in_app_iff.
  - apply T3 in Hq. destruct Hq as [a [N2 [a' [D2 [I2 _]]]]]. destruct (darc_corner _ _ _ _ _ D2 I2) as [c2 [E1 Hc]]. assert (c2 = c) by congruence. subst c2. destruct s; [left|right; left]; apply in_map; apply in_seq; lia.
  - apply T2 in Hq. right. right. apply in_map. apply in_seq. specialize (BD v (proj1 Hq)). lia.
Qed.
Lemma step_path m0 W m N m' : path (joined F ds n) (Cross m0 :: W) -> last (Cross m0 :: W) (Cross 0) = Cross m -> path (joined F ds n) (Cross m :: N ++ [Cross m']) -> path (joined F ds n) (Cross m0 :: W ++ N ++ [Cross m']).
Proof.
  intros P LA Q. destruct (exists_last (l := Cross m0 :: W)) as [w [z EZ]]; [discriminate|]. change (Cross m0 :: W ++ N ++ [Cross m']) with ((Cross m0 :: W) ++ N ++ [Cross m']). rewrite EZ in P, LA |- *. rewrite last_last in LA. subst z.
  rewrite <- app_assoc. cbn [app]. apply path_app. split; assumption.
Qed.

Lemma arcs_spec m0 max E0 : n true + n false + k <= max -> forall fuel ab s m V W o, live ab V -> NoDup V -> (forall v, In v V -> v < k) -> In m V -> In m0 V -> phase s V m m0 -> tracked V (Some m0) (E0 ++ W) ->
  path (joined F ds n) (Cross m0 :: W) -> last (Cross m0 :: W) (Cross 0) = Cross m -> map Some (out F o) = map (where_ F ds n) (E0 ++ W) -> k - length V < fuel ->
  exists ab' o' V' W', arcs F fuel ab s (n s + m) (n true + m0) o max = Some (ab', o') /\ live ab' V' /\ NoDup V' /\ (forall v, In v V' -> v < k) /\ closed V' /\ incl V V' /\ tracked V' None (E0 ++ W')
  /\ path (joined F ds n) (Cross m0 :: W') /\ W' <> [] /\ last W' (Cross 0) = Cross m0 /\ map Some (out F o') = map (where_ F ds n) (E0 ++ W') /\ polys F o' = polys F o /\ (s = true -> S (length V) <= length V').
Proof.
  intros MA. induction fuel as [|fuel IH]; intros ab s m V W o LV ND BD Im Im0 PH T PA LA OU FU; [lia|].
  assert (LNV : forall V2, NoDup V2 -> (forall v, In v V2 -> v < k) -> length V2 <= k) by (intros V2 N2 B2; rewrite <- (seq_length k 0); apply NoDup_incl_length; [exact N2|]; intros v Hv; apply in_seq; specialize (B2 v Hv); lia).
  destruct (darc_total s m (BD m Im)) as [N [m' D]]. destruct (darc_lt _ _ _ _ D) as [_ Hm'].
  assert (LO : length (out F o) = length (E0 ++ W)) by (rewrite <- (map_length Some), OU, map_length; reflexivity).
  destruct s.
  - destruct (step_true V m m0 N m' (E0 ++ W) PH T Im Im0 BD D) as [NI [PH' T']]. rewrite <- app_assoc in T'.
    assert (BD' : forall v, In v (m' :: V) -> v < k) by (intros v [<-|Hv]; [exact Hm'|apply BD; exact Hv]). assert (ND' : NoDup (m' :: V)) by (constructor; assumption).
    pose proof (track_length _ _ _ T' BD') as TL. pose proof (LNV _ ND' BD') as LV2. cbn [length] in LV2.
    destruct (round_spec max (n true + m0) fuel ab true m N m' V o LV D) as [ab1 [P [E1 [L1 P1]]]]; [rewrite LO; rewrite !app_length in *; cbn [length] in TL; lia|].
    rewrite E1. cbn [negb]. rewrite andb_false_r.
    destruct (IH ab1 false m' (m' :: V) (W ++ N ++ [Cross m']) (Output F (out F o ++ P) (polys F o)) L1 ND' BD' (or_introl eq_refl) (or_intror Im0) PH' T') as [ab' [o' [V' [W' K]]]].
    + apply (step_path m0 W m N m' PA LA (darc_path _ _ _ _ D)).
    + change (Cross m0 :: W ++ N ++ [Cross m']) with ((Cross m0 :: W) ++ N ++ [Cross m']). rewrite app_assoc. apply last_last.
    + cbn [out]. rewrite map_app, OU, P1, !map_app, !app_assoc. reflexivity.
    + cbn [length]. lia.
    + destruct K as [K1 [K2 [K3 [K4 [K5 [K6 [K7 [K8 [K9 [K10 [K11 [K12 K13]]]]]]]]]]]]. exists ab', o', V', W'. split; [exact K1|]. repeat (split; [assumption|]). split; [intros v Hv; apply K6; right; exact Hv|]. repeat (split; [assumption|]).
      intros _. apply (NoDup_incl_length ND') in K6. exact K6.
  - destruct (Nat.eq_dec m' m0) as [->|NE].
    + destruct (step_close V m m0 N (E0 ++ W) PH T Im Im0 BD D) as [CL T']. rewrite <- app_assoc in T'. pose proof (track_length _ _ _ T' BD) as TL.
      destruct (round_spec max (n true + m0) fuel ab false m N m0 V o LV D) as [ab1 [P [E1 [L1 P1]]]]; [rewrite LO; rewrite !app_length in *; cbn [length] in TL; lia|].
      rewrite E1. cbn [negb]. rewrite Nat.eqb_refl. cbn [andb]. exists ab1, (Output F (out F o ++ P) (polys F o)), V, (W ++ N ++ [Cross m0]). split; [reflexivity|].
      split; [destruct L1 as [Q1 Q2]; constructor; [exact Q1|]; intros m2 Hm2; rewrite (Q2 m2 Hm2); f_equal; apply eq_true_iff_eq; rewrite !seen_in_iff; cbn [In]; split; [intros [<-|Q]; [exact Im0|exact Q]|intros Q; right; exact Q]|].
      split; [exact ND|]. split; [exact BD|]. split; [exact CL|]. split; [intros v Hv; exact Hv|]. split; [exact T'|]. split; [apply (step_path m0 W m N m0 PA LA (darc_path _ _ _ _ D))|].
      split; [destruct W; [destruct N; discriminate|discriminate]|]. split; [rewrite app_assoc; apply last_last|]. split; [cbn [out]; rewrite map_app, OU, P1, !map_app, !app_assoc; reflexivity|]. split; [reflexivity|discriminate].
    + destruct (step_false V m m0 N m' (E0 ++ W) PH T Im Im0 BD D NE) as [NI [PH' T']]. rewrite <- app_assoc in T'.
      assert (BD' : forall v, In v (m' :: V) -> v < k) by (intros v [<-|Hv]; [exact Hm'|apply BD; exact Hv]). assert (ND' : NoDup (m' :: V)) by (constructor; assumption).
      pose proof (track_length _ _ _ T' BD') as TL. pose proof (LNV _ ND' BD') as LV2. cbn [length] in LV2.
      destruct (round_spec max (n true + m0) fuel ab false m N m' V o LV D) as [ab1 [P [E1 [L1 P1]]]]; [rewrite LO; rewrite !app_length in *; cbn [length] in TL; lia|].
      rewrite E1. cbn [negb]. destruct (Nat.eqb_spec (n true + m') (n true + m0)) as [C|_]; [lia|]. cbn [andb].
      destruct (IH ab1 true m' (m' :: V) (W ++ N ++ [Cross m']) (Output F (out F o ++ P) (polys F o)) L1 ND' BD' (or_introl eq_refl) (or_intror Im0) PH' T') as [ab' [o' [V' [W' K]]]].
      * apply (step_path m0 W m N m' PA LA (darc_path _ _ _ _ D)).
      * change (Cross m0 :: W ++ N ++ [Cross m']) with ((Cross m0 :: W) ++ N ++ [Cross m']). rewrite app_assoc. apply last_last.
      * cbn [out]. rewrite map_app, OU, P1, !map_app, !app_assoc. reflexivity.
      * cbn [length]. lia.
      * destruct K as [K1 [K2 [K3 [K4 [K5 [K6 [K7 [K8 [K9 [K10 [K11 [K12 K13]]]]]]]]]]]]. exists ab', o', V', W'. split; [exact K1|]. repeat (split; [assumption|]). split; [intros v Hv; apply K6; right; exact Hv|]. repeat (split; [assumption|]). discriminate.
Qed.

Lemma ranges_length {A : Type} : forall (Es : list (list A)) st, length (ranges st Es) = length Es.
Proof. induction Es as [|E Es IH]; intros st; [reflexivity|]. cbn [ranges length]. rewrite IH. reflexivity. Qed.
Lemma ranges_snoc {A : Type} (E : list A) : forall Es st, ranges st (Es ++ [E]) = ranges st Es ++ [(st + length (concat Es), Some (length E))].
Proof. induction Es as [|X Es IH]; intros st; cbn [app ranges concat length]; [rewrite Nat.add_0_r; reflexivity|]. rewrite IH, app_length, Nat.add_assoc. reflexivity. Qed.
Lemma set_size_snoc l st x m : set_size (l ++ [(st, x)]) m = l ++ [(st, Some (m - st))].
Proof. unfold set_size. rewrite rev_app_distr. cbn [rev app]. rewrite rev_involutive. reflexivity. Qed.
Definition done_ (V : list nat) (Es : list (list place)) (o : output F) (has : bool) : Prop :=
  tracked V None (concat Es) /\ Forall (closed_walk F ds n) Es /\ map Some (out F o) = map (where_ F ds n) (concat Es) /\ set_size (polys F o) (length (out F o)) = ranges 0 Es
  /\ has = negb (match Es with [] => true | _ => false end) /\ 2 * length Es <= length V.
Lemma loop_spec maxp max : n true + n false + k <= max -> k <= 2 * maxp -> forall l fuel ab has o V Es, path (fun u v => fld next (ds true) u = Some v) (l ++ [0]) -> ~ In 0 l -> (forall u, In u l -> u < n true + k) -> length l <= fuel ->
  live ab V -> NoDup V -> (forall v, In v V -> v < k) -> closed V -> done_ V Es o has ->
  exists ab' has' o' V' Es', emit_loop F fuel ab (hd 0 l) has o maxp max = Some (ab', has', o') /\ live ab' V' /\ NoDup V' /\ (forall v, In v V' -> v < k) /\ done_ V' Es' o' has' /\ incl V V' /\ (forall m, In (n true + m) l -> In m V').
Proof.
  intros MA MP. induction l as [|i l IH]; intros fuel ab has o V Es PA N0 LT FU LV ND BD CL DN.
  - exists ab, has, o, V, Es. split; [destruct fuel; reflexivity|]. repeat (split; [assumption|]). split; [intros v Hv; exact Hv|intros m []].
  - destruct fuel as [|fuel]; [cbn [length] in FU; lia|]. cbn [hd emit_loop]. destruct (Nat.eqb_spec i 0) as [->|NI]; [exfalso; apply N0; left; reflexivity|].
    assert (NX : fld next (ds true) i = Some (hd 0 l) /\ path (fun u v => fld next (ds true) u = Some v) (l ++ [0])) by (cbn [app] in PA; destruct l as [|j l]; cbn [app hd] in *; destruct PA as [PA1 PA2]; split; assumption). destruct NX as [NX PA'].
    pose proof (LT i (or_introl eq_refl)) as Hi. assert (Hi' : i < length (ds true)) by (rewrite L; exact Hi).
    assert (exists v, nth_error (fst ab) i = Some v) as [v NV] by (destruct (nth_error (fst ab) i) as [v|] eqn:E; [exists v; reflexivity|apply nth_error_None in E; pose proof (live_len ab V true LV) as LL; cbn [current] in LL; lia]).
    rewrite NV. cbv beta iota.
    assert (IV : isect F v = (n true <=? i)). { pose proof (ring_corners _ _ _ _ (R true) i Hi') as K. rewrite <- (live_field (isect F) ab V true i LV still_isect) in K. cbn [current] in K. unfold ClSpec.field in K. rewrite NV in K. cbn [option_map] in K. congruence. }
    (* the part after the body *)
    assert (GO : forall ab1 has1 o1 V1 Es1, live ab1 V1 -> NoDup V1 -> (forall v, In v V1 -> v < k) -> closed V1 -> done_ V1 Es1 o1 has1 -> incl V V1 -> (forall m, i = n true + m -> In m V1) ->
      exists ab' has' o' V' Es', (v <- nth_error (fst ab1) i ;; emit_loop F fuel ab1 (next F v) has1 o1 maxp max) = Some (ab', has', o') /\ live ab' V' /\ NoDup V' /\ (forall v, In v V' -> v < k) /\ done_ V' Es' o' has' /\ incl V V' /\ (forall m, In (n true + m) (i :: l) -> In m V')).
    { intros ab1 has1 o1 V1 Es1 LV1 ND1 BD1 CL1 DN1 IN1 IM1.
      assert (exists v1, nth_error (fst ab1) i = Some v1 /\ next F v1 = hd 0 l) as [v1 [NV1 EN1]].
      { pose proof NX as K. rewrite <- (live_field (next F) ab1 V1 true i LV1 still_next) in K. cbn [current] in K. unfold ClSpec.field in K. destruct (nth_error (fst ab1) i) as [v1|]; [|discriminate]. exists v1. split; [reflexivity|]. cbn [option_map] in K. congruence. }
      rewrite NV1. cbv beta iota. rewrite EN1.
      destruct (IH fuel ab1 has1 o1 V1 Es1 PA') as [ab' [has' [o' [V' [Es' [K1 [K2 [K3 [K4 [K5 [K6 K7]]]]]]]]]]]; try assumption; [intros K; apply N0; right; exact K|intros u Hu; apply LT; right; exact Hu|cbn [length] in FU; lia|].
      exists ab', has', o', V', Es'. split; [exact K1|]. split; [exact K2|]. split; [exact K3|]. split; [exact K4|]. split; [exact K5|]. split; [intros w Hw; apply K6; apply IN1; exact Hw|]. intros m [E|Hm]; [apply K6; apply IM1; exact E|apply K7; exact Hm]. }
    rewrite IV. destruct (Nat.leb_spec (n true) i) as [C|C]; cbn [andb].
    + set (m0 := i - n true). assert (Ei : i = n true + m0) by (unfold m0; lia). assert (Hm0 : m0 < k) by lia. clearbody m0.
      assert (SV : seen F v = seen_in m0 V). { pose proof (live_seen _ _ LV m0 Hm0) as K. rewrite <- Ei in K. unfold ClSpec.field in K. rewrite NV in K. cbn [option_map] in K. congruence. }
      rewrite SV. destruct (seen_in m0 V) eqn:SI; cbn [negb].
      * cbv beta iota. apply (GO ab has o V Es); try assumption; [intros w Hw; exact Hw|]. intros m Em. apply seen_in_iff. replace m with m0 by lia. exact SI.
      * assert (NIN : ~ In m0 V) by (intros K; apply seen_in_iff in K; congruence). clear SI.
        destruct (update_spec (fst ab) i (set_seen F) v NV) as [d [U [L1 [V1 W1]]]]. rewrite U. cbv beta iota. destruct DN as [T [FW [OU [PO [HA CN]]]]].
        rewrite PO, ranges_length. 
        assert (ND1 : NoDup (m0 :: V)) by (constructor; assumption). assert (BD1 : forall w, In w (m0 :: V) -> w < k) by (intros w [<-|Hw]; [exact Hm0|apply BD; exact Hw]).
        destruct (darc_total true m0 Hm0) as [N [m1 D]]. pose proof (darc_lt _ _ _ _ D) as [_ Hm1].
        assert (NM1 : ~ In m1 (m0 :: V)). { intros [<-|K]; [apply (darc_irr _ _ _ D)|]. apply NIN. apply (CL true m1 _ m0 K (darc_sym _ _ _ _ D)). }
        assert (LK : S (S (length V)) <= k). { rewrite <- (seq_length k 0). change (S (S (length V))) with (length (m1 :: m0 :: V)). apply NoDup_incl_length; [constructor; assumption|]. intros w [<-|Hw]; apply in_seq; [lia|specialize (BD1 w Hw); lia]. }
        unfold assert_. destruct (Nat.leb_spec (length Es + 1) maxp) as [_|Q]; [|lia]. cbv beta iota zeta.
        assert (M1 : map (still F) d = map (still F) (fst ab)) by (apply (update_map F (still F) (fst ab) i (set_seen F) d); [reflexivity|exact U]).
        assert (LV1 : live (d, snd ab) (m0 :: V)).
        { constructor.
          - intros [|]; cbn [current fst snd]; [rewrite M1; apply (live_data _ _ LV true)|apply (live_data _ _ LV false)].
          - intros m Hm. cbn [fst]. change (seen_in m (m0 :: V)) with ((m =? m0) || seen_in m V). destruct (Nat.eqb_spec m m0) as [->|NE]; cbn [orb].
            + rewrite <- Ei. unfold ClSpec.field. rewrite V1. reflexivity.
            + unfold ClSpec.field. rewrite W1 by lia. apply (live_seen _ _ LV m Hm). }
        assert (T1 : tracked (m0 :: V) (Some m0) (concat Es ++ [])).
        { rewrite app_nil_r. destruct T as [T1 T2 T3]. constructor; [exact T1| |].
          - intros w. rewrite T2. cbn [In]. split; [intros [K _]; split; [right; exact K|intros Q; assert (w = m0) by congruence; subst; contradiction]|intros [[<-|K] Q]; [congruence|split; [exact K|discriminate]]].
          - intros s c. rewrite T3. split.
            + intros [a [N2 [a' [D2 [I2 [Va [Va' _]]]]]]]. exists a, N2, a'. split; [exact D2|]. split; [exact I2|]. split; [right; exact Va|]. split; [right; exact Va'|]. intros _. split; intros Q; [assert (a = m0) by congruence|assert (a' = m0) by congruence]; subst; contradiction.
            + intros [a [N2 [a' [D2 [I2 [Va [Va' O]]]]]]].
              assert (G : In a V /\ In a' V). { destruct Va as [<-|Va]; destruct Va' as [<-|Va'].
                - exfalso. apply (darc_irr _ _ _ D2).
                - exfalso. apply NIN. apply (CL s a' _ m0 Va' (darc_sym _ _ _ _ D2)).
                - exfalso. apply NIN. apply (CL s a _ m0 Va D2).
                - split; assumption. }
              exists a, N2, a'. split; [exact D2|]. split; [exact I2|]. split; [apply G|]. split; [apply G|]. intros _. split; discriminate. }
        assert (PH : phase true (m0 :: V) m0 m0).
        { split; [|split].
          - intros w N2 w' [<-|Hw] NE D2; [congruence|]. right. apply (CL true w N2 w' Hw D2).
          - intros N2 w' D2. destruct (darc_det _ _ _ _ _ _ D D2) as [_ <-]. exact NM1.
          - intros w N2 w' [<-|Hw] NE D2; [congruence|]. right. apply (CL false w N2 w' Hw D2). }
        destruct (arcs_spec m0 max (concat Es) MA (S max) (d, snd ab) true m0 (m0 :: V) [] (Output F (out F o) (ranges 0 Es ++ [(length (out F o), None)])) LV1 ND1 BD1 (or_introl eq_refl) (or_introl eq_refl) PH T1)
          as [ab1 [o1 [V2 [W [A1 [A2 [A3 [A4 [A5 [A6 [A7 [A8 [A9 [A10 [A11 [A12 A13]]]]]]]]]]]]]]]].
        -- exact I.
        -- reflexivity.
        -- cbn [out]. rewrite app_nil_r. exact OU.
        -- cbn [length]. lia.
        -- rewrite <- Ei in A1. rewrite A1. cbv beta iota. apply (GO ab1 true o1 V2 (Es ++ [W])); try assumption.
           ++ split; [rewrite concat_app; cbn [concat]; rewrite app_nil_r; exact A7|]. split; [apply Forall_app; split; [exact FW|]; constructor; [split; [exact A9|rewrite A10; exact A8]|constructor]|].
              split; [rewrite concat_app; cbn [concat]; rewrite app_nil_r; exact A11|]. split.
              ** rewrite A12. cbn [polys]. rewrite set_size_snoc, ranges_snoc. cbn [Nat.add]. assert (LO1 : length (out F o1) = length (concat Es ++ W)) by (rewrite <- (map_length Some), A11, map_length; reflexivity). assert (LO : length (out F o) = length (concat Es)) by (rewrite <- (map_length Some), OU, map_length; reflexivity).
                 rewrite LO1, LO, app_length. replace (length (concat Es) + length W - length (concat Es)) with (length W) by lia. reflexivity.
              ** split; [destruct Es; reflexivity|]. rewrite app_length. cbn [length]. specialize (A13 eq_refl). cbn [length] in A13. lia.
           ++ intros w Hw. apply A6. right. exact Hw.
           ++ intros m Em. assert (m = m0) by lia. subst m. apply A6. left. reflexivity.
    + cbv beta iota. apply (GO ab has o V Es); try assumption; [intros w Hw; exact Hw|]. intros m Em. lia.
Qed.
End Rings.

Definition pair_of {A : Type} (x y : A) (s : bool) : A := if s then x else y.
Theorem emit_correct a b (segs : bool -> nat -> list nat) (ins : bool -> bool) k maxp max : let ds := pair_of (data F a) (data F b) in let n := pair_of (original F a) (original F b) in
  (forall s, ring F (ds s) (n s) (segs s)) -> (forall s, 0 < n s) -> (forall s, length (ds s) = n s + k) -> (forall s, marks F (ds s) (n s) (order (n s) (segs s)) (ins s)) -> Nat.even k = true ->
  (forall s m, m < k -> fld neighbor (ds s) (n s + m) = Some (n (negb s) + m)) -> (forall m, m < k -> fld pos (ds true) (n true + m) = fld pos (ds false) (n false + m)) ->
  (forall m, m < k -> fld seen (data F a) (original F a + m) = Some false) -> original F a + original F b + k <= max -> k <= 2 * maxp -> 0 < k ->
  exists o Es, emit F a b maxp max = Some o /\ written F ds n segs ins k o Es.
Proof.
  intros ds n R pn L M EK NB PL SE MA MP K0. set (na := original F a) in *. set (nb := original F b) in *.
  assert (EV : exists v0 d0, data F a = v0 :: d0) by (pose proof (L true) as L0; pose proof (pn true) as P0; cbn [ds n pair_of] in L0, P0; destruct (data F a) as [|v0 d0]; [cbn [length] in L0; lia|exists v0, d0; reflexivity]).
  destruct EV as [v0 [d0 ED]]. destruct (order_cons (n true) (segs true) (pn true)) as [rest E]. pose proof (ring_chain _ _ _ _ (R true)) as CH. pose proof (ring_nodup _ _ _ _ (R true)) as ND. rewrite E in CH, ND. cbn [app] in CH.
  apply chain_path in CH.
  assert (NX : next F v0 = hd 0 rest /\ path (fun u v => fld next (ds true) u = Some v) (rest ++ [0])).
  { destruct rest as [|j rest]; cbn [app hd] in *; destruct CH as [C1 C2]; (split; [|exact C2]); unfold ds, pair_of, ClSpec.field in C1; rewrite ED in C1; cbn [nth_error option_map] in C1; congruence. }
  destruct NX as [NX PA]. inversion ND as [|x l N0 ND1]. subst x l.
  assert (INR : forall u, In u rest -> u < n true + k) by (intros u Hu; rewrite <- L; apply (ring_all _ _ _ _ (R true)); rewrite E; right; exact Hu).
  destruct (loop_spec ds n segs ins k R pn L M EK NB PL maxp max MA MP rest (S (length (data F a))) (data F a, data F b) false (Output F [] []) [] [] PA N0 INR) as [ab' [has' [o' [V' [Es [A1 [A2 [A3 [A4 [A5 [A6 A7]]]]]]]]]]].
  - pose proof (L true) as L0. cbn [ds pair_of] in L0. rewrite L0. rewrite <- (seq_length (n true + k) 0). apply le_S. apply NoDup_incl_length; [exact ND1|]. intros u Hu. apply in_seq. specialize (INR u Hu). lia.
  - constructor; [intros [|]; reflexivity|]. intros m Hm. apply SE. exact Hm.
  - constructor.
  - intros v [].
  - intros s v N v' [].
  - split; [constructor; [constructor| |]|split; [constructor|split; [reflexivity|split; [reflexivity|split; [reflexivity|cbn [length]; lia]]]]].
    + intros v. split; [intros []|intros [[] _]].
    + intros s c. split; [intros []|intros [m [N [m' [_ [_ [[] _]]]]]]].
  - destruct A5 as [T [FW [OU [PO [HA CN]]]]].
    assert (ALL : forall m, m < k -> In m V').
    { intros m Hm. apply A7. assert (IO : In (n true + m) (order (n true) (segs true))) by (apply (ring_all _ _ _ _ (R true)); rewrite L; lia). rewrite E in IO. destruct IO as [IO|IO]; [specialize (pn true); lia|exact IO]. }
    assert (HT : has' = true).
    { rewrite HA. destruct Es as [|X Es]; [|reflexivity]. exfalso. destruct T as [_ T2 _]. cbn [concat] in T2. specialize (T2 0). apply (proj2 T2). split; [apply ALL; lia|discriminate]. }
    exists (Output F (out F o') (set_size (polys F o') (length (out F o')))), Es. split.
    + unfold emit. assert (EM : forall B (x : B) (f : vertex -> list vertex -> B), match data F a with [] => x | v :: l => f v l end = f v0 d0) by (intros; rewrite ED; reflexivity).
      rewrite EM. rewrite NX, A1. cbv beta iota zeta. rewrite HT. reflexivity.
    + split; [exact OU|]. split; [exact PO|]. split; [exact FW|]. destruct T as [T1 T2 T3]. split; [exact T1|]. split.
      * intros m. rewrite T2. split; [intros [K _]; apply A4; exact K|intros K; split; [apply ALL; exact K|discriminate]].
      * intros s c. rewrite T3. split.
        -- intros [m [N [m' [D [I1 _]]]]]. destruct (darc_corner ds n k s m N m' _ D I1) as [c2 [Ec Hc]]. assert (c2 = c) by congruence. subst c2. split; [exact Hc|].
           apply (darc_cover ds n segs ins k R pn L M EK s c Hc K0). exists m, N, m'. split; assumption.
        -- intros [Hc B]. apply (darc_cover ds n segs ins k R pn L M EK s c Hc K0) in B. destruct B as [m [N [m' [D I1]]]]. exists m, N, m'. destruct (darc_lt ds n k s m N m' D) as [H1 H2]. split; [exact D|]. split; [exact I1|]. split; [apply ALL; exact H1|]. split; [apply ALL; exact H2|]. intros _. split; discriminate.
Qed.
Theorem emit_apart a b (segs : bool -> nat -> list nat) (ins : bool -> bool) maxp max v0 w0 : let ds := pair_of (data F a) (data F b) in let n := pair_of (original F a) (original F b) in
  (forall s, ring F (ds s) (n s) (segs s)) -> (forall s, 0 < n s) -> (forall s, length (ds s) = n s) -> (forall s, marks F (ds s) (n s) (order (n s) (segs s)) (ins s)) ->
  nth_error (data F a) 0 = Some v0 -> nth_error (data F b) 0 = Some w0 -> original F a + original F b <= max -> 1 <= maxp ->
  emit F a b maxp max = Some (if inside F b (pos F v0) then Output F (outline F a) [(0, Some (original F a))] else if inside F a (pos F w0) then Output F (outline F b) [(0, Some (original F b))] else Output F [] []).
Proof.
  intros ds n R pn L M NV NW MA MP. assert (L0 : forall s, length (ds s) = n s + 0) by (intros s; rewrite L; lia).
  assert (EV : exists d0, data F a = v0 :: d0) by (destruct (data F a) as [|v d0]; [discriminate|]; cbn [nth_error] in NV; exists d0; congruence). destruct EV as [d0 ED].
  destruct (order_cons (n true) (segs true) (pn true)) as [rest E]. pose proof (ring_chain _ _ _ _ (R true)) as CH. pose proof (ring_nodup _ _ _ _ (R true)) as ND. rewrite E in CH, ND. cbn [app] in CH.
  apply chain_path in CH.
  assert (NX : next F v0 = hd 0 rest /\ path (fun u v => fld next (ds true) u = Some v) (rest ++ [0])).
  { destruct rest as [|j rest]; cbn [app hd] in *; destruct CH as [C1 C2]; (split; [|exact C2]); unfold ds, pair_of, ClSpec.field in C1; rewrite ED in C1; cbn [nth_error option_map] in C1; congruence. }
  destruct NX as [NX PA]. inversion ND as [|x l N0 ND1]. subst x l.
  assert (INR : forall u, In u rest -> u < n true + 0) by (intros u Hu; rewrite <- L0; apply (ring_all _ _ _ _ (R true)); rewrite E; right; exact Hu).
  destruct (loop_spec ds n segs ins 0 R pn L0 M eq_refl ltac:(intros s m Hm; lia) ltac:(intros m Hm; lia) maxp max ltac:(rewrite Nat.add_0_r; exact MA) ltac:(lia) rest (S (length (data F a))) (data F a, data F b) false (Output F [] []) [] [] PA N0 INR) as [ab' [has' [o' [V' [Es [A1 [A2 [A3 [A4 [A5 [A6 A7]]]]]]]]]]].
  - pose proof (L0 true) as L1. cbn [ds pair_of] in L1. rewrite L1. rewrite <- (seq_length (n true + 0) 0). apply le_S. apply NoDup_incl_length; [exact ND1|]. intros u Hu. apply in_seq. specialize (INR u Hu). lia.
  - constructor; [intros [|]; reflexivity|]. intros m Hm. lia.
  - constructor.
  - intros v [].
  - intros s v N v' [].
  - split; [constructor; [constructor| |]|split; [constructor|split; [reflexivity|split; [reflexivity|split; [reflexivity|cbn [length]; lia]]]]].
    + intros v. split; [intros []|intros [[] _]].
    + intros s c. split; [intros []|intros [m [N [m' [_ [_ [[] _]]]]]]].
  - destruct A5 as [T [FW [OU [PO [HA CN]]]]]. assert (VN : V' = []) by (destruct V' as [|v V']; [reflexivity|]; specialize (A4 v (or_introl eq_refl)); lia). subst V'. cbn [length] in CN.
    destruct Es as [|X Es]; [|cbn [length] in CN; lia]. cbn [negb] in HA. subst has'. cbn [ranges concat map] in PO, OU. assert (OE : out F o' = []) by (destruct (out F o'); [reflexivity|discriminate]).
    assert (PE : polys F o' = []) by (unfold set_size in PO; destruct (rev (polys F o')) as [|[st x] r] eqn:RV; [rewrite <- (rev_involutive (polys F o')), RV; reflexivity|destruct (rev r); discriminate]).
    assert (MA1 : map (still F) (fst ab') = map (still F) (data F a)) by apply (live_data _ _ _ _ _ A2 true). assert (MB1 : map (still F) (snd ab') = map (still F) (data F b)) by apply (live_data _ _ _ _ _ A2 false).
    assert (IA : forall q, inside F (with_data F (fst ab') a) q = inside F a q) by (intros q; apply (inside_frame F (still F)); [apply still_pos|reflexivity|exact MA1]).
    assert (IB : forall q, inside F (with_data F (snd ab') b) q = inside F b q) by (intros q; apply (inside_frame F (still F)); [apply still_pos|reflexivity|exact MB1]).
    assert (OA : outline F (with_data F (fst ab') a) = outline F a) by (apply (outline_frame F (still F)); [apply still_pos|reflexivity|exact MA1]).
    assert (OB : outline F (with_data F (snd ab') b) = outline F b) by (apply (outline_frame F (still F)); [apply still_pos|reflexivity|exact MB1]).
    assert (LA : length (outline F a) = original F a) by (unfold outline; rewrite map_length, firstn_length; pose proof (L true) as Q; cbn [ds n pair_of] in Q; lia).
    assert (LB : length (outline F b) = original F b) by (unfold outline; rewrite map_length, firstn_length; pose proof (L false) as Q; cbn [ds n pair_of] in Q; lia).
    assert (W1 : exists w1 d1, snd ab' = w1 :: d1 /\ pos F w1 = pos F w0).
    { pose proof (f_equal (fun l => nth_error l 0) MB1) as Q. cbv beta in Q. rewrite !ClFind.nth_error_map, NW in Q. destruct (snd ab') as [|w1 d1]; [discriminate|]. exists w1, d1. split; [reflexivity|]. cbn [nth_error option_map] in Q. apply still_pos. congruence. }
    destruct W1 as [w1 [d1 [EW PW]]].
    unfold emit. assert (EM : forall B (x : B) (f : vertex -> list vertex -> B), match data F a with [] => x | v :: l => f v l end = f v0 d0) by (intros; rewrite ED; reflexivity).
    rewrite EM. rewrite NX, A1. cbv beta iota zeta. rewrite IB, OA. destruct (inside F b (pos F v0)).
    + rewrite PE. cbn [length Nat.add]. unfold assert_. destruct (Nat.leb_spec 1 maxp) as [_|Q]; [|lia]. cbv beta iota. cbn [out polys set_size rev app]. rewrite firstn_all2 by lia. rewrite LA, Nat.sub_0_r. reflexivity.
    + assert (EM2 : forall B (x : B) (f : vertex -> list vertex -> B), match data F (with_data F (snd ab') b) with [] => x | v :: l => f v l end = f w1 d1) by (intros; cbn [with_data data]; rewrite EW; reflexivity).
      rewrite EM2, IA, PW, OB. destruct (inside F a (pos F w0)).
      * rewrite PE. cbn [length Nat.add]. unfold assert_. destruct (Nat.leb_spec 1 maxp) as [_|Q]; [|lia]. cbv beta iota. cbn [out polys set_size rev app]. rewrite firstn_all2 by lia. rewrite LB, Nat.sub_0_r. reflexivity.
      * rewrite OE, PE. reflexivity.
Qed.
End Emit.
