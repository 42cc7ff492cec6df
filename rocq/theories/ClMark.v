(** Clipping: what clipPolyMarkEntryExitPoints marks, and the arcs between crossings; proofs *)
From Coq Require Import Arith Bool Lia List Permutation.
From Verif Require Import Base PgModel ClModel ClSpec ClProofs ClFind.
Import ListNotations.

Section Mark.
Variable F : arith.
Notation fld f d i := (@ClSpec.field F _ (f F) d i).
Implicit Types d : list (vertex F).

Lemma map_field {A B} (f : vertex F -> A) (g : vertex F -> B) d d' i : (forall v w, f v = f w -> g v = g w) -> map f d' = map f d -> ClSpec.field F g d' i = ClSpec.field F g d i.
Proof.
  intros H E. unfold ClSpec.field. pose proof (f_equal (fun l => nth_error l i) E) as K. cbv beta in K. rewrite !ClFind.nth_error_map in K.
  destruct (nth_error d' i), (nth_error d i); cbn [option_map] in *; [f_equal; apply H; congruence|discriminate|discriminate|reflexivity].
Qed.
Lemma map_len {A} (f : vertex F -> A) d d' : map f d' = map f d -> length d' = length d.
Proof. intros E. rewrite <- (map_length f d), <- E, map_length. reflexivity. Qed.
Lemma update_map {A} (f : vertex F -> A) d i h d' : (forall v, f (h v) = f v) -> update d i h = Some d' -> map f d' = map f d.
Proof.
  unfold update. intros H. destruct (nth_error d i) as [x|] eqn:E; [|discriminate]. intros U. assert (d' = firstn i d ++ h x :: skipn (S i) d) by congruence. subst d'.
  rewrite map_app. cbn [map]. rewrite H. rewrite <- (firstn_skipn i d) at 3. rewrite map_app. f_equal.
  assert (K : skipn i d = x :: skipn (S i) d).
  { clear U. revert d E. induction i as [|i IH]; intros [|y d] E; cbn in *; [discriminate|congruence|discriminate|apply IH; exact E]. }
  rewrite K. reflexivity.
Qed.
(** All but the exit flag; all but the seen flag *)
Definition bare (v : vertex F) := (pos F v, next F v, prev F v, neighbor F v, isect F v, seen F v, alpha F v).
Definition still (v : vertex F) := (pos F v, next F v, prev F v, neighbor F v, isect F v, exit F v, alpha F v).
Lemma ring_frame {A} (f : vertex F -> A) d d' n segs : (forall v w, f v = f w -> next F v = next F w) -> (forall v w, f v = f w -> prev F v = prev F w) -> (forall v w, f v = f w -> isect F v = isect F w) ->
  map f d' = map f d -> ring F d n segs -> ring F d' n segs.
Proof.
  intros H1 H2 H3 E [R1 R2 R3 R4 R5]. constructor; [exact R1|rewrite (map_len f _ _ E); exact R2| | |exact R5].
  - apply (chain_frame F d); [exact R3|intros u _; apply (map_field f _ d d' u H1 E)|intros u _; apply (map_field f _ d d' u H2 E)].
  - intros i Hi. rewrite (map_len f _ _ E) in Hi. rewrite (map_field f _ d d' i H3 E). apply R4. exact Hi.
Qed.

(** Crossings in a part of the outline *)
Definition count (n : nat) (l : list nat) : nat := length (filter (Nat.leb n) l).
Lemma count_app n l r : count n (l ++ r) = count n l + count n r.
Proof. unfold count. rewrite filter_app, app_length. reflexivity. Qed.
Lemma count_cons n u l : count n (u :: l) = (if n <=? u then 1 else 0) + count n l.
Proof. unfold count. cbn [filter]. destruct (n <=? u); reflexivity. Qed.
Definition marks d n (l : list nat) (ins : bool) : Prop :=
  forall p u q, l = p ++ u :: q -> n <= u -> fld exit d u = Some (xorb ins (Nat.odd (count n p))).

Lemma mark_loop_spec n : forall rest d i ins fuel, NoDup (i :: rest) -> ~ In 0 (i :: rest) -> chain F d (i :: rest ++ [0]) -> (forall u, In u (i :: rest) -> fld isect d u = Some (n <=? u)) ->
  (forall u, In u (i :: rest) -> fld exit d u = Some false) -> length (i :: rest) <= fuel ->
  exists d', mark_loop F fuel d i ins = Some d' /\ map bare d' = map bare d /\ (forall u, ~ In u (i :: rest) -> nth_error d' u = nth_error d u) /\ marks d' n (i :: rest) ins.
Proof.
  induction rest as [|j rest IH]; intros d i ins fuel ND N0 CH IS EX FU; (destruct fuel as [|fuel]; [cbn [length] in FU; lia|]); cbn [mark_loop].
  all: assert (exists v, nth_error d i = Some v) as [v NV] by (specialize (IS i (or_introl eq_refl)); unfold ClSpec.field in IS; destruct (nth_error d i) as [v|]; [exists v; reflexivity|discriminate]).
  all: rewrite NV; pose proof (IS i (or_introl eq_refl)) as ISi; pose proof (EX i (or_introl eq_refl)) as EXi; unfold ClSpec.field in ISi, EXi; rewrite NV in ISi, EXi; cbn [option_map] in ISi, EXi.
  all: assert (NI : isect F v = (n <=? i)) by congruence.
  all: set (R := if isect F v then _ else _).
  all: assert (exists d1, R = Some (d1, xorb ins (n <=? i)) /\ map bare d1 = map bare d /\ (forall u, u <> i -> nth_error d1 u = nth_error d u) /\ (n <= i -> fld exit d1 i = Some ins)) as [d1 [ER [M1 [W1 X1]]]].
  1, 3: unfold R; rewrite NI; destruct (Nat.leb_spec n i) as [L|L]; [destruct ins; cbn [negb xorb]|exists d; rewrite xorb_false_r; split; [reflexivity|split; [reflexivity|split; [auto|lia]]]];
    [destruct (update_spec d i (set_exit F) v NV) as [d' [U [L' [V W]]]]; rewrite U; cbv beta iota; exists d'; split; [reflexivity|]; split; [apply (update_map bare d i (set_exit F) d'); [reflexivity|exact U]|]; split; [exact W|];
      intros _; unfold ClSpec.field; rewrite V; reflexivity
    |exists d; split; [reflexivity|]; split; [reflexivity|]; split; [auto|]; intros _; unfold ClSpec.field; rewrite NV; cbn [option_map]; exact EXi].
  all: rewrite ER; cbv beta iota; clear ER; clearbody R; clear R.
  - cbn [app chain] in CH. destruct CH as [[CN _] _]. unfold ClSpec.field in CN. rewrite NV in CN. cbn [option_map] in CN. assert (E : next F v = 0) by congruence. rewrite E, Nat.eqb_refl. exists d1. split; [reflexivity|]. split; [exact M1|].
    split; [intros u Hu; apply W1; intros ->; apply Hu; left; reflexivity|]. intros p u q E2 Hn. destruct p as [|x p]; [|destruct p; discriminate]. cbn [app] in E2. assert (u = i) by congruence. subst u.
    rewrite (X1 Hn). cbn [count filter length Nat.odd]. unfold count. cbn [filter length]. rewrite xorb_false_r. reflexivity.
  - destruct CH as [[CN _] CH']. fold (@chain F) in CH'. unfold ClSpec.field in CN. rewrite NV in CN. cbn [option_map] in CN. assert (E : next F v = j) by congruence. rewrite E.
    destruct (Nat.eqb_spec j 0) as [->|NJ]; [exfalso; apply N0; right; left; reflexivity|].
    inversion ND as [|x l NI1 ND1]. subst x l.
    destruct (IH d1 j (xorb ins (n <=? i)) fuel) as [d2 [E2 [M2 [W2 X2]]]].
    + exact ND1.
    + intros K. apply N0. right. exact K.
    + apply (chain_frame F d); [exact CH'|intros u _; apply (map_field bare); [intros x y Q; unfold bare in Q; congruence|exact M1]|intros u _; apply (map_field bare); [intros x y Q; unfold bare in Q; congruence|exact M1]].
    + intros u Hu. rewrite (map_field bare (isect F) d d1 u); [apply IS; right; exact Hu|intros x y Q; unfold bare in Q; congruence|exact M1].
    + intros u Hu. unfold ClSpec.field. rewrite W1 by (intros ->; contradiction). apply (EX u). right. exact Hu.
    + cbn [length] in *. lia.
    + exists d2. split; [exact E2|]. split; [congruence|]. split.
      * intros u Hu. rewrite W2 by (intros K; apply Hu; right; exact K). apply W1. intros ->. apply Hu. left. reflexivity.
      * intros p u q EP Hn. destruct p as [|x p]; cbn [app] in EP.
        -- assert (u = i) by congruence. subst u. unfold ClSpec.field. rewrite W2 by exact NI1. specialize (X1 Hn). unfold ClSpec.field in X1. rewrite X1. cbn [count filter length]. unfold count. cbn [filter length]. cbn [Nat.odd]. rewrite xorb_false_r. reflexivity.
        -- assert (x = i) by congruence. assert (EP' : j :: rest = p ++ u :: q) by congruence. subst x. rewrite (X2 p u q EP' Hn). f_equal. rewrite count_cons.
           destruct (n <=? i); [|rewrite xorb_false_r; reflexivity]. cbn [Nat.add]. rewrite Nat.odd_succ, <- Nat.negb_odd. destruct ins, (Nat.odd (count n p)); reflexivity.
Qed.
Lemma order_cons n segs : 0 < n -> exists rest, order n segs = 0 :: rest.
Proof. intros H. destruct n as [|n]; [lia|]. exists (segs 0 ++ flat_map (fun i => i :: segs i) (seq 1 n)). reflexivity. Qed.
Lemma marks_cons d n u l ins : u < n -> (marks d n (u :: l) ins <-> marks d n l ins).
Proof.
  intros Hu. split; intros H p v q E Hn.
  - specialize (H (u :: p) v q). rewrite count_cons in H. destruct (Nat.leb_spec n u); [lia|]. cbn [Nat.add] in H. apply H; [cbn [app]; congruence|exact Hn].
  - destruct p as [|x p]; cbn [app] in E; [assert (v = u) by congruence; lia|]. assert (x = u) by congruence. subst x. rewrite count_cons. destruct (Nat.leb_spec n u); [lia|]. cbn [Nat.add]. apply (H p v q); [congruence|exact Hn].
Qed.
Lemma mark_single_spec p n segs other forward : half F p n segs -> 0 < n ->
  exists v0 p', nth_error (data F p) 0 = Some v0 /\ mark_single F p other forward = Some p' /\ original F p' = original F p /\ capacity F p' = capacity F p /\ map bare (data F p') = map bare (data F p)
  /\ marks (data F p') n (order n segs) (xorb (inside F other (pos F v0)) (negb forward)).
Proof.
  intros [R OR CL SO] Hn. destruct (order_cons n segs Hn) as [rest E]. pose proof (ring_nodup _ _ _ _ R) as ND. pose proof (ring_chain _ _ _ _ R) as CH. rewrite E in ND, CH. cbn [app] in CH.
  assert (IN : forall u, In u (0 :: rest) -> u < length (data F p)) by (intros u Hu; apply (ring_all _ _ _ _ R); rewrite E; exact Hu).
  assert (EV : exists v0 d0, data F p = v0 :: d0) by (pose proof (corner_lt F _ _ _ 0 R Hn) as L0; destruct (data F p) as [|v0 d0]; [cbn [length] in L0; lia|exists v0, d0; reflexivity]).
  destruct EV as [v0 [d0 ED]]. exists v0. unfold mark_single.
  assert (NV : nth_error (data F p) 0 = Some v0) by (rewrite ED; reflexivity). assert (EM : forall B (x : B) (f : vertex F -> list (vertex F) -> B), match data F p with [] => x | v :: l => f v l end = f v0 d0) by (intros; rewrite ED; reflexivity).
  rewrite EM. clear EM. set (ins := xorb _ _).
  assert (exists d', mark_loop F (S (length (data F p))) (data F p) (next F v0) ins = Some d' /\ map bare d' = map bare (data F p) /\ marks d' n rest ins) as [d' [M1 [M2 M3]]].
  { destruct rest as [|i rest].
    - destruct CH as [[CN _] _]. unfold ClSpec.field in CN. rewrite NV in CN. cbn [option_map] in CN. assert (EN : next F v0 = 0) by congruence. rewrite EN. cbn [mark_loop]. rewrite NV.
      pose proof (ring_corners _ _ _ _ R 0 (IN 0 (or_introl eq_refl))) as IC. unfold ClSpec.field in IC. rewrite NV in IC. cbn [option_map] in IC. destruct (Nat.leb_spec n 0); [lia|]. assert (EI : isect F v0 = false) by congruence. rewrite EI. cbv beta iota. rewrite EN.
      exists (data F p). split; [reflexivity|]. split; [reflexivity|]. intros q u r EQ. destruct q; discriminate.
    - destruct CH as [[CN _] CH]. fold (@chain F) in CH. unfold ClSpec.field in CN. rewrite NV in CN. cbn [option_map] in CN. assert (EN : next F v0 = i) by congruence. rewrite EN. inversion ND as [|x l N0 ND1]. subst x l.
      destruct (mark_loop_spec n rest (data F p) i ins (S (length (data F p)))) as [d' [M1 [M2 [_ M3]]]].
      + exact ND1.
      + exact N0.
      + exact CH.
      + intros u Hu. apply (ring_corners _ _ _ _ R). apply IN. right. exact Hu.
      + intros u Hu. apply CL. apply IN. right. exact Hu.
      + rewrite <- (seq_length (length (data F p)) 0) at 1. apply le_S. apply NoDup_incl_length; [exact ND1|]. intros u Hu. apply in_seq. pose proof (IN u (or_intror Hu)). lia.
      + exists d'. split; [exact M1|]. split; [exact M2|exact M3]. }
  rewrite M1. exists (with_data F d' p). split; [exact NV|]. split; [reflexivity|]. split; [reflexivity|]. split; [reflexivity|]. split; [exact M2|].
  cbn [with_data data]. rewrite E. apply marks_cons; [exact Hn|exact M3].
Qed.
Lemma outline_frame {A} (f : vertex F -> A) p p' : (forall v w, f v = f w -> pos F v = pos F w) -> original F p' = original F p -> map f (data F p') = map f (data F p) -> outline F p' = outline F p.
Proof.
  intros H E M. unfold outline. rewrite E. rewrite <- !firstn_map. f_equal. revert M. generalize (data F p) as l. generalize (data F p') as l'. induction l' as [|x l' IH]; intros [|y l] M; try discriminate; [reflexivity|].
  cbn [map] in *. f_equal; [apply H; congruence|apply IH; congruence].
Qed.
Lemma inside_frame {A} (f : vertex F -> A) p p' q : (forall v w, f v = f w -> pos F v = pos F w) -> original F p' = original F p -> map f (data F p') = map f (data F p) -> inside F p' q = inside F p q.
Proof. intros H E M. unfold inside. rewrite (outline_frame f p p' H E M). reflexivity. Qed.
End Mark.
