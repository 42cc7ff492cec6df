(** Clipping: the phases together; proofs *)
From Coq Require Import Arith Bool Lia List.
From Verif Require Import Base PgModel ClModel ClSpec ClProofs ClFind ClMark ClArcs ClEmit.
Import ListNotations.

Section Clip.
Variable F : arith.
Hypothesis asym : forall x y, ltb F x y = true -> ltb F y x = false.
Notation fld f d i := (@ClSpec.field F _ (f F) d i).

Lemma odd_xor x y : Nat.odd (x + y) = xorb (Nat.odd x) (Nat.odd y).
Proof. rewrite Nat.odd_add. reflexivity. Qed.
Lemma crossings_met p : forall l prv, crossings F prv l p = Nat.odd (length (filter (met F p) (combine (prv :: l) l))).
Proof.
  induction l as [|cur l IH]; intros prv; [reflexivity|]. cbn [crossings combine filter]. rewrite IH. cbn [combine].
  replace (met F p (prv, cur)) with (if (leb F (snd p) (snd prv) && ltb F (snd cur) (snd p)) || (ltb F (snd prv) (snd p) && leb F (snd p) (snd cur)) then ltb F (fst p) (add F (fst prv) (mul F (div F (sub F (snd prv) (snd p)) (sub F (snd prv) (snd cur))) (sub F (fst cur) (fst prv)))) else false)
    by (unfold met; destruct ((leb F (snd p) (snd prv) && ltb F (snd cur) (snd p)) || (ltb F (snd prv) (snd p) && leb F (snd p) (snd cur))); reflexivity).
  match goal with |- xorb ?h _ = _ => destruct h end; [|apply xorb_false_l]. cbn [length]. rewrite Nat.odd_succ, <- Nat.negb_odd. apply xorb_true_l.
Qed.
Lemma inside_met poly p : inside F poly p = inner_point F (outline F poly) p.
Proof. unfold inside, inner_point. apply crossings_met. Qed.
Lemma hd_outline p n segs v : half F p n segs -> 0 < n -> nth_error (data F p) 0 = Some v -> hd (zero F, zero F) (outline F p) = pos F v.
Proof.
  intros H Hn NV. unfold outline. rewrite (half_size _ _ _ _ H). destruct (data F p) as [|w d]; [discriminate|]. cbn [nth_error] in NV. destruct n as [|n]; [lia|]. cbn [firstn map hd]. congruence.
Qed.
Lemma bare_next v w : bare F v = bare F w -> next F v = next F w. Proof. unfold bare. congruence. Qed.
Lemma bare_prev v w : bare F v = bare F w -> prev F v = prev F w. Proof. unfold bare. congruence. Qed.
Lemma bare_isect v w : bare F v = bare F w -> isect F v = isect F w. Proof. unfold bare. congruence. Qed.
Lemma bare_pos v w : bare F v = bare F w -> pos F v = pos F w. Proof. unfold bare. congruence. Qed.
Lemma bare_neighbor v w : bare F v = bare F w -> neighbor F v = neighbor F w. Proof. unfold bare. congruence. Qed.
Lemma bare_seen v w : bare F v = bare F w -> seen F v = seen F w. Proof. unfold bare. congruence. Qed.

Lemma path_impl {A : Type} (Q Q' : A -> A -> Prop) l : (forall x y, Q x y -> Q' x y) -> path Q l -> path Q' l.
Proof. intros H. induction l as [|x l IH]; [auto|]. destruct l as [|y l]; [auto|]. intros [N C]. split; [apply H; exact N|apply IH; exact C]. Qed.
Lemma written_frame ds ds' n segs ins k o Es : (forall s, map (bare F) (ds s) = map (bare F) (ds' s)) -> written F ds n segs ins k o Es -> written F ds' n segs ins k o Es.
Proof.
  intros M [W1 [W2 [W3 [W4 [W5 W6]]]]]. split; [|split; [exact W2|split; [|split; [exact W4|split; [exact W5|exact W6]]]]].
  - rewrite W1. apply map_ext. intros [s i|m]; cbn [where_]; apply (map_field F (bare F)); try apply bare_pos; apply M.
  - eapply Forall_impl; [|exact W3]. intros l [C1 C2]. split; [exact C1|]. eapply path_impl; [|exact C2]. intros p q [s [u [v [E1 [E2 E3]]]]]. exists s, u, v. split; [exact E1|]. split; [exact E2|].
    assert (LK : forall x y, links F (ds s) x y -> links F (ds' s) x y).
    { intros x y [N P]. split; [rewrite <- N; apply (map_field F (bare F)); [apply bare_next|symmetry; apply M]|rewrite <- P; apply (map_field F (bare F)); [apply bare_prev|symmetry; apply M]]. }
    destruct E3 as [E3|E3]; [left|right]; apply LK; exact E3.
Qed.

Lemma mark_correct a b na nb sa sb adir bdir : half F a na sa -> half F b nb sb -> 0 < na -> 0 < nb ->
  exists a' b', mark F a b adir bdir = Some (a', b') /\ original F a' = na /\ original F b' = nb /\ capacity F a' = capacity F a /\ capacity F b' = capacity F b
  /\ map (bare F) (data F a') = map (bare F) (data F a) /\ map (bare F) (data F b') = map (bare F) (data F b)
  /\ marks F (data F a') na (order na sa) (xorb (inner_point F (outline F b) (hd (zero F, zero F) (outline F a))) (negb adir))
  /\ marks F (data F b') nb (order nb sb) (xorb (inner_point F (outline F a) (hd (zero F, zero F) (outline F b))) (negb bdir)).
Proof.
  intros HA HB Pa Pb. destruct (mark_single_spec F a na sa b adir HA Pa) as [v0 [a' [A1 [A2 [A3 [A4 [A5 A6]]]]]]].
  destruct (mark_single_spec F b nb sb a' bdir HB Pb) as [w0 [b' [B1 [B2 [B3 [B4 [B5 B6]]]]]]].
  exists a', b'. unfold mark. rewrite A2. cbv beta iota. rewrite B2. split; [reflexivity|]. rewrite (half_size _ _ _ _ HA) in A3. rewrite (half_size _ _ _ _ HB) in B3. repeat (split; [assumption|]).
  rewrite (hd_outline a na sa v0 HA Pa A1), (hd_outline b nb sb w0 HB Pb B1), <- !inside_met. split; [exact A6|].
  rewrite (inside_frame F (bare F) a a' (pos F w0)) in B6; [exact B6|apply bare_pos|rewrite A3; symmetry; apply (half_size _ _ _ _ HA)|exact A5].
Qed.

Theorem clip_correct va vb capa capb fuel a b a' b' adir bdir maxp max : 0 < length va -> 0 < length vb -> length va + length va * length vb <= capa <= 2 ^ 16 -> length vb + length va * length vb <= capb <= 2 ^ 16 ->
  transform F va capa = Some a -> transform F vb capb = Some b -> find_intersections F fuel a b = Some (Some (a', b')) -> let k := length (data F a') - length va in
  Nat.even k = true -> length va + length vb + k <= max -> 1 <= maxp -> k <= 2 * maxp ->
  exists o sa sb, clip F fuel va vb capa capb adir bdir maxp max = Some (Some o) /\ ring F (data F a') (length va) sa /\ ring F (data F b') (length vb) sb
  /\ let ina := inner_point F (outline F b') (hd (zero F, zero F) (outline F a')) in let inb := inner_point F (outline F a') (hd (zero F, zero F) (outline F b')) in
     if k =? 0 then o = (if ina then Output F (outline F a') [(0, Some (length va))] else if inb then Output F (outline F b') [(0, Some (length vb))] else Output F [] [])
     else exists Es, written F (pair_of (data F a') (data F b')) (pair_of (length va) (length vb)) (pair_of sa sb) (pair_of (xorb ina (negb adir)) (xorb inb (negb bdir))) k o Es.
Proof.
  intros Ha Hb Ca Cb TA TB FI k EK MA MP1 MP. destruct (find_correct F asym va vb capa capb Ha Hb Ca Cb) as [a2 [b2 [TA2 [TB2 [_ [_ FC]]]]]].
  assert (a2 = a) by congruence. assert (b2 = b) by congruence. subst a2 b2. destruct (FC fuel) as [r [E1 E2]]. rewrite FI in E1. assert (r = Some (a', b')) by congruence. subst r. destruct E2 as [sa [sb [pairs B]]].
  pose proof (both_a _ _ _ _ _ _ _ _ _ _ _ _ B) as HA. pose proof (both_b _ _ _ _ _ _ _ _ _ _ _ _ B) as HB. pose proof (both_crossed _ _ _ _ _ _ _ _ _ _ _ _ B) as CR.
  assert (EKp : k = length pairs) by (unfold k; rewrite (crossed_a _ _ _ _ _ _ _ _ CR); lia).
  destruct (mark_correct a' b' (length va) (length vb) sa sb adir bdir HA HB Ha Hb) as [am [bm [MK [OA [OB [_ [_ [BA [BB [M1 M2]]]]]]]]]].
  assert (RA : ring F (data F am) (length va) sa) by (apply (ring_frame F (bare F) (data F a')); [apply bare_next|apply bare_prev|apply bare_isect|exact BA|apply (half_ring _ _ _ _ HA)]).
  assert (RB : ring F (data F bm) (length vb) sb) by (apply (ring_frame F (bare F) (data F b')); [apply bare_next|apply bare_prev|apply bare_isect|exact BB|apply (half_ring _ _ _ _ HB)]).
  assert (LA : length (data F am) = length va + k) by (rewrite (map_len F (bare F) _ _ BA), EKp; apply (crossed_a _ _ _ _ _ _ _ _ CR)).
  assert (LB : length (data F bm) = length vb + k) by (rewrite (map_len F (bare F) _ _ BB), EKp; apply (crossed_b _ _ _ _ _ _ _ _ CR)).
  set (ina := inner_point F (outline F b') _) in *. set (inb := inner_point F (outline F a') _) in *.
  assert (CE : forall o, emit F am bm maxp max = Some o -> clip F fuel va vb capa capb adir bdir maxp max = Some (Some o)).
  { intros o EO. unfold clip. rewrite TA. cbv beta iota. rewrite TB. cbv beta iota. rewrite FI. cbv beta iota. rewrite MK. cbv beta iota. rewrite EO. reflexivity. }
  destruct (Nat.eqb_spec k 0) as [K0|K0].
  - assert (exists v0, nth_error (data F am) 0 = Some v0) as [v0 NV] by (destruct (nth_error (data F am) 0) as [v|] eqn:E; [exists v; reflexivity|apply nth_error_None in E; lia]).
    assert (exists w0, nth_error (data F bm) 0 = Some w0) as [w0 NW] by (destruct (nth_error (data F bm) 0) as [v|] eqn:E; [exists v; reflexivity|apply nth_error_None in E; lia]).
    eexists. exists sa, sb. split; [apply CE; apply (emit_apart F am bm (pair_of sa sb) (pair_of (xorb ina (negb adir)) (xorb inb (negb bdir))) maxp max v0 w0); try assumption|].
    + intros [|]; cbn [pair_of]; rewrite ?OA, ?OB; assumption.
    + intros [|]; cbn [pair_of]; rewrite ?OA, ?OB; assumption.
    + intros [|]; cbn [pair_of]; rewrite ?OA, ?OB; lia.
    + intros [|]; cbn [pair_of]; rewrite ?OA, ?OB; assumption.
    + rewrite OA, OB. lia.
    + split; [apply (half_ring _ _ _ _ HA)|]. split; [apply (half_ring _ _ _ _ HB)|].
      assert (QA : outline F am = outline F a') by (apply (outline_frame F (bare F)); [apply bare_pos|rewrite OA; symmetry; apply (half_size _ _ _ _ HA)|exact BA]).
      assert (QB : outline F bm = outline F b') by (apply (outline_frame F (bare F)); [apply bare_pos|rewrite OB; symmetry; apply (half_size _ _ _ _ HB)|exact BB]).
      assert (PV : pos F v0 = hd (zero F, zero F) (outline F a')). { rewrite <- QA. unfold outline. rewrite OA. destruct (data F am) as [|x d]; [discriminate|]. destruct (length va); [lia|]. cbn [firstn map hd nth_error] in *. congruence. }
      assert (PW : pos F w0 = hd (zero F, zero F) (outline F b')). { rewrite <- QB. unfold outline. rewrite OB. destruct (data F bm) as [|x d]; [discriminate|]. destruct (length vb); [lia|]. cbn [firstn map hd nth_error] in *. congruence. }
      rewrite !inside_met, PV, PW, QA, QB, OA, OB. reflexivity.
  - destruct (emit_correct F am bm (pair_of sa sb) (pair_of (xorb ina (negb adir)) (xorb inb (negb bdir))) k maxp max) as [o [Es [E9 W]]].
    + intros [|]; cbn [pair_of]; rewrite ?OA, ?OB; assumption.
    + intros [|]; cbn [pair_of]; rewrite ?OA, ?OB; assumption.
    + intros [|]; cbn [pair_of]; rewrite ?OA, ?OB; assumption.
    + intros [|]; cbn [pair_of]; rewrite ?OA, ?OB; assumption.
    + exact EK.
    + intros s m Hm. rewrite EKp in Hm. destruct (crossed_neighbors _ _ _ _ _ _ _ _ CR m Hm) as [N1 N2]. destruct s; cbn [pair_of negb]; rewrite OA, OB; [rewrite <- N1|rewrite <- N2]; apply (map_field F (bare F)); try apply bare_neighbor; assumption.
    + intros m Hm. rewrite EKp in Hm. cbn [pair_of]. rewrite OA, OB. pose proof (crossed_place _ _ _ _ _ _ _ _ CR m Hm) as N1.
      rewrite (map_field F (bare F) (pos F) (data F a') (data F am)) by (apply bare_pos || exact BA). rewrite (map_field F (bare F) (pos F) (data F b') (data F bm)) by (apply bare_pos || exact BB). exact N1.
    + intros m Hm. rewrite OA. rewrite (map_field F (bare F) (seen F) (data F a') (data F am)) by (apply bare_seen || exact BA). apply (half_clean _ _ _ _ HA). rewrite (crossed_a _ _ _ _ _ _ _ _ CR). lia.
    + rewrite OA, OB. exact MA.
    + exact MP.
    + lia.
    + exists o, sa, sb. split; [apply CE; exact E9|]. split; [apply (half_ring _ _ _ _ HA)|]. split; [apply (half_ring _ _ _ _ HB)|]. exists Es. rewrite OA, OB in W.
      apply (written_frame (pair_of (data F am) (data F bm))); [intros [|]; cbn [pair_of]; assumption|exact W].
Qed.
End Clip.
