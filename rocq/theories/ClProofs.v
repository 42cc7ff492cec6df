(** Clipping: the rings while crossings are inserted; proofs *)
From Coq Require Import Arith Bool Lia List Permutation.
From Verif Require Import Base PgModel ClModel ClSpec.
Import ListNotations.

Lemma update_spec {A : Type} (l : list A) i f x : nth_error l i = Some x ->
  exists l', update l i f = Some l' /\ length l' = length l /\ nth_error l' i = Some (f x) /\ forall j, j <> i -> nth_error l' j = nth_error l j.
Proof.
  intros H. unfold update. rewrite H. eexists. split; [reflexivity|].
  assert (L : i < length l) by (apply nth_error_Some; congruence).
  assert (FL : length (firstn i l) = i) by (apply firstn_length_le; lia). split; [|split].
  - rewrite app_length, FL. cbn [length]. rewrite skipn_length. lia.
  - rewrite nth_error_app2 by lia. rewrite FL, Nat.sub_diag. reflexivity.
  - intros j Hj. destruct (Nat.lt_ge_cases j i) as [C|C].
    + rewrite nth_error_app1 by lia. rewrite <- (firstn_skipn i l) at 2. rewrite nth_error_app1 by lia. reflexivity.
    + rewrite nth_error_app2 by lia. rewrite FL. destruct (j - i) as [|k] eqn:K; [lia|]. cbn [nth_error].
      rewrite <- (firstn_skipn (S i) l) at 2. rewrite nth_error_app2 by (rewrite firstn_length_le by lia; lia). rewrite firstn_length_le by lia. f_equal. lia.
Qed.
Lemma index_small n : n < 2 ^ 16 -> index n = n. Proof. apply Nat.mod_small. Qed.
Lemma nodup_app {A : Type} (a b : list A) : NoDup (a ++ b) <-> NoDup a /\ NoDup b /\ forall x, In x a -> ~ In x b.
Proof.
  induction a as [|z a IH]; cbn [app].
  - split; [intros H; split; [constructor|split; [exact H|intros x []]]|intros [_ [H _]]; exact H].
  - split.
    + intros H. inversion H; subst. apply IH in H3. destruct H3 as [H3 [H4 H5]]. split; [constructor; [intros K; apply H2; apply in_or_app; left; exact K|exact H3]|]. split; [exact H4|].
      intros x [<-|K]; [intros K; apply H2; apply in_or_app; right; exact K|apply H5; exact K].
    + intros [H1 [H2 H3]]. inversion H1; subst. constructor.
      * intros K. apply in_app_or in K. destruct K as [K|K]; [contradiction|]. apply (H3 z); [left; reflexivity|exact K].
      * apply IH. split; [assumption|]. split; [assumption|]. intros x K. apply H3. right. exact K.
Qed.

Section Rings.
Variable F : arith.
Notation chain := (chain F).
Notation links := (links F).
Notation field f d i := (@field F _ (f F) d i).
Implicit Types d : list (vertex F).

Lemma chain_join d p u v q : chain d (p ++ u :: v :: q) <-> chain d (p ++ [u]) /\ links d u v /\ chain d (v :: q).
Proof.
  induction p as [|w p IH].
  - cbn [app]. change (chain d (u :: v :: q)) with (links d u v /\ chain d (v :: q)). change (chain d [u]) with True. tauto.
  - destruct p as [|w' p].
    + cbn [app] in *. change (chain d (w :: u :: v :: q)) with (links d w u /\ chain d (u :: v :: q)). change (chain d (u :: v :: q)) with (links d u v /\ chain d (v :: q)). change (chain d [w; u]) with (links d w u /\ True). tauto.
    + cbn [app] in *. change (chain d (w :: w' :: p ++ u :: v :: q)) with (links d w w' /\ chain d (w' :: p ++ u :: v :: q)). change (chain d (w :: w' :: p ++ [u])) with (links d w w' /\ chain d (w' :: p ++ [u])). tauto.
Qed.
Lemma chain_tail d p q : chain d (p ++ q) -> chain d q.
Proof. induction p as [|w p IH]; [auto|]. cbn [app]. intros H. apply IH. destruct (p ++ q); [exact I|]. apply H. Qed.
Lemma chain_frame d d' l : chain d l -> (forall u, In u (removelast l) -> field next d' u = field next d u) -> (forall v, In v (tl l) -> field prev d' v = field prev d v) -> chain d' l.
Proof.
  induction l as [|u l IH]; [auto|]. destruct l as [|v l]; [auto|]. intros [L C] Hs Ht. split.
  - destruct L as [L1 L2]. split; [rewrite Hs; [exact L1|left; reflexivity]|rewrite Ht; [exact L2|left; reflexivity]].
  - apply IH; [exact C| |].
    + intros w Hw. apply Hs. right. exact Hw.
    + intros w Hw. apply Ht. right. exact Hw.
Qed.
Lemma chain_links d p u v q : chain d (p ++ u :: v :: q) -> links d u v.
Proof. intros H. apply chain_join in H. apply H. Qed.

Definition follow (n e : nat) : nat := if S e =? n then 0 else S e.
Lemma order_split n segs e : e < n -> exists P Q, order n segs ++ [0] = P ++ (e :: segs e) ++ follow n e :: Q /\ order n segs = P ++ (e :: segs e) ++ removelast (follow n e :: Q) /\ (S e = n -> Q = []) /\ (S e < n -> exists Q', Q = Q' ++ [0])
  /\ forall segs', (forall i, i <> e -> segs' i = segs i) -> order n segs' = P ++ (e :: segs' e) ++ removelast (follow n e :: Q).
Proof.
  intros He. unfold order. assert (SQ : seq 0 n = seq 0 e ++ e :: seq (S e) (n - S e)).
  { replace n with (e + S (n - S e)) at 1 by lia. rewrite seq_app. cbn [seq Nat.add]. reflexivity. }
  rewrite SQ. assert (FM : forall g : nat -> list nat, flat_map g (seq 0 e ++ e :: seq (S e) (n - S e)) = flat_map g (seq 0 e) ++ g e ++ flat_map g (seq (S e) (n - S e))).
  { intros g. rewrite flat_map_app. reflexivity. }
  assert (EX : forall segs', (forall i, i <> e -> segs' i = segs i) -> flat_map (fun i => i :: segs' i) (seq 0 e) = flat_map (fun i => i :: segs i) (seq 0 e) /\ flat_map (fun i => i :: segs' i) (seq (S e) (n - S e)) = flat_map (fun i => i :: segs i) (seq (S e) (n - S e))).
  { intros segs' H. rewrite !flat_map_concat_map. split; f_equal; apply map_ext_in; intros i Hi; apply in_seq in Hi; rewrite H by lia; reflexivity. }
  assert (G : exists Q, flat_map (fun i => i :: segs i) (seq (S e) (n - S e)) ++ [0] = follow n e :: Q /\ removelast (follow n e :: Q) = flat_map (fun i => i :: segs i) (seq (S e) (n - S e)) /\ (S e = n -> Q = []) /\ (S e < n -> exists Q', Q = Q' ++ [0])).
  { unfold follow. destruct (Nat.eqb_spec (S e) n) as [E|E].
    - exists []. replace (n - S e) with 0 by lia. split; [reflexivity|]. split; [reflexivity|]. split; [reflexivity|lia].
    - destruct (n - S e) as [|k] eqn:K; [lia|]. cbn [seq flat_map].
      exists ((segs (S e) ++ flat_map (fun i => i :: segs i) (seq (S (S e)) k)) ++ [0]). split; [reflexivity|]. split; [|split; [lia|intros _; eexists; reflexivity]].
      change (S e :: (segs (S e) ++ flat_map (fun i => i :: segs i) (seq (S (S e)) k)) ++ [0]) with ((S e :: segs (S e) ++ flat_map (fun i => i :: segs i) (seq (S (S e)) k)) ++ [0]). apply removelast_last. }
  destruct G as [Q [G1 [G2 [G3 G4]]]]. exists (flat_map (fun i => i :: segs i) (seq 0 e)), Q. rewrite G2. rewrite FM.
  split; [rewrite <- G1, <- !app_assoc; reflexivity|]. split; [reflexivity|]. split; [exact G3|]. split; [exact G4|].
  intros segs' H. rewrite FM. destruct (EX segs' H) as [E1 E2]. rewrite E1, E2. reflexivity.
Qed.

Lemma field_some {A} (f : vertex F -> A) d i : i < length d -> exists x, ClSpec.field F f d i = Some x.
Proof. intros H. unfold ClSpec.field. destruct (nth_error d i) as [v|] eqn:E; [exists (f v); reflexivity|]. apply nth_error_None in E. lia. Qed.
Lemma last_cons_app (e : nat) w u : last (e :: w ++ [u]) 0 = u.
Proof. change (e :: w ++ [u]) with ((e :: w) ++ [u]). apply last_last. Qed.

(** Where a crossing goes on its edge *)
Lemma find_index_spec p n segs e al : ring F (data F p) n segs -> e < n -> ascending F (data F p) (segs e) -> forall w y fuel, segs e = w ++ y -> length w < fuel ->
  exists w' y', w = w' ++ y' /\ find_index F fuel p (last (e :: w) 0) al = Some (last (e :: w') 0)
  /\ (forall u, In u y' -> exists x, field alpha (data F p) u = Some x /\ ltb F al x = true)
  /\ (forall u, w' <> [] -> u = last (e :: w') 0 -> exists x, field alpha (data F p) u = Some x /\ ltb F al x = false).
Proof.
  intros R He _ w. induction w as [|u w IH] using rev_ind; intros y fuel E Hf.
  - destruct fuel as [|fuel]; [lia|]. cbn [last find_index]. exists [], []. split; [reflexivity|].
    assert (IE : e < length (data F p)).
    { apply (ring_all _ _ _ _ R). unfold order. apply in_flat_map. exists e. split; [apply in_seq; lia|left; reflexivity]. }
    pose proof (ring_corners _ _ _ _ R e IE) as C. unfold ClSpec.field in C. destruct (nth_error (data F p) e) as [v|]; [|discriminate]. cbn [option_map] in C.
    assert (isect F v = false) by (destruct (Nat.leb_spec n e); [lia|congruence]). cbv beta iota. rewrite H. cbn [andb]. split; [reflexivity|]. split; [intros u []|]. intros u H1. congruence.
  - destruct fuel as [|fuel]; [lia|]. rewrite last_cons_app. cbn [find_index].
    assert (IS : In u (segs e)) by (rewrite E; apply in_or_app; left; apply in_or_app; right; left; reflexivity).
    assert (IU : u < length (data F p)).
    { apply (ring_all _ _ _ _ R). unfold order. apply in_flat_map. exists e. split; [apply in_seq; lia|right; exact IS]. }
    pose proof (ring_corners _ _ _ _ R u IU) as C. pose proof (ring_segs _ _ _ _ R e u He IS) as GE.
    destruct (field_some (alpha F) _ _ IU) as [x AL].
    assert (PR : field prev (data F p) u = Some (last (e :: w) 0)).
    { destruct (order_split n segs e He) as [P [Q [O _]]]. pose proof (ring_chain _ _ _ _ R) as CH. rewrite O in CH. rewrite E in CH.
      assert (EQ : exists w1, e :: w = w1 ++ [last (e :: w) 0]) by (exists (removelast (e :: w)); apply app_removelast_last; discriminate).
      destruct EQ as [w1 EQ].
      replace (P ++ (e :: (w ++ [u]) ++ y) ++ follow n e :: Q) with ((P ++ w1) ++ last (e :: w) 0 :: u :: y ++ follow n e :: Q) in CH.
      - apply chain_links in CH. apply CH.
      - replace (P ++ (e :: (w ++ [u]) ++ y) ++ follow n e :: Q) with (P ++ (e :: w) ++ (u :: y) ++ follow n e :: Q) by (rewrite <- !app_assoc; cbn [app]; rewrite <- !app_assoc; reflexivity).
        rewrite EQ at 2. rewrite <- !app_assoc. reflexivity. }
    unfold ClSpec.field in C, AL, PR. destruct (nth_error (data F p) u) as [v|] eqn:NV; [|discriminate]. cbn [option_map] in C, AL, PR.
    assert (isect F v = true) by (destruct (Nat.leb_spec n u); [congruence|lia]). cbv beta iota. rewrite H. cbn [andb].
    assert (AX : alpha F v = x) by congruence. rewrite AX. destruct (ltb F al x) eqn:LT.
    + assert (PV : prev F v = last (e :: w) 0) by congruence. rewrite PV. destruct (IH (u :: y) fuel) as [w' [y' [E1 [E2 [E3 E4]]]]].
      { rewrite E, <- app_assoc. reflexivity. } { rewrite app_length in Hf. cbn [length] in Hf. lia. }
      exists w', (y' ++ [u]). split; [rewrite E1, app_assoc; reflexivity|]. split; [exact E2|]. split; [|exact E4].
      intros z Hz. apply in_app_or in Hz. destruct Hz as [Hz|[<-|[]]]; [apply E3; exact Hz|]. exists x. split; [unfold ClSpec.field; rewrite NV; cbn [option_map]; congruence|exact LT].
    + exists (w ++ [u]), []. split; [rewrite app_nil_r; reflexivity|]. split; [rewrite last_cons_app; reflexivity|]. split; [intros z []|].
      intros z _ Hz. rewrite last_cons_app in Hz. subst z. exists x. split; [unfold ClSpec.field; rewrite NV; cbn [option_map]; congruence|exact LT].
Qed.

Definition core (v : vertex F) := (pos F v, neighbor F v, isect F v, exit F v, seen F v, alpha F v).
Lemma chain_insert d d' at_ size O1 O2 : NoDup (O1 ++ at_ :: O2) -> hd 0 (O1 ++ [at_]) = 0 -> chain d (O1 ++ at_ :: O2 ++ [0]) -> ~ In size (O1 ++ at_ :: O2) ->
  (forall u, u <> at_ -> u <> size -> field next d' u = field next d u) -> (forall v, v <> hd 0 O2 -> v <> size -> field prev d' v = field prev d v) ->
  field next d' at_ = Some size -> field prev d' size = Some at_ -> field next d' size = Some (hd 0 O2) -> field prev d' (hd 0 O2) = Some size ->
  chain d' (O1 ++ at_ :: size :: O2 ++ [0]).
Proof.
  intros ND H0 C NS HN HP N1 P1 N2 P2.
  assert (IN0 : In 0 (O1 ++ [at_])) by (destruct O1 as [|z O1]; cbn [app hd] in H0; rewrite H0; left; reflexivity).
  assert (ND2 : NoDup O2 /\ ~ In at_ O1 /\ ~ In at_ O2 /\ forall z, In z (O1 ++ [at_]) -> ~ In z O2).
  { pose proof ND as N'. change (at_ :: O2) with ([at_] ++ O2) in N'. rewrite app_assoc in N'. split; [|split; [|split]].
    - apply nodup_app in N'. apply N'.
    - apply NoDup_remove_2 in ND. intros K. apply ND. apply in_or_app. left. exact K.
    - apply NoDup_remove_2 in ND. intros K. apply ND. apply in_or_app. right. exact K.
    - apply nodup_app in N'. apply N'. }
  destruct ND2 as [ND2 [NA1 [NA2 ND3]]].
  assert (C' : chain d (O1 ++ [at_]) /\ chain d (O2 ++ [0])).
  { destruct O2 as [|z O2]; cbn [app] in C |- *; apply chain_join in C; split; apply C. }
  apply chain_join. split; [|split].
  - apply (chain_frame d); [apply C'| |].
    + intros u Hu. rewrite removelast_last in Hu. apply HN; [intros ->; exact (NA1 Hu)|]. intros ->. apply NS. apply in_or_app. left. exact Hu.
    + intros v Hv. assert (IV : In v (O1 ++ [at_])) by (destruct (O1 ++ [at_]); [destruct Hv|right; exact Hv]).
      apply HP; [|intros ->; apply NS; apply in_app_or in IV; apply in_or_app; destruct IV as [IV|[IV|[]]]; [left; exact IV|right; left; exact IV]].
      intros ->. destruct O2 as [|z O2]; cbn [hd] in *.
      * assert (N' : NoDup (O1 ++ [at_])) by exact ND. destruct (O1 ++ [at_]) as [|t l]; [destruct Hv|]. cbn [hd] in H0. cbn [tl] in Hv. subst t. inversion N'; subst. contradiction.
      * apply (ND3 z IV). left. reflexivity.
  - split; assumption.
  - assert (G : forall z r, O2 ++ [0] = z :: r -> chain d' (z :: r)).
    { intros z r E. rewrite <- E. apply (chain_frame d); [apply C'| |].
      + intros u Hu. rewrite removelast_last in Hu. apply HN; [intros ->; exact (NA2 Hu)|]. intros ->. apply NS. apply in_or_app. right. right. exact Hu.
      + intros v Hv. assert (IV : In v (tl O2 ++ [0]) /\ O2 <> []) by (destruct O2 as [|t O2]; [destruct Hv|split; [exact Hv|discriminate]]). destruct IV as [IV NE].
        destruct O2 as [|t O2]; [congruence|]. cbn [tl hd] in *. apply HP.
        * intros ->. apply in_app_or in IV. destruct IV as [IV|[IV|[]]]; [inversion ND2; contradiction|]. subst t. apply (ND3 0 IN0). left. reflexivity.
        * intros ->. apply in_app_or in IV. destruct IV as [IV|[<-|[]]]; apply NS; apply in_or_app; [right; right; right; exact IV|].
          apply in_app_or in IN0. destruct IN0 as [K|[K|[]]]; [left; exact K|right; left; exact K]. }
    destruct O2 as [|z O2]; cbn [app] in *; (split; [split; assumption|]); apply (G _ _ eq_refl).
Qed.
Lemma order_hd n segs : 0 < n -> hd 0 (order n segs) = 0.
Proof. intros H. destruct n; [lia|]. reflexivity. Qed.
Definition inserted (segs : nat -> list nat) (e : nat) (l : list nat) (i : nat) : list nat := if i =? e then l else segs i.
Lemma create_ring p n segs e w y x nb al : ring F (data F p) n segs -> e < n -> segs e = w ++ y -> length (data F p) < capacity F p -> length (data F p) < 2 ^ 16 ->
  exists p', create F p (last (e :: w) 0) x nb al = Some p' /\ original F p' = original F p /\ capacity F p' = capacity F p
  /\ ring F (data F p') n (inserted segs e (w ++ length (data F p) :: y)) /\ length (data F p') = S (length (data F p))
  /\ (forall i, i < length (data F p) -> ClSpec.field F core (data F p') i = ClSpec.field F core (data F p) i)
  /\ ClSpec.field F core (data F p') (length (data F p)) = Some (x, index nb, true, false, false, al).
Proof.
  intros R He SE Hc H16. set (d := data F p) in *. set (size := length d) in *. set (at_ := last (e :: w) 0) in *.
  destruct (order_split n segs e He) as [P [Q [_ [O [_ [_ OX]]]]]]. set (T := removelast (follow n e :: Q)) in *.
  destruct (exists_last (l := e :: w)) as [w1 [at' EW]]; [discriminate|]. assert (at' = at_) by (unfold at_; rewrite EW, last_last; reflexivity). subst at'.
  assert (O' : order n segs = (P ++ w1) ++ at_ :: (y ++ T)).
  { rewrite O, SE. replace ((e :: w ++ y) ++ T) with ((e :: w) ++ y ++ T) by (cbn [app]; rewrite <- app_assoc; reflexivity). rewrite EW. rewrite <- !app_assoc. reflexivity. }
  pose proof (ring_nodup _ _ _ _ R) as ND. pose proof (ring_all _ _ _ _ R) as AL. pose proof (ring_chain _ _ _ _ R) as CH.
  assert (HH : hd 0 (order n segs) = 0) by (apply order_hd; lia). rewrite O' in ND, AL, CH, HH.
  set (O1 := P ++ w1) in *. set (O2 := y ++ T) in *.
  assert (HD : hd 0 (O1 ++ [at_]) = 0) by (destruct O1; exact HH).
  assert (IAT : at_ < length d) by (apply AL; apply in_or_app; right; left; reflexivity).
  assert (NX : field next d at_ = Some (hd 0 O2)).
  { rewrite <- app_assoc in CH. cbn [app] in CH. destruct O2 as [|z O2]; cbn [app hd] in *; apply chain_links in CH; apply CH. }
  assert (INX : hd 0 O2 < length d).
  { destruct O2 as [|z O2]; cbn [hd]; [|apply AL; apply in_or_app; right; right; left; reflexivity]. lia. }
  unfold create. fold d size. unfold assert_. destruct (Nat.leb_spec (size + 1) (capacity F p)) as [_|C]; [|lia].
  unfold ClSpec.field in NX. destruct (nth_error d at_) as [ref|] eqn:NR; [|discriminate]. cbn [option_map] in NX. assert (NX' : next F ref = hd 0 O2) by congruence.
  cbv beta iota. rewrite NX'. destruct (nth_error d (hd 0 O2)) as [old|] eqn:NO; [|apply nth_error_None in NO; lia].
  rewrite (index_small size) by exact H16. rewrite (index_small at_) by (unfold size in H16; lia).
  destruct (update_spec d at_ (set_next F size) ref NR) as [d1 [U1 [L1 [V1 W1]]]]. rewrite U1. cbv beta iota.
  assert (NO1 : exists old1, nth_error d1 (hd 0 O2) = Some old1).
  { destruct (nth_error d1 (hd 0 O2)) as [z|] eqn:Z; [exists z; reflexivity|]. apply nth_error_None in Z. lia. }
  destruct NO1 as [old1 NO1]. destruct (update_spec d1 (hd 0 O2) (set_prev F size) old1 NO1) as [d2 [U2 [L2 [V2 W2]]]]. rewrite U2. cbv beta iota.
  set (new := Vertex F x (hd 0 O2) at_ (index nb) true false false al).
  eexists. split; [reflexivity|]. unfold with_data. cbn [data original capacity]. split; [reflexivity|]. split; [reflexivity|].
  assert (SL : length d2 = size) by (unfold size; lia).
  assert (OLD : forall i, i < size -> nth_error (d2 ++ [new]) i = nth_error d2 i) by (intros i Hi; apply nth_error_app1; lia).
  assert (NEW : nth_error (d2 ++ [new]) size = Some new) by (rewrite nth_error_app2 by lia; rewrite SL, Nat.sub_diag; reflexivity).
  assert (FA : forall {A} (g : vertex F -> A) i, i < size -> (forall v, g (set_next F size v) = g v) -> (forall v, g (set_prev F size v) = g v) -> ClSpec.field F g (d2 ++ [new]) i = ClSpec.field F g d i).
  { intros A g i Hi G1 G2. unfold ClSpec.field. rewrite OLD by exact Hi. assert (Q1 : option_map g (nth_error d1 i) = option_map g (nth_error d i)).
    { destruct (Nat.eq_dec i at_) as [->|N]; [rewrite V1, NR; cbn [option_map]; rewrite G1; reflexivity|rewrite W1 by exact N; reflexivity]. }
    rewrite <- Q1. destruct (Nat.eq_dec i (hd 0 O2)) as [->|N]; [rewrite V2, NO1; cbn [option_map]; rewrite G2; reflexivity|rewrite W2 by exact N; reflexivity]. }
  assert (OS : order n (inserted segs e (w ++ size :: y)) = O1 ++ at_ :: size :: O2).
  { rewrite OX by (intros i Hi; unfold inserted; destruct (Nat.eqb_spec i e); [contradiction|reflexivity]). unfold inserted at 1. rewrite Nat.eqb_refl.
    replace ((e :: w ++ size :: y) ++ T) with ((e :: w) ++ size :: y ++ T) by (cbn [app]; rewrite <- app_assoc; reflexivity). rewrite EW. unfold O1, O2. rewrite <- !app_assoc. reflexivity. }
  assert (PM : Permutation (O1 ++ at_ :: size :: O2) (size :: O1 ++ at_ :: O2)).
  { change (at_ :: size :: O2) with ([at_] ++ size :: O2). rewrite app_assoc. rewrite <- Permutation_middle. rewrite <- app_assoc. reflexivity. }
  assert (NS : ~ In size (O1 ++ at_ :: O2)) by (intros K; apply AL in K; unfold size in K; lia).
  split; [|split; [|split]].
  - constructor.
    + rewrite OS. apply (Permutation_NoDup (Permutation_sym PM)). constructor; assumption.
    + intros i. rewrite OS. rewrite app_length. cbn [length]. rewrite SL. split.
      * intros K. apply (Permutation_in _ PM) in K. destruct K as [<-|K]; [lia|]. apply AL in K. unfold size. lia.
      * intros K. apply (Permutation_in _ (Permutation_sym PM)). destruct (Nat.eq_dec i size) as [->|N]; [left; reflexivity|right; apply AL; unfold size in *; lia].
    + rewrite OS. replace ((O1 ++ at_ :: size :: O2) ++ [0]) with (O1 ++ at_ :: size :: O2 ++ [0]) by (rewrite <- app_assoc; reflexivity).
      rewrite <- app_assoc in CH. cbn [app] in CH.
      apply (chain_insert d); try assumption.
      * intros u N1 N2. unfold ClSpec.field. destruct (Nat.lt_ge_cases u size) as [C|C].
        -- rewrite OLD by exact C. assert (Q1 : option_map (next F) (nth_error d2 u) = option_map (next F) (nth_error d1 u)).
           { destruct (Nat.eq_dec u (hd 0 O2)) as [->|N]; [rewrite V2, NO1; reflexivity|rewrite W2 by exact N; reflexivity]. }
           rewrite Q1, W1 by exact N1. reflexivity.
        -- rewrite (proj2 (nth_error_None d u)) by (unfold size in C; lia). rewrite (proj2 (nth_error_None _ u)) by (rewrite app_length; cbn [length]; lia). reflexivity.
      * intros v N1 N2. unfold ClSpec.field. destruct (Nat.lt_ge_cases v size) as [C|C].
        -- rewrite OLD by exact C. rewrite W2 by exact N1. destruct (Nat.eq_dec v at_) as [->|N]; [rewrite V1, NR; reflexivity|rewrite W1 by exact N; reflexivity].
        -- rewrite (proj2 (nth_error_None d v)) by (unfold size in C; lia). rewrite (proj2 (nth_error_None _ v)) by (rewrite app_length; cbn [length]; lia). reflexivity.
      * unfold ClSpec.field. rewrite OLD by exact IAT. destruct (Nat.eq_dec at_ (hd 0 O2)) as [E|N].
        -- rewrite E, V2. rewrite <- E in NO1. rewrite V1 in NO1. assert (E2 : old1 = set_next F size ref) by congruence. rewrite E2. reflexivity.
        -- rewrite W2 by exact N. rewrite V1. reflexivity.
      * unfold ClSpec.field. rewrite NEW. reflexivity.
      * unfold ClSpec.field. rewrite NEW. reflexivity.
      * unfold ClSpec.field. rewrite OLD by exact INX. rewrite V2. reflexivity.
    + intros i Hi. rewrite app_length in Hi. cbn [length] in Hi. destruct (Nat.eq_dec i size) as [->|N].
      * unfold ClSpec.field. rewrite NEW. cbn [option_map isect new]. f_equal. symmetry. apply Nat.leb_le.
        assert (INC : forall c, c < n -> c < size) by (intros c Hcn; apply (ring_all _ _ _ _ R); unfold order; apply in_flat_map; exists c; split; [apply in_seq; lia|left; reflexivity]).
        specialize (INC (n - 1)). lia.
      * rewrite FA by (try reflexivity; unfold size in *; lia). apply (ring_corners _ _ _ _ R). unfold size in *. fold d. lia.
    + intros f u Hf Hu. unfold inserted in Hu. destruct (Nat.eqb_spec f e) as [->|N].
      * apply in_app_or in Hu. destruct Hu as [Hu|[<-|Hu]].
        -- apply (ring_segs _ _ _ _ R e); [exact He|]. rewrite SE. apply in_or_app. left. exact Hu.
        -- assert (INC : forall c, c < n -> c < size) by (intros c Hcn; apply (ring_all _ _ _ _ R); unfold order; apply in_flat_map; exists c; split; [apply in_seq; lia|left; reflexivity]).
           specialize (INC (n - 1)). lia.
        -- apply (ring_segs _ _ _ _ R e); [exact He|]. rewrite SE. apply in_or_app. right. exact Hu.
      * apply (ring_segs _ _ _ _ R f); assumption.
  - rewrite app_length. cbn [length]. unfold size in *. lia.
  - intros i Hi. apply FA; [exact Hi|reflexivity|reflexivity].
  - unfold ClSpec.field. rewrite NEW. reflexivity.
Qed.
End Rings.
