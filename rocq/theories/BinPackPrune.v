(** MaxRects: removing free rectangles that lie inside others. *)
From Coq Require Import ZArith List Bool Lia Permutation ZifyBool ZifyNat.
From Verif Require Import Base BinPackModel BinPackSpec BinPackArray BinPackGuillotine BinPackHistory BinPackMaxRects.
Import ListNotations.
Local Open Scope Z_scope.

Definition contained_b (a b : rect) : bool :=
  (left b <=? left a) && (top b <=? top a) && (left a + width a <=? left b + width b) &&
  (top a + height a <=? top b + height b).
Lemma contained_b_iff : forall a b, contained_b a b = true <-> contained a b.
Proof. intros a b. unfold contained_b, contained. lia. Qed.

Lemma isContainedIn_ok : forall W H a b, 0 < W -> 0 < H -> W * H <= INT_MAX -> good_rect W H a -> good_rect W H b ->
  isContainedIn a b = Some (contained_b a b).
Proof.
  intros W H a b HW HH HM [Wa Pa] [Wb Pb]. destruct (dims_bound W H HW HH HM) as [BW BH].
  unfold within, positive in *. unfold isContainedIn, contained_b.
  rewrite !i32_ok by (unfold INT_MIN, INT_MAX in *; lia). reflexivity.
Qed.

Definition incomparable (a b : rect) : Prop := ~ contained a b /\ ~ contained b a.

(** Erasing at [e] leaves the entries before [e] alone and keeps the others behind it. *)
Lemma erase_moves : forall a e a', arr_ok a -> (e < size a)%nat -> tmbp_unstable_erase a e = Some a' ->
  (forall k, (k < e)%nat -> nth_error (contents a') k = nth_error (contents a) k) /\
  (forall k r, (e <= k)%nat -> nth_error (contents a') k = Some r ->
     exists k', (k < k' \/ e < k)%nat /\ (k <= k')%nat /\ nth_error (contents a) k' = Some r).
Proof.
  intros a e a' O L E. destruct (erase_nth a e a' O L E) as (S1 & K1 & O1 & N1).
  assert (L1 := contents_length _ O1). split.
  - intros k Hk. rewrite N1 by lia. destruct (Nat.eqb_spec k e); [lia|reflexivity].
  - intros k r Hk Ek. assert (B : (k < size a')%nat) by (rewrite <- L1; apply nth_error_Some; congruence).
    rewrite N1 in Ek by lia. destruct (Nat.eqb_spec k e) as [->|Ne].
    + exists (size a - 1)%nat. split; [lia|]. split; [lia|exact Ek].
    + exists k. split; [lia|]. split; [lia|exact Ek].
Qed.

Lemma erase_in : forall a e a' r, arr_ok a -> (e < size a)%nat -> tmbp_unstable_erase a e = Some a' ->
  nth_error (contents a) e = Some r ->
  (forall x, In x (contents a') -> In x (contents a)) /\ (forall x, In x (contents a) -> x = r \/ In x (contents a')).
Proof.
  intros a e a' r O L E Er. destruct (erase_ok a e O L) as (a2 & r2 & E2 & N2 & _ & P & _).
  rewrite E2 in E. injection E as <-. assert (r2 = r) by congruence. subst r2. split.
  - intros x Hx. apply (Permutation_in _ (Permutation_sym P)). now right.
  - intros x Hx. apply (Permutation_in _ P) in Hx. destruct Hx as [<-|Hx]; auto.
Qed.

Record pruned (i : nat) (fr fr' : arr) : Prop := Pruned {
  pr_ok : arr_ok fr'; pr_cap : capacity fr' = capacity fr; pr_size : (size fr' <= size fr)%nat;
  pr_low : forall k, (k < i)%nat -> nth_error (contents fr') k = nth_error (contents fr) k;
  pr_high : forall k r, (i <= k)%nat -> nth_error (contents fr') k = Some r ->
    exists k', (i <= k')%nat /\ nth_error (contents fr) k' = Some r;
  pr_sub : forall r, In r (contents fr') -> In r (contents fr);
  pr_dom : forall r, In r (contents fr) -> exists r', In r' (contents fr') /\ contained r r' }.

Lemma pruned_refl : forall i fr, arr_ok fr -> pruned i fr fr.
Proof.
  intros i fr O. constructor; auto.
  - intros k r Hk E. exists k. auto.
  - intros r Hr. exists r. split; [assumption|apply contained_refl].
Qed.
Lemma pruned_trans : forall i a b c, pruned i a b -> pruned i b c -> pruned i a c.
Proof.
  intros i a b c [A1 A2 A3 A4 A5 A6 A7] [B1 B2 B3 B4 B5 B6 B7].
  constructor; try assumption; try congruence; try lia.
  - intros k Hk. rewrite B4 by assumption. now apply A4.
  - intros k r Hk E. destruct (B5 k r Hk E) as (k1 & H1 & E1). destruct (A5 k1 r H1 E1) as (k2 & H2 & E2). eauto.
  - auto.
  - intros r Hr. destruct (A7 r Hr) as (r1 & H1 & C1). destruct (B7 r1 H1) as (r2 & H2 & C2).
    exists r2. split; [assumption|]. eapply contained_trans; eassumption.
Qed.

Lemma pruned_erase : forall i fr e fr' r r', arr_ok fr -> (i <= e)%nat -> (e < size fr)%nat ->
  tmbp_unstable_erase fr e = Some fr' -> nth_error (contents fr) e = Some r -> contained r r' ->
  (exists k, k <> e /\ nth_error (contents fr) k = Some r') -> pruned i fr fr'.
Proof.
  intros i fr e fr' r r' O Le L E Er C (k0 & Nk & Ek).
  destruct (erase_nth fr e fr' O L E) as (S1 & K1 & O1 & N1).
  destruct (erase_moves fr e fr' O L E) as (M1 & M2).
  destruct (erase_in fr e fr' r O L E Er) as (I1 & I2).
  constructor; try assumption.
  - lia.
  - intros k Hk. apply M1. lia.
  - intros k x Hk Ex. destruct (Nat.lt_ge_cases k e) as [B|B].
    + rewrite M1 in Ex by assumption. exists k. auto.
    + destruct (M2 k x B Ex) as (k' & _ & B2 & E2). exists k'. split; [lia|assumption].
  - intros x Hx. destruct (I2 x Hx) as [->|Hx']; [|exists x; split; [assumption|apply contained_refl]].
    exists r'. split; [|assumption].
    (* r' sits at another index, so it is kept *)
    assert (B : (k0 < size fr)%nat).
    { rewrite <- (contents_length _ O). apply nth_error_Some. congruence. }
    destruct (Nat.eq_dec k0 (size fr - 1)) as [->|Ne].
    + apply nth_error_In with e. rewrite N1 by lia. rewrite Nat.eqb_refl. exact Ek.
    + apply nth_error_In with k0. rewrite N1 by lia. destruct (Nat.eqb_spec k0 e); [lia|exact Ek].
Qed.

Section Prune.
  Variables (W H : Z).
  Hypothesis (HW : 0 < W) (HH : 0 < H) (HM : W * H <= INT_MAX).

  Lemma prune_inner_ok : forall fuel fr i j, arr_ok fr -> Forall (good_rect W H) (contents fr) -> (i < j)%nat ->
    (i < size fr)%nat -> (size fr - j < fuel)%nat ->
    (forall m a b, (i < m < j)%nat -> nth_error (contents fr) i = Some a -> nth_error (contents fr) m = Some b ->
       incomparable a b) ->
    exists fr' er, prune_inner fuel fr i j = Some (fr', er) /\ pruned i fr fr' /\
      (er = true -> (size fr' < size fr)%nat) /\
      (er = false -> forall m a b, (i < m)%nat -> nth_error (contents fr') i = Some a ->
         nth_error (contents fr') m = Some b -> incomparable a b).
  Proof using All.
    induction fuel as [|fuel IH]; intros fr i j Ok G Lij Li Fu Inc; [lia|].
    cbn [prune_inner]. assert (Len := contents_length _ Ok).
    destruct (Nat.ltb_spec j (size fr)) as [Lj|Lj].
    2:{ exists fr, false. split; [reflexivity|]. split; [now apply pruned_refl|]. split; [discriminate|].
        intros _ m a b Hm Ea Eb. apply (Inc m a b); try assumption.
        assert (m < length (contents fr))%nat by (apply nth_error_Some; congruence). lia. }
    destruct (nth_error (contents fr) i) as [a|] eqn:Ea; [|apply nth_error_None in Ea; lia].
    destruct (nth_error (contents fr) j) as [b|] eqn:Eb; [|apply nth_error_None in Eb; lia].
    assert (Ea' := Ea). assert (Eb' := Eb). rewrite nth_contents in Ea', Eb' by assumption. rewrite Ea', Eb'.
    assert (Ga : good_rect W H a) by (apply (proj1 (Forall_forall _ _) G); eapply nth_error_In; exact Ea).
    assert (Gb : good_rect W H b) by (apply (proj1 (Forall_forall _ _) G); eapply nth_error_In; exact Eb).
    rewrite (isContainedIn_ok W H a b HW HH HM Ga Gb), (isContainedIn_ok W H b a HW HH HM Gb Ga).
    destruct (contained_b a b) eqn:Eab.
    { apply contained_b_iff in Eab. destruct (erase_total fr i Ok Li) as (fr1 & E1). rewrite E1.
      exists fr1, true. split; [reflexivity|].
      destruct (erase_nth fr i fr1 Ok Li E1) as (S1 & _).
      split; [|split; [intros _; lia|discriminate]].
      apply (pruned_erase i fr i fr1 a b); try assumption; [lia|]. exists j. split; [lia|assumption]. }
    destruct (contained_b b a) eqn:Eba.
    { apply contained_b_iff in Eba. destruct (erase_total fr j Ok Lj) as (fr1 & E1). rewrite E1.
      destruct (erase_nth fr j fr1 Ok Lj E1) as (S1 & K1 & O1 & N1).
      destruct (erase_moves fr j fr1 Ok Lj E1) as (M1 & M2).
      assert (P1 : pruned i fr fr1).
      { apply (pruned_erase i fr j fr1 b a); try assumption; [lia|]. exists i. split; [lia|assumption]. }
      destruct (IH fr1 i j) as (fr2 & er & E2 & P2 & T2 & F2); try assumption; try lia.
      - rewrite Forall_forall in *. intros x Hx. apply G. now apply (pr_sub _ _ _ P1).
      - intros m a0 b0 Hm Ea0 Eb0. rewrite M1 in Ea0, Eb0 by lia. apply (Inc m); try assumption. congruence.
      - exists fr2, er. split; [exact E2|]. split; [eapply pruned_trans; eassumption|].
        split; [|exact F2]. intros B. specialize (T2 B). lia. }
    destruct (IH fr i (S j)) as (fr2 & er & E2 & P2 & T2 & F2); try assumption; try lia.
    - intros m a0 b0 Hm Ea0 Eb0. destruct (Nat.eq_dec m j) as [->|Ne].
      + assert (a0 = a) by congruence. assert (b0 = b) by congruence. subst. split.
        * intros C. apply contained_b_iff in C. congruence.
        * intros C. apply contained_b_iff in C. congruence.
      + apply (Inc m); try assumption; [lia|congruence].
    - exists fr2, er. auto.
  Qed.

  (** Entries below [i] are incomparable with everything behind them. *)
  Definition settled (i : nat) (l : list rect) : Prop :=
    forall k m a b, (k < i)%nat -> (k < m)%nat -> nth_error l k = Some a -> nth_error l m = Some b -> incomparable a b.

  Lemma settled_pruned : forall i fr fr', pruned i fr fr' -> settled i (contents fr) -> settled i (contents fr').
  Proof using.
    intros i fr fr' [A1 A2 A3 A4 A5 A6 A7] S k m a b Hk Hm Ea Eb. rewrite A4 in Ea by assumption.
    destruct (Nat.lt_ge_cases m i) as [B|B].
    - rewrite A4 in Eb by assumption. apply (S k m); assumption.
    - destruct (A5 m b B Eb) as (m' & B' & Eb'). apply (S k m'); try assumption. lia.
  Qed.

  Lemma pruned_zero : forall i fr fr', pruned i fr fr' -> pruned 0 fr fr'.
  Proof using.
    intros i fr fr' [A1 A2 A3 A4 A5 A6 A7]. constructor; try assumption.
    - intros k Hk. lia.
    - intros k r Hk E. assert (In r (contents fr)) by (apply A6; eapply nth_error_In; exact E).
      apply In_nth_error in H0. destruct H0 as (k' & E'). exists k'. split; [lia|assumption].
  Qed.

  Lemma prune_outer_ok : forall fuel fr i, arr_ok fr -> Forall (good_rect W H) (contents fr) ->
    (size fr - i < fuel)%nat -> settled i (contents fr) ->
    exists fr', prune_outer fuel fr i = Some fr' /\ pruned 0 fr fr' /\ settled (size fr') (contents fr').
  Proof using All.
    induction fuel as [|fuel IH]; intros fr i Ok G Fu Se; [lia|].
    cbn [prune_outer]. destruct (Nat.ltb_spec i (size fr)) as [Li|Li].
    2:{ exists fr. split; [reflexivity|]. split; [now apply pruned_refl|].
        intros k m a b Hk Hm Ea Eb. apply (Se k m); try assumption. lia. }
    destruct (prune_inner_ok (S (size fr)) fr i (S i)) as (fr1 & er & E1 & P1 & T1 & F1); try assumption; try lia.
    rewrite E1. assert (G1 : Forall (good_rect W H) (contents fr1)).
    { rewrite Forall_forall in *. intros x Hx. apply G. now apply (pr_sub _ _ _ P1). }
    assert (O1 := pr_ok _ _ _ P1). assert (Z1 := pr_size _ _ _ P1).
    assert (S1 := settled_pruned _ _ _ P1 Se).
    assert (Q : exists fr', prune_outer fuel fr1 (if er then i else S i) = Some fr' /\ pruned 0 fr1 fr' /\
      settled (size fr') (contents fr')).
    { destruct er.
      - apply IH; try assumption. specialize (T1 eq_refl). lia.
      - apply IH; try assumption; [lia|]. intros k m a b Hk Hm Ea Eb.
        destruct (Nat.eq_dec k i) as [->|Ne]; [apply (F1 eq_refl m); assumption|apply (S1 k m); try assumption; lia]. }
    destruct Q as (fr2 & E2 & P2 & S2). exists fr2. split; [exact E2|]. split; [|exact S2].
    eapply pruned_trans; [|exact P2]. eapply pruned_zero; exact P1.
  Qed.

  Definition antichain (l : list rect) : Prop :=
    forall i j a b, i <> j -> nth_error l i = Some a -> nth_error l j = Some b -> ~ contained a b.

  Lemma prune_ok : forall fr, arr_ok fr -> Forall (good_rect W H) (contents fr) ->
    exists fr', maxRectsPrune fr = Some fr' /\ pruned 0 fr fr' /\ antichain (contents fr').
  Proof using All.
    intros fr Ok G. unfold maxRectsPrune.
    destruct (prune_outer_ok (S (size fr)) fr 0 Ok G) as (fr' & E & P & S); [lia| |].
    { intros k m a b Hk. lia. }
    exists fr'. split; [exact E|]. split; [exact P|].
    assert (L := contents_length _ (pr_ok _ _ _ P)).
    intros i j a b Ne Ea Eb.
    assert (B1 : (i < size fr')%nat) by (rewrite <- L; apply nth_error_Some; congruence).
    assert (B2 : (j < size fr')%nat) by (rewrite <- L; apply nth_error_Some; congruence).
    destruct (Nat.lt_ge_cases i j) as [C|C].
    - apply (S i j a b); assumption.
    - apply (S j i b a); try assumption. lia.
  Qed.
End Prune.
