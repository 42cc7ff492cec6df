From Coq Require Import NArith ZArith List Bool Lia ZifyBool ZifyNat ZifyN.
From Verif Require Import Base U128Model U128Spec Tactics U128Proofs U128Bits.
Import ListNotations.
Local Open Scope N_scope.
Ltac Zify.zify_post_hook ::= Z.div_mod_to_equations.

Lemma forall_lt_N : forall n (P : N -> bool),
  forallb P (map N.of_nat (seq 0 n)) = true -> forall k, k < N.of_nat n -> P k = true.
Proof.
  intros n P H k Hk. rewrite forallb_forall in H. apply H.
  apply in_map_iff. exists (N.to_nat k). split; [apply N2Nat.id|].
  apply in_seq. lia.
Qed.

(** * fls *)

Definition covers (v : N) (k : N) (x : N) : Prop :=
  forall j, N.testbit x j = true <-> exists t, t < k /\ N.testbit v (j + t) = true.

Lemma covers_step : forall v k x, covers v k x -> covers v (2 * k) (N.lor x (N.shiftr x k)).
Proof.
  intros v k x H j. rewrite N.lor_spec, shiftr_testbit, orb_true_iff, (H j), (H (j + k)). split.
  - intros [(t & Ht & E)|(t & Ht & E)].
    + exists t. split; [lia|assumption].
    + exists (t + k). split; [lia|]. rewrite <- E. f_equal. lia.
  - intros (t & Ht & E). destruct (N.lt_ge_cases t k).
    + left. exists t. auto.
    + right. exists (t - k). split; [lia|]. rewrite <- E. f_equal. lia.
Qed.

Lemma covers_one : forall v, covers v 1 v.
Proof.
  intros v j. split.
  - intros E. exists 0. split; [lia|]. now rewrite N.add_0_r.
  - intros (t & Ht & E). replace (j + t) with j in E by lia. assumption.
Qed.

Lemma covers_ones : forall v x, v <> 0 -> v < 2 ^ 32 -> covers v 32 x ->
  x = N.ones (N.log2 v + 1).
Proof.
  intros v x Hv Hlt H. apply N.bits_inj_iff. intros j.
  assert (L : N.log2 v < 32) by (apply N.log2_lt_pow2; lia).
  destruct (N.lt_ge_cases j (N.log2 v + 1)) as [Hj|Hj].
  - rewrite N.ones_spec_low by assumption. apply H. exists (N.log2 v - j). split; [lia|].
    replace (j + (N.log2 v - j)) with (N.log2 v) by lia. now apply N.bit_log2.
  - rewrite N.ones_spec_high by assumption.
    destruct (N.testbit x j) eqn:E; [|reflexivity]. apply H in E. destruct E as (t & _ & E).
    rewrite N.bits_above_log2 in E by lia. discriminate.
Qed.

Lemma fls_u32_log2 : forall v, v <> 0 -> v < 2 ^ 32 -> tmi_fls_u32 v = Some (N.log2 v).
Proof.
  intros v Hv Hlt. unfold tmi_fls_u32, assert_.
  destruct (N.eqb_spec v 0); [contradiction|]. cbn [negb].
  assert (C : covers v 32
    (N.lor (N.lor (N.lor (N.lor (N.lor v (N.shiftr v 1)) (N.shiftr (N.lor v (N.shiftr v 1)) 2))
      (N.shiftr (N.lor (N.lor v (N.shiftr v 1)) (N.shiftr (N.lor v (N.shiftr v 1)) 2)) 4))
      (N.shiftr (N.lor (N.lor (N.lor v (N.shiftr v 1)) (N.shiftr (N.lor v (N.shiftr v 1)) 2))
      (N.shiftr (N.lor (N.lor v (N.shiftr v 1)) (N.shiftr (N.lor v (N.shiftr v 1)) 2)) 4)) 8))
      (N.shiftr (N.lor (N.lor (N.lor (N.lor v (N.shiftr v 1)) (N.shiftr (N.lor v (N.shiftr v 1)) 2))
      (N.shiftr (N.lor (N.lor v (N.shiftr v 1)) (N.shiftr (N.lor v (N.shiftr v 1)) 2)) 4))
      (N.shiftr (N.lor (N.lor (N.lor v (N.shiftr v 1)) (N.shiftr (N.lor v (N.shiftr v 1)) 2))
      (N.shiftr (N.lor (N.lor v (N.shiftr v 1)) (N.shiftr (N.lor v (N.shiftr v 1)) 2)) 4)) 8)) 16))).
  { apply (covers_step v 16), (covers_step v 8), (covers_step v 4), (covers_step v 2), (covers_step v 1).
    apply covers_one. }
  cbv zeta. rewrite (covers_ones v _ Hv Hlt C).
  assert (L : N.log2 v < 32) by (apply N.log2_lt_pow2; lia).
  generalize dependent (N.log2 v). clear. intros k L.
  pose (P := fun k => match nth_error fls_table
    (N.to_nat (N.shiftr (w32 (N.ones (k + 1) * 0x07C4ACDD)) 27)) with Some r => r =? k | None => false end).
  assert (E : P k = true).
  { apply (forall_lt_N 32); [vm_compute; reflexivity|exact L]. }
  unfold P in E. destruct (nth_error _ _); [|discriminate].
  apply N.eqb_eq in E. now subst.
Qed.

Lemma fls_u64_log2 : forall v, v <> 0 -> v < 2 ^ 64 -> tmi_fls_u64 v = Some (N.log2 v).
Proof.
  intros v Hv Hlt. change (2 ^ 64) with W64 in Hlt.
  unfold tmi_fls_u64, w32. rewrite shiftr_div. change (2 ^ 32) with W32.
  rewrite (N.mod_small (v / W32)) by lia.
  destruct (N.eqb_spec (v / W32) 0) as [E|E]; cbn [negb].
  - assert (v < W32) by lia. rewrite N.mod_small by assumption.
    apply fls_u32_log2; assumption.
  - rewrite fls_u32_log2; [|assumption|change (2 ^ 32) with W32; lia].
    f_equal. change W32 with (2 ^ 32). rewrite <- shiftr_div, N.log2_shiftr.
    assert (32 <= N.log2 v); [|lia].
    apply N.log2_le_pow2; [lia|]. change (2 ^ 32) with W32. lia.
Qed.

Lemma fls_log2 : forall v, wf v -> val v <> 0 -> tmi_fls v = Some (N.log2 (val v)).
Proof.
  intros [l h] [H1 H2] Hv. unfold tmi_fls, val in *. cbn [low high] in *.
  destruct (N.eqb_spec h 0) as [->|E]; cbn [negb].
  - rewrite N.mul_0_l, N.add_0_l in *. apply fls_u64_log2; assumption.
  - rewrite fls_u64_log2 by assumption. f_equal.
    assert (S : h = N.shiftr (h * 2 ^ 64 + l) 64).
    { rewrite shiftr_div. change (2 ^ 64) with W64 in *. lia. }
    rewrite S at 1. rewrite N.log2_shiftr.
    assert (64 <= N.log2 (h * 2 ^ 64 + l)); [|lia].
    apply N.log2_le_pow2; change (2 ^ 64) with W64 in *; lia.
Qed.

Lemma log2_highest : forall n, n <> 0 -> highest_bit n (N.log2 n).
Proof.
  intros n Hn. split; [now apply N.bit_log2|]. intros j Hj. now apply N.bits_above_log2.
Qed.

(** * ffs *)

(** number of trailing zeros *)
Fixpoint pctz (p : positive) : N :=
  match p with xO q => 1 + pctz q | _ => 0 end.
Definition ctz (n : N) : N := match n with N0 => 0 | Npos p => pctz p end.

Lemma ctz_decompose : forall n, n <> 0 -> exists m, n = 2 ^ ctz n * (2 * m + 1).
Proof.
  intros [|p] H; [contradiction|]. clear H. unfold ctz.
  induction p as [p IH|p IH|].
  - exists (N.pos p). rewrite N.pow_0_r. lia.
  - destruct IH as [m E]. exists m. cbn [pctz].
    rewrite N.pow_add_r, N.pow_1_r. lia.
  - exists 0. reflexivity.
Qed.

Lemma ctz_lowest : forall n, n <> 0 -> lowest_bit n (ctz n).
Proof.
  intros n H. destruct (ctz_decompose n H) as [m E]. split.
  - rewrite E at 1. rewrite N.mul_comm.
    rewrite N.mul_pow2_bits_high, N.sub_diag by lia.
    rewrite N.testbit_odd_0. reflexivity.
  - intros j Hj. rewrite E. rewrite N.mul_comm.
    apply N.mul_pow2_bits_low. assumption.
Qed.

Lemma ctz_le_log2 : forall n, n <> 0 -> ctz n <= N.log2 n.
Proof.
  intros n H. destruct (ctz_lowest n H) as [B _].
  destruct (N.le_gt_cases (ctz n) (N.log2 n)) as [L|L]; [assumption|].
  rewrite N.bits_above_log2 in B by assumption. discriminate.
Qed.

Lemma isolate_lowest : forall n w, n <> 0 -> n < 2 ^ w ->
  N.land n (N.lnot (n - 1) w) = 2 ^ ctz n.
Proof.
  intros n w H Hlt. pose proof (ctz_le_log2 n H) as Hc.
  destruct (ctz_decompose n H) as [m E]. set (k := ctz n) in *.
  assert (Hk : k < w). { apply N.le_lt_trans with (N.log2 n); [assumption|]. apply N.log2_lt_pow2; lia. }
  assert (Hp : 2 ^ k <> 0) by (apply N.pow_nonzero; discriminate).
  assert (E1 : n = (2 * m + 1) * 2 ^ k) by lia.
  assert (E2 : n - 1 = N.ones k + (2 * m) * 2 ^ k).
  { rewrite N.ones_equiv. rewrite <- N.sub_1_r. lia. }
  assert (O : N.ones k < 2 ^ k). { rewrite N.ones_equiv. lia. }
  rewrite <- lor_disjoint in E2 by assumption.
  apply N.bits_inj_iff. intros j. rewrite N.land_spec, N.pow2_bits_eqb.
  destruct (N.lt_ge_cases j w) as [Hj|Hj].
  - rewrite N.lnot_spec_low by assumption. rewrite E2, N.lor_spec. rewrite E1 at 1.
    destruct (N.lt_ge_cases j k) as [Hjk|Hjk].
    + rewrite N.mul_pow2_bits_low by assumption. destruct (N.eqb_spec k j); [lia|reflexivity].
    + rewrite !N.mul_pow2_bits_high by assumption.
      rewrite N.ones_spec_high by assumption. cbn [orb].
      destruct (N.eqb_spec k j) as [->|Hne].
      * rewrite N.sub_diag, N.testbit_odd_0, N.testbit_even_0. reflexivity.
      * replace (j - k) with (N.succ (j - k - 1)) by lia.
        rewrite N.testbit_odd_succ, N.testbit_even_succ by lia.
        destruct (N.testbit m (j - k - 1)); reflexivity.
  - rewrite (testbit_false_ge n w) by assumption.
    destruct (N.eqb_spec k j); [lia|reflexivity].
Qed.

Lemma ffs_u32_ctz : forall v, v <> 0 -> v < 2 ^ 32 -> tmi_ffs_u32 v = Some (ctz v).
Proof.
  intros v Hv Hlt. unfold tmi_ffs_u32, assert_.
  destruct (N.eqb_spec v 0); [contradiction|]. cbn [negb]. cbv zeta.
  assert (S : sub32 v 1 = v - 1).
  { unfold sub32. change (2 ^ 32) with W32 in *. lia. }
  rewrite S, isolate_lowest by assumption.
  assert (L : ctz v < 32).
  { apply N.le_lt_trans with (N.log2 v); [now apply ctz_le_log2|]. apply N.log2_lt_pow2; lia. }
  generalize dependent (ctz v). clear. intros k L.
  pose (P := fun k => match nth_error ffs_table
    (N.to_nat (N.shiftr (w32 (2 ^ k * 0x077CB531)) 27)) with Some r => r =? k | None => false end).
  assert (E : P k = true).
  { apply (forall_lt_N 32); [vm_compute; reflexivity|exact L]. }
  unfold P in E. destruct (nth_error _ _); [|discriminate].
  apply N.eqb_eq in E. now subst.
Qed.

Lemma lowest_unique : forall n a b, lowest_bit n a -> lowest_bit n b -> a = b.
Proof.
  intros n a b [A1 A2] [B1 B2]. destruct (N.lt_trichotomy a b) as [H|[H|H]]; [|assumption|].
  - rewrite B2 in A1 by assumption. discriminate.
  - rewrite A2 in B1 by assumption. discriminate.
Qed.
Lemma highest_unique : forall n a b, highest_bit n a -> highest_bit n b -> a = b.
Proof.
  intros n a b [A1 A2] [B1 B2]. destruct (N.lt_trichotomy a b) as [H|[H|H]]; [|assumption|].
  - rewrite A2 in B1 by assumption. discriminate.
  - rewrite B2 in A1 by assumption. discriminate.
Qed.

Lemma ffs_u64_lowest : forall v, v <> 0 -> v < 2 ^ 64 ->
  exists k, tmi_ffs_u64 v = Some k /\ lowest_bit v k.
Proof.
  intros v Hv Hlt. change (2 ^ 64) with W64 in Hlt.
  unfold tmi_ffs_u64, w32. rewrite land_mask32.
  rewrite N.mod_mod by discriminate.
  destruct (N.eqb_spec (v mod W32) 0) as [E|E]; cbn [negb].
  - rewrite shiftr_div. change (2 ^ 32) with W32. rewrite N.mod_small by lia.
    rewrite ffs_u32_ctz; [|lia|change (2 ^ 32) with W32; lia].
    eexists; split; [reflexivity|].
    assert (Hd : v / W32 <> 0) by lia.
    destruct (ctz_lowest _ Hd) as [B1 B2].
    assert (Ev : v = (v / W32) * 2 ^ 32) by (change (2 ^ 32) with W32; lia).
    set (q := v / W32) in *. clearbody q. subst v. split.
    + rewrite N.mul_pow2_bits_high by lia. replace (ctz q + 32 - 32) with (ctz q) by lia. assumption.
    + intros j Hj. destruct (N.lt_ge_cases j 32).
      * now apply N.mul_pow2_bits_low.
      * rewrite N.mul_pow2_bits_high by assumption. apply B2. lia.
  - rewrite ffs_u32_ctz; [|assumption|change (2 ^ 32) with W32; lia].
    eexists; split; [reflexivity|].
    destruct (ctz_lowest _ E) as [B1 B2].
    assert (T : forall j, j < 32 -> N.testbit (v mod W32) j = N.testbit v j).
    { intros j Hj. change W32 with (2 ^ 32). now apply N.mod_pow2_bits_low. }
    assert (L : ctz (v mod W32) < 32).
    { apply N.le_lt_trans with (N.log2 (v mod W32)); [now apply ctz_le_log2|].
      apply N.log2_lt_pow2; [lia|]. change (2 ^ 32) with W32. lia. }
    split.
    + rewrite <- T by assumption. assumption.
    + intros j Hj. rewrite <- T by lia. now apply B2.
Qed.

Lemma ffs_lowest : forall v, wf v -> val v <> 0 ->
  exists k, tmi_ffs v = Some k /\ lowest_bit (val v) k.
Proof.
  intros v Hv H0. unfold tmi_ffs.
  destruct (N.eqb_spec (low v) 0) as [E|E]; cbn [negb].
  - assert (Hh : high v <> 0). { intro Z. apply H0. unfold val. rewrite E, Z. reflexivity. }
    destruct (ffs_u64_lowest (high v) Hh) as (k & Ek & B1 & B2); [apply Hv|].
    rewrite Ek. eexists; split; [reflexivity|]. split.
    + rewrite val_testbit by assumption. destruct (N.ltb_spec (k + 64) 64); [lia|].
      replace (k + 64 - 64) with k by lia. assumption.
    + intros j Hj. rewrite val_testbit by assumption. rewrite E.
      destruct (N.ltb_spec j 64); [apply N.bits_0|]. apply B2. lia.
  - destruct (ffs_u64_lowest (low v) E) as (k & Ek & B1 & B2); [apply Hv|].
    exists k. split; [assumption|].
    assert (k < 64).
    { destruct (N.lt_ge_cases k 64); [assumption|].
      rewrite (testbit_false_ge (low v) 64) in B1; [discriminate|apply Hv|assumption]. }
    split.
    + rewrite val_testbit by assumption. destruct (N.ltb_spec k 64); [assumption|lia].
    + intros j Hj. rewrite val_testbit by assumption. destruct (N.ltb_spec j 64); [|lia]. now apply B2.
Qed.
