(** Proof support: word arithmetic and bit lemmas. No definitions of the model here. *)
From Coq Require Import NArith ZArith List Bool Lia ZifyBool ZifyNat ZifyN.
From Verif Require Import Base.
Import ListNotations.
Local Open Scope N_scope.

Ltac Zify.zify_post_hook ::= Z.div_mod_to_equations.

Lemma land_ones_mod : forall a n, N.land a (N.ones n) = a mod 2 ^ n.
Proof. intros; apply N.land_ones. Qed.

Lemma land_mask32 : forall a, N.land a 0xFFFFFFFF = a mod W32.
Proof. intros a. change 0xFFFFFFFF with (N.ones 32). apply N.land_ones. Qed.

Lemma land_mask8 : forall a, N.land a 0xFF = a mod 256.
Proof. intros a. change 0xFF with (N.ones 8). apply N.land_ones. Qed.

Lemma shiftr_div : forall a n, N.shiftr a n = a / 2 ^ n.
Proof. intros; apply N.shiftr_div_pow2. Qed.

Lemma shiftl_mul : forall a n, N.shiftl a n = a * 2 ^ n.
Proof. intros; apply N.shiftl_mul_pow2. Qed.

(** Disjoint [or] is addition. *)
Lemma lor_disjoint : forall a b k, a < 2 ^ k -> N.lor a (b * 2 ^ k) = a + b * 2 ^ k.
Proof.
  intros a b k H.
  rewrite <- N.lxor_lor.
  - symmetry. apply N.add_nocarry_lxor.
    apply N.bits_inj_iff. intros j. rewrite N.land_spec, N.bits_0.
    destruct (N.lt_ge_cases j k) as [Hj|Hj].
    + rewrite N.mul_pow2_bits_low by assumption. apply andb_false_r.
    + destruct (N.eq_dec a 0) as [->|Ha]; [rewrite N.bits_0; reflexivity|].
      rewrite (N.bits_above_log2 a); [reflexivity|].
      apply N.lt_le_trans with k; [|assumption].
      apply N.log2_lt_pow2; [lia|assumption].
  - apply N.bits_inj_iff. intros j. rewrite N.land_spec, N.bits_0.
    destruct (N.lt_ge_cases j k) as [Hj|Hj].
    + rewrite N.mul_pow2_bits_low by assumption. apply andb_false_r.
    + destruct (N.eq_dec a 0) as [->|Ha]; [rewrite N.bits_0; reflexivity|].
      rewrite (N.bits_above_log2 a); [reflexivity|].
      apply N.lt_le_trans with k; [|assumption].
      apply N.log2_lt_pow2; [lia|assumption].
Qed.

Lemma lor_disjoint' : forall a b k, a < 2 ^ k -> N.lor (b * 2 ^ k) a = a + b * 2 ^ k.
Proof. intros. rewrite N.lor_comm. now apply lor_disjoint. Qed.

Lemma testbit_false_ge : forall a k j, a < 2 ^ k -> k <= j -> N.testbit a j = false.
Proof.
  intros a k j H Hj. destruct (N.eq_dec a 0) as [->|Ha]; [apply N.bits_0|].
  apply N.bits_above_log2. apply N.lt_le_trans with k; [|assumption].
  apply N.log2_lt_pow2; [lia|assumption].
Qed.

Lemma pow2_pos : forall k, 0 < 2 ^ k.
Proof. intros. apply N.neq_0_lt_0. apply N.pow_nonzero. discriminate. Qed.

Lemma land_bit_nonzero : forall a p,
  negb (N.land a (N.shiftl 1 p) =? 0) = N.testbit a p.
Proof.
  intros a p. rewrite N.shiftl_1_l.
  assert (E: N.land a (2 ^ p) = (if N.testbit a p then 2 ^ p else 0)).
  { apply N.bits_inj_iff. intros j. rewrite N.land_spec, N.pow2_bits_eqb.
    destruct (N.eqb_spec p j) as [->|Hn].
    - destruct (N.testbit a j); [rewrite N.pow2_bits_true|rewrite N.bits_0]; reflexivity.
    - destruct (N.testbit a p); rewrite ?N.bits_0, ?N.pow2_bits_false by assumption;
      apply andb_false_r. }
  rewrite E. destruct (N.testbit a p); [|reflexivity].
  assert (2 ^ p <> 0) by (apply N.pow_nonzero; discriminate).
  destruct (N.eqb_spec (2 ^ p) 0); [contradiction|reflexivity].
Qed.

Lemma ltb_lt' : forall a b, (a <? b) = true <-> a < b. Proof. exact N.ltb_lt. Qed.

(** Buffers. *)
Lemma write_length : forall A (buf : list A) i c buf',
  write buf i c = Some buf' -> length buf' = length buf.
Proof.
  induction buf as [|h t IH]; intros [|i] c buf' H; simpl in H; try discriminate.
  - injection H as <-. reflexivity.
  - destruct (write t i c) as [t'|] eqn:E; [|discriminate]. injection H as <-.
    simpl. f_equal. eapply IH; eassumption.
Qed.

Lemma write_some : forall A (buf : list A) i c, (i < length buf)%nat ->
  write buf i c = Some (firstn i buf ++ c :: skipn (S i) buf).
Proof.
  induction buf as [|h t IH]; intros [|i] c H; simpl in *; try lia; [reflexivity|].
  rewrite IH by lia. reflexivity.
Qed.

Lemma write_none : forall A (buf : list A) i c, (length buf <= i)%nat -> write buf i c = None.
Proof.
  induction buf as [|h t IH]; intros [|i] c H; simpl in *; try lia; try reflexivity.
  rewrite IH by lia. reflexivity.
Qed.
