From Coq Require Import NArith ZArith List Bool Lia ZifyBool ZifyNat ZifyN.
From Verif Require Import Base U128Model U128Spec Tactics.
Import ListNotations.
Local Open Scope N_scope.
Ltac Zify.zify_post_hook ::= Z.div_mod_to_equations.

Ltac words := unfold wf, val, w64, w32, sub64, sub32, b2n in *; cbn [low high] in *;
  change (2 ^ 64) with W64 in *; change (2 ^ 128) with W128 in *; change (2 ^ 32) with W32 in *.

(** * Addition, subtraction *)

Lemma add_wf : forall a b, wf a -> wf b -> wf (tmi_add a b).
Proof. intros [al ah] [bl bh] [H1 H2] [H3 H4]. unfold tmi_add, tmi_internal_add64. words. lia. Qed.

Lemma add_val : forall a b, wf a -> wf b -> val (tmi_add a b) = (val a + val b) mod 2 ^ 128.
Proof.
  intros [al ah] [bl bh] [H1 H2] [H3 H4]. unfold tmi_add, tmi_internal_add64. words.
  destruct (N.ltb_spec ((al + bl) mod W64) al); lia.
Qed.

Lemma sub_wf : forall a b, wf a -> wf b -> wf (tmi_sub a b).
Proof. intros [al ah] [bl bh] [H1 H2] [H3 H4]. unfold tmi_sub, tmi_internal_sub64. words. lia. Qed.

Lemma sub_val : forall a b, wf a -> wf b ->
  val (tmi_sub a b) = (val a + 2 ^ 128 - val b) mod 2 ^ 128.
Proof.
  intros [al ah] [bl bh] [H1 H2] [H3 H4]. unfold tmi_sub, tmi_internal_sub64. words.
  destruct (N.ltb_spec al ((al + W64 - bl) mod W64)); lia.
Qed.

Lemma add_u64_wf : forall a b, wf a -> b < 2 ^ 64 -> wf (tmi_add_u64 a b).
Proof. intros [al ah] b [H1 H2] H3. unfold tmi_add_u64, tmi_internal_add64. words. lia. Qed.

Lemma add_u64_val : forall a b, wf a -> b < 2 ^ 64 ->
  val (tmi_add_u64 a b) = (val a + b) mod 2 ^ 128.
Proof.
  intros [al ah] b [H1 H2] H3. unfold tmi_add_u64, tmi_internal_add64. words.
  destruct (N.ltb_spec ((al + b) mod W64) al); lia.
Qed.

Lemma sub_u64_wf : forall a b, wf a -> b < 2 ^ 64 -> wf (tmi_sub_u64 a b).
Proof. intros [al ah] b [H1 H2] H3. unfold tmi_sub_u64, tmi_internal_sub64. words. lia. Qed.

Lemma sub_u64_val : forall a b, wf a -> b < 2 ^ 64 ->
  val (tmi_sub_u64 a b) = (val a + 2 ^ 128 - b) mod 2 ^ 128.
Proof.
  intros [al ah] b [H1 H2] H3. unfold tmi_sub_u64, tmi_internal_sub64. words.
  destruct (N.ltb_spec al ((al + W64 - b) mod W64)); lia.
Qed.

Lemma inc_val : forall a, wf a -> wf (tmi_inc a) /\ val (tmi_inc a) = (val a + 1) mod 2 ^ 128.
Proof.
  intros [al ah] [H1 H2]. unfold tmi_inc, tmi_internal_add64. words. split; [lia|].
  destruct (N.ltb_spec ((al + 1) mod W64) al); lia.
Qed.

Lemma dec_val : forall a, wf a ->
  wf (tmi_dec a) /\ val (tmi_dec a) = (val a + 2 ^ 128 - 1) mod 2 ^ 128.
Proof.
  intros [al ah] [H1 H2]. unfold tmi_dec, tmi_internal_sub64. words. split; [lia|].
  destruct (N.ltb_spec al ((al + W64 - 1) mod W64)); lia.
Qed.

(** * Multiplication *)

Lemma mul64_correct : forall a b, a < W64 -> b < W64 ->
  let r := tmi_internal_mul64 a b in
  low r < W64 /\ high r < W64 /\ high r * W64 + low r = a * b.
Proof.
  intros a b Ha Hb.
  unfold tmi_internal_mul64. cbv zeta. cbn [low high].
  rewrite !land_mask32, !shiftr_div, !shiftl_mul. unfold w64.
  change (2 ^ 32) with W32.
  set (al := a mod W32). set (ah := a / W32). set (bl := b mod W32). set (bh := b / W32).
  assert (Hal : al < W32) by (unfold al; lia).
  assert (Hbl : bl < W32) by (unfold bl; lia).
  assert (Hah : ah < W32) by (unfold ah; lia).
  assert (Hbh : bh < W32) by (unfold bh; lia).
  assert (Ea : a = ah * W32 + al) by (unfold ah, al; lia).
  assert (Eb : b = bh * W32 + bl) by (unfold bh, bl; lia).
  assert (P1 : al * bl <= (W32-1)*(W32-1)) by (apply N.mul_le_mono; lia).
  assert (P2 : al * bh <= (W32-1)*(W32-1)) by (apply N.mul_le_mono; lia).
  assert (P3 : ah * bl <= (W32-1)*(W32-1)) by (apply N.mul_le_mono; lia).
  assert (P4 : ah * bh <= (W32-1)*(W32-1)) by (apply N.mul_le_mono; lia).
  assert (Eab : a * b = ah * bh * W64 + (al * bh + ah * bl) * W32 + al * bl).
  { rewrite Ea, Eb. change W64 with (W32 * W32). ring. }
  rewrite Eab. clearbody al ah bl bh. clear Ea Eb Eab Ha Hb a b.
  set (ll := al * bl) in *. set (lh := al * bh) in *. set (hl := ah * bl) in *. set (hh := ah * bh) in *.
  clearbody ll lh hl hh.
  rewrite (N.mod_small ll W64) by lia.
  rewrite (N.mod_small lh W64) by lia.
  rewrite (N.mod_small hl W64) by lia.
  rewrite (N.mod_small hh W64) by lia.
  assert (Q1 : ll = W32 * (ll / W32) + ll mod W32) by (apply N.div_mod; discriminate).
  assert (Q2 : hl = W32 * (hl / W32) + hl mod W32) by (apply N.div_mod; discriminate).
  assert (R1 : ll mod W32 < W32) by (apply N.mod_lt; discriminate).
  assert (R2 : hl mod W32 < W32) by (apply N.mod_lt; discriminate).
  set (llq := ll / W32) in *. set (llr := ll mod W32) in *.
  set (hlq := hl / W32) in *. set (hlr := hl mod W32) in *.
  clearbody llq llr hlq hlr. subst ll hl.
  rewrite (N.mod_small (lh + llq) W64) by lia.
  rewrite (N.mod_small (hh + hlq) W64) by lia.
  rewrite (N.mod_small (lh + llq + hlr) W64) by lia.
  set (s := lh + llq + hlr) in *.
  assert (Es : s = lh + llq + hlr) by reflexivity. clearbody s.
  assert (Q3 : s = W32 * (s / W32) + s mod W32) by (apply N.div_mod; discriminate).
  assert (R3 : s mod W32 < W32) by (apply N.mod_lt; discriminate).
  assert (E4 : (s * W32) mod W64 = (s mod W32) * W32).
  { change W64 with (W32 * W32). rewrite N.mul_mod_distr_r by discriminate. reflexivity. }
  rewrite E4.
  set (sq := s / W32) in *. set (sr := s mod W32) in *. clearbody sq sr.
  rewrite (N.mod_small (hh + hlq + sq) W64) by lia.
  change W32 with (2 ^ 32). rewrite lor_disjoint by (change (2 ^ 32) with W32; lia).
  change (2 ^ 32) with W32. split; [lia|split;lia].
Qed.

Lemma mul_wf : forall a b, wf a -> wf b -> wf (tmi_mul a b).
Proof.
  intros [al ah] [bl bh] [H1 H2] [H3 H4].
  unfold tmi_mul. words.
  destruct (mul64_correct al bl H1 H3) as (L & _ & _). split; [exact L|].
  apply N.mod_lt; discriminate.
Qed.

Lemma mod_mul_shift : forall x, (x mod W64) * W64 = (x * W64) mod W128.
Proof. intros x. change W128 with (W64 * W64). rewrite N.mul_mod_distr_r by discriminate. reflexivity. Qed.

Lemma mul_val : forall a b, wf a -> wf b -> val (tmi_mul a b) = (val a * val b) mod 2 ^ 128.
Proof.
  intros [al ah] [bl bh] [H1 H2] [H3 H4].
  unfold tmi_mul. words.
  destruct (mul64_correct al bl H1 H3) as (L & Hh & E).
  set (r := tmi_internal_mul64 al bl) in *. clearbody r.
  destruct r as [rl rh]. cbn [low high] in *.
  replace ((ah * W64 + al) * (bh * W64 + bl))
    with (ah * bh * W128 + (al * bh + ah * bl) * W64 + al * bl)
    by (change W128 with (W64 * W64); ring).
  rewrite <- E.
  generalize (al * bh) (ah * bl) (ah * bh). intros x y z.
  lia.
Qed.

Lemma mul_u64_wf : forall a b, wf a -> b < 2 ^ 64 -> wf (tmi_mul_u64 a b).
Proof.
  intros [al ah] b [H1 H2] H3. unfold tmi_mul_u64. words.
  destruct (mul64_correct al b H1 H3) as (L & _ & _). split; [exact L|].
  apply N.mod_lt; discriminate.
Qed.

Lemma mul_u64_val : forall a b, wf a -> b < 2 ^ 64 ->
  val (tmi_mul_u64 a b) = (val a * b) mod 2 ^ 128.
Proof.
  intros [al ah] b [H1 H2] H3. unfold tmi_mul_u64. words.
  destruct (mul64_correct al b H1 H3) as (L & Hh & E).
  set (r := tmi_internal_mul64 al b) in *. clearbody r. destruct r as [rl rh]. cbn [low high] in *.
  replace ((ah * W64 + al) * b) with ((ah * b) * W64 + al * b) by ring.
  rewrite <- E. generalize (ah * b). intros x. lia.
Qed.

(** * Comparisons *)

Lemma val_lt_wf : forall a, wf a -> val a < 2 ^ 128.
Proof. intros [al ah] [H1 H2]. words. lia. Qed.

Lemma val_inj : forall a b, wf a -> wf b -> val a = val b -> a = b.
Proof. intros [al ah] [bl bh] [H1 H2] [H3 H4] E. words. f_equal; lia. Qed.

Lemma lt_val : forall a b, wf a -> wf b -> tmi_lt a b = (val a <? val b).
Proof. intros [al ah] [bl bh] [H1 H2] [H3 H4]. unfold tmi_lt. words.
  destruct (N.eqb_spec ah bh); lia. Qed.
Lemma lte_val : forall a b, wf a -> wf b -> tmi_lte a b = (val a <=? val b).
Proof. intros [al ah] [bl bh] [H1 H2] [H3 H4]. unfold tmi_lte. words.
  destruct (N.eqb_spec ah bh); lia. Qed.
Lemma gt_val : forall a b, wf a -> wf b -> tmi_gt a b = (val b <? val a).
Proof. intros [al ah] [bl bh] [H1 H2] [H3 H4]. unfold tmi_gt. words.
  destruct (N.eqb_spec ah bh); lia. Qed.
Lemma gte_val : forall a b, wf a -> wf b -> tmi_gte a b = (val b <=? val a).
Proof. intros [al ah] [bl bh] [H1 H2] [H3 H4]. unfold tmi_gte. words.
  destruct (N.eqb_spec ah bh); lia. Qed.
Lemma eq_val : forall a b, wf a -> wf b -> tmi_eq a b = (val a =? val b).
Proof. intros [al ah] [bl bh] [H1 H2] [H3 H4]. unfold tmi_eq. words. lia. Qed.
Lemma is_zero_val : forall a, wf a -> tmi_is_zero a = (val a =? 0).
Proof. intros [al ah] [H1 H2]. unfold tmi_is_zero. words. lia. Qed.
Lemma is_not_zero_val : forall a, wf a -> tmi_is_not_zero a = negb (val a =? 0).
Proof. intros [al ah] [H1 H2]. unfold tmi_is_not_zero. words. lia. Qed.
Lemma cmp_val : forall a b, wf a -> wf b ->
  tmi_cmp a b = match val a ?= val b with Lt => (-1)%Z | Eq => 0%Z | Gt => 1%Z end.
Proof. intros [al ah] [bl bh] [H1 H2] [H3 H4]. unfold tmi_cmp. words.
  destruct (N.compare_spec (ah * W64 + al) (bh * W64 + bl));
  destruct (N.ltb_spec ah bh); destruct (N.ltb_spec bh ah);
  destruct (N.ltb_spec al bl); destruct (N.ltb_spec bl al); lia.
Qed.

(** * Bits *)

Lemma lt_pow64 : forall x, x < W64 -> x < 2 ^ 64. Proof. intros; exact H. Qed.

Lemma val_testbit : forall v j, wf v ->
  N.testbit (val v) j = if j <? 64 then N.testbit (low v) j else N.testbit (high v) (j - 64).
Proof.
  intros [l h] j [H1 H2]. unfold val. cbn [low high] in *.
  rewrite N.add_comm, <- lor_disjoint by assumption. rewrite N.lor_spec.
  destruct (N.ltb_spec j 64).
  - rewrite N.mul_pow2_bits_low by assumption. apply orb_false_r.
  - rewrite (testbit_false_ge l 64) by assumption.
    rewrite N.mul_pow2_bits_high by assumption. reflexivity.
Qed.

Lemma bits_lt : forall a k, (forall j, k <= j -> N.testbit a j = false) -> a < 2 ^ k.
Proof.
  intros a k H. destruct (N.eq_dec a 0) as [->|Ha]; [apply pow2_pos|].
  apply N.log2_lt_pow2; [lia|].
  destruct (N.lt_ge_cases (N.log2 a) k) as [L|L]; [assumption|].
  specialize (H _ L). rewrite N.bit_log2 in H by assumption. discriminate.
Qed.
