(** Correctness of the conversions from float/double. *)
From Coq Require Import NArith ZArith List Bool Lia ZifyBool ZifyNat ZifyN.
From Verif Require Import Base U128Model U128Spec Tactics U128Proofs U128Bits U128Scan U128Div
  U128FloatModel FloatSpec FloatProofs.
Import ListNotations.
Local Open Scope N_scope.
Ltac Zify.zify_post_hook ::= Z.div_mod_to_equations.

Lemma set_bit_above : forall m p, m < 2 ^ p -> p < 64 ->
  exists r, tmi_set_bit (tmi_make_low m) p = Some r /\ wf r /\ val r = 2 ^ p + m.
Proof.
  intros m p Hm Hp.
  assert (P : 2 ^ p < 2 ^ 64) by (apply N.pow_lt_mono_r; lia).
  assert (W : wf (tmi_make_low m)) by (split; cbn [tmi_make_low low high]; lia).
  assert (V : val (tmi_make_low m) = m) by (unfold val; cbn [tmi_make_low low high]; lia).
  destruct (set_bit_correct (tmi_make_low m) p W) as (r & E & Wr & B); [lia|].
  exists r. split; [assumption|]. split; [assumption|].
  replace (2 ^ p + m) with (m + 1 * 2 ^ p) by lia. rewrite <- lor_disjoint by assumption.
  apply N.bits_inj_iff. intros j. rewrite B, V, N.lor_spec, N.mul_1_l, N.pow2_bits_eqb.
  rewrite (N.eqb_sym p j). apply orb_comm.
Qed.

Lemma value64_split : forall b, finite64 b -> exists e m,
  e < 2047 /\ m < 2 ^ 52 /\ b = e * 2 ^ 52 + m /\
  value64 b = if e =? 0 then m else (2 ^ 52 + m) * 2 ^ (e - 1).
Proof.
  intros b Hb. exists (b / 2 ^ 52), (b mod 2 ^ 52).
  assert (P : 2 ^ 52 <> 0) by discriminate.
  split; [apply N.div_lt_upper_bound; [assumption|]; unfold finite64 in Hb; lia|].
  split; [now apply N.mod_lt|]. split; [rewrite N.mul_comm; now apply N.div_mod|]. reflexivity.
Qed.

Lemma double_small : forall e m, m < 2 ^ 52 -> e < 1023 ->
  (if e =? 0 then m else (2 ^ 52 + m) * 2 ^ (e - 1)) < unit64.
Proof.
  intros e m Hm He. unfold unit64. destruct (N.eqb_spec e 0).
  - apply N.lt_le_trans with (2 ^ 52); [assumption|]. apply N.pow_le_mono_r; lia.
  - apply N.lt_le_trans with (2 ^ 53 * 2 ^ (e - 1)).
    + apply N.mul_lt_mono_pos_r; [apply pow2_pos|]. change (2 ^ 53) with (2 ^ 52 + 2 ^ 52). lia.
    + rewrite <- N.pow_add_r. apply N.pow_le_mono_r; lia.
Qed.

(** The part before the sign is looked at. [b] is the pattern without its sign bit. *)
Definition double_magnitude (b : N) : option u128 :=
  let exponent := (Z.of_N (b / 2 ^ 52) - 1023 - 52)%Z in
  result <- tmi_set_bit (tmi_make_low (b mod 2 ^ 52)) 52 ;;
  (if (exponent <? 0)%Z then tmi_shr_u64 result (Z.to_N (- exponent))
               else tmi_shl_u64 result (Z.to_N exponent)).

Lemma double_magnitude_ok : forall b, finite64 b -> value64 b < 2 ^ 128 * unit64 -> unit64 <= value64 b ->
  exists r, double_magnitude b = Some r /\ wf r /\ val r = value64 b / unit64.
Proof.
  intros b Hb Hlt Hge. destruct (value64_split b Hb) as (e & m & He & Hm & Eb & V).
  unfold double_magnitude.
  assert (P : 2 ^ 52 <> 0) by discriminate.
  replace (b / 2 ^ 52) with e.
  2:{ rewrite Eb, N.add_comm, N.div_add by assumption. rewrite N.div_small by assumption. lia. }
  replace (b mod 2 ^ 52) with m.
  2:{ rewrite Eb, N.add_comm, N.mod_add by assumption. symmetry. now apply N.mod_small. }
  destruct (N.lt_ge_cases e 1023) as [Ls|Ls].
  { pose proof (double_small e m Hm Ls). lia. }
  destruct (N.eqb_spec e 0); [lia|].
  destruct (set_bit_above m 52 Hm) as (r & Er & Wr & Vr); [lia|]. rewrite Er.
  destruct (Z.ltb_spec (Z.of_N e - 1023 - 52) 0) as [Lz|Lz].
  - destruct (shr_u64_correct r (Z.to_N (- (Z.of_N e - 1023 - 52))) Wr) as (d & Ed & Wd & Vd); [lia|].
    exists d. split; [assumption|]. split; [assumption|].
    rewrite Vd, Vr, V. unfold unit64.
    replace 1074 with ((e - 1) + Z.to_N (- (Z.of_N e - 1023 - 52))) by lia.
    rewrite N.pow_add_r. rewrite (N.mul_comm (2 ^ (e - 1)) (2 ^ _)).
    symmetry. apply N.div_mul_cancel_r; apply N.pow_nonzero; discriminate.
  - assert (X : value64 b = (2 ^ 52 + m) * 2 ^ Z.to_N (Z.of_N e - 1023 - 52) * unit64).
    { rewrite V, <- N.mul_assoc. f_equal. unfold unit64. rewrite <- N.pow_add_r. f_equal. lia. }
    assert (U : unit64 <> 0) by (apply N.pow_nonzero; discriminate).
    rewrite X in Hlt. apply N.mul_lt_mono_pos_r in Hlt; [|clear -U; lia].
    assert (B : Z.to_N (Z.of_N e - 1023 - 52) < 128).
    { apply (N.pow_lt_mono_r_iff 2); [lia|]. eapply N.le_lt_trans; [|exact Hlt].
      set (q := 2 ^ Z.to_N _). assert (1 <= 2 ^ 52) by (clear; lia). nia. }
    destruct (shl_u64_correct r (Z.to_N (Z.of_N e - 1023 - 52)) Wr B) as (d & Ed & Wd & Vd).
    exists d. split; [assumption|]. split; [assumption|].
    rewrite Vd, Vr, X, N.div_mul by assumption. now apply N.mod_small.
Qed.

Lemma from_double_nonneg : forall b, finite64 b -> value64 b < 2 ^ 128 * unit64 ->
  exists r, tmi_from_double b = Some r /\ wf r /\ val r = value64 b / unit64.
Proof.
  intros b Hb Hlt. unfold tmi_from_double.
  assert (B : b < 2047 * 2 ^ 52) by exact Hb.
  replace (N.land (N.shiftr b 52) 0x7FF) with (b / 2 ^ 52).
  2:{ change 0x7FF with (N.ones 11). rewrite N.land_ones, shiftr_div. symmetry. apply N.mod_small.
      change (2 ^ 11) with 2048. change (2 ^ 52) with 4503599627370496 in *. clear -B. lia. }
  replace (N.land b 0xFFFFFFFFFFFFF) with (b mod 2 ^ 52).
  2:{ change 0xFFFFFFFFFFFFF with (N.ones 52). rewrite N.land_ones. reflexivity. }
  replace (N.shiftr b 63) with 0.
  2:{ rewrite shiftr_div. symmetry. apply N.div_small. change (2 ^ 52) with 4503599627370496 in *. clear -B.
      change (2 ^ 63) with 9223372036854775808. lia. }
  cbn [N.eqb negb].
  destruct (Z.ltb_spec (Z.of_N (b / 2 ^ 52) - 1023 - 52) (-52)) as [L|L].
  - exists tmi_zero. split; [reflexivity|]. split; [apply wf_zero|].
    destruct (value64_split b Hb) as (e & m & He & Hm & Eb & V).
    rewrite V. symmetry. apply N.div_small. apply double_small; [assumption|].
    replace (b / 2 ^ 52) with e in L; [lia|].
    rewrite Eb, N.add_comm, N.div_add by discriminate. rewrite N.div_small by assumption. lia.
  - destruct (double_magnitude_ok b Hb Hlt) as (r & E & W & V).
    { destruct (value64_split b Hb) as (e & m & He & Hm & Eb & V).
      assert (e = b / 2 ^ 52).
      { rewrite Eb, N.add_comm, N.div_add by discriminate. rewrite N.div_small by assumption. lia. }
      rewrite V. destruct (N.eqb_spec e 0); [lia|].
      unfold unit64. replace 1074 with (52 + 1022) by lia. rewrite N.pow_add_r.
      apply N.mul_le_mono; [lia|]. apply N.pow_le_mono_r; lia. }
    unfold double_magnitude in E. 
    destruct (tmi_set_bit _ _); [|discriminate].
    exists r. destruct (_ <? 0)%Z; rewrite E; auto.
Qed.

Lemma value32_split : forall b, finite32 b -> exists e m,
  e < 255 /\ m < 2 ^ 23 /\ b = e * 2 ^ 23 + m /\
  value32 b = if e =? 0 then m else (2 ^ 23 + m) * 2 ^ (e - 1).
Proof.
  intros b Hb. exists (b / 2 ^ 23), (b mod 2 ^ 23).
  assert (P : 2 ^ 23 <> 0) by discriminate.
  split; [apply N.div_lt_upper_bound; [assumption|]; unfold finite32 in Hb; lia|].
  split; [now apply N.mod_lt|]. split; [rewrite N.mul_comm; now apply N.div_mod|]. reflexivity.
Qed.

Lemma float_small : forall e m, m < 2 ^ 23 -> e < 127 ->
  (if e =? 0 then m else (2 ^ 23 + m) * 2 ^ (e - 1)) < unit32.
Proof.
  intros e m Hm He. unfold unit32. destruct (N.eqb_spec e 0).
  - apply N.lt_le_trans with (2 ^ 23); [assumption|]. apply N.pow_le_mono_r; lia.
  - apply N.lt_le_trans with (2 ^ 24 * 2 ^ (e - 1)).
    + apply N.mul_lt_mono_pos_r; [apply pow2_pos|]. change (2 ^ 24) with (2 ^ 23 + 2 ^ 23). lia.
    + rewrite <- N.pow_add_r. apply N.pow_le_mono_r; lia.
Qed.

(** The part before the sign is looked at. [b] is the pattern without its sign bit. *)
Definition float_magnitude (b : N) : option u128 :=
  let exponent := (Z.of_N (b / 2 ^ 23) - 127 - 23)%Z in
  result <- tmi_set_bit (tmi_make_low (b mod 2 ^ 23)) 23 ;;
  (if (exponent <? 0)%Z then tmi_shr_u64 result (Z.to_N (- exponent))
               else tmi_shl_u64 result (Z.to_N exponent)).

Lemma float_magnitude_ok : forall b, finite32 b -> value32 b < 2 ^ 128 * unit32 -> unit32 <= value32 b ->
  exists r, float_magnitude b = Some r /\ wf r /\ val r = value32 b / unit32.
Proof.
  intros b Hb Hlt Hge. destruct (value32_split b Hb) as (e & m & He & Hm & Eb & V).
  unfold float_magnitude.
  assert (P : 2 ^ 23 <> 0) by discriminate.
  replace (b / 2 ^ 23) with e.
  2:{ rewrite Eb, N.add_comm, N.div_add by assumption. rewrite N.div_small by assumption. lia. }
  replace (b mod 2 ^ 23) with m.
  2:{ rewrite Eb, N.add_comm, N.mod_add by assumption. symmetry. now apply N.mod_small. }
  destruct (N.lt_ge_cases e 127) as [Ls|Ls].
  { pose proof (float_small e m Hm Ls). lia. }
  destruct (N.eqb_spec e 0); [lia|].
  destruct (set_bit_above m 23 Hm) as (r & Er & Wr & Vr); [lia|]. rewrite Er.
  destruct (Z.ltb_spec (Z.of_N e - 127 - 23) 0) as [Lz|Lz].
  - destruct (shr_u64_correct r (Z.to_N (- (Z.of_N e - 127 - 23))) Wr) as (d & Ed & Wd & Vd); [lia|].
    exists d. split; [assumption|]. split; [assumption|].
    rewrite Vd, Vr, V. unfold unit32.
    replace 149 with ((e - 1) + Z.to_N (- (Z.of_N e - 127 - 23))) by lia.
    rewrite N.pow_add_r. rewrite (N.mul_comm (2 ^ (e - 1)) (2 ^ _)).
    symmetry. apply N.div_mul_cancel_r; apply N.pow_nonzero; discriminate.
  - assert (X : value32 b = (2 ^ 23 + m) * 2 ^ Z.to_N (Z.of_N e - 127 - 23) * unit32).
    { rewrite V, <- N.mul_assoc. f_equal. unfold unit32. rewrite <- N.pow_add_r. f_equal. lia. }
    assert (U : unit32 <> 0) by (apply N.pow_nonzero; discriminate).
    rewrite X in Hlt. apply N.mul_lt_mono_pos_r in Hlt; [|clear -U; lia].
    assert (B : Z.to_N (Z.of_N e - 127 - 23) < 128).
    { apply (N.pow_lt_mono_r_iff 2); [lia|]. eapply N.le_lt_trans; [|exact Hlt].
      set (q := 2 ^ Z.to_N _). assert (1 <= 2 ^ 23) by (clear; lia). nia. }
    destruct (shl_u64_correct r (Z.to_N (Z.of_N e - 127 - 23)) Wr B) as (d & Ed & Wd & Vd).
    exists d. split; [assumption|]. split; [assumption|].
    rewrite Vd, Vr, X, N.div_mul by assumption. now apply N.mod_small.
Qed.

Lemma from_float_nonneg : forall b, finite32 b -> value32 b < 2 ^ 128 * unit32 ->
  exists r, tmi_from_float b = Some r /\ wf r /\ val r = value32 b / unit32.
Proof.
  intros b Hb Hlt. unfold tmi_from_float.
  assert (B : b < 255 * 2 ^ 23) by exact Hb.
  replace (N.land (N.shiftr b 23) 0x7FF) with (b / 2 ^ 23).
  2:{ change 0x7FF with (N.ones 11). rewrite N.land_ones, shiftr_div. symmetry. apply N.mod_small.
      change (2 ^ 11) with 2048. change (2 ^ 23) with 8388608 in *. clear -B. lia. }
  replace (N.land b 0x7FFFFF) with (b mod 2 ^ 23).
  2:{ change 0x7FFFFF with (N.ones 23). rewrite N.land_ones. reflexivity. }
  replace (N.shiftr b 31) with 0.
  2:{ rewrite shiftr_div. symmetry. apply N.div_small. change (2 ^ 23) with 8388608 in *. clear -B.
      change (2 ^ 31) with 2147483648. lia. }
  cbn [N.eqb negb].
  destruct (Z.ltb_spec (Z.of_N (b / 2 ^ 23) - 127 - 23) (-23)) as [L|L].
  - exists tmi_zero. split; [reflexivity|]. split; [apply wf_zero|].
    destruct (value32_split b Hb) as (e & m & He & Hm & Eb & V).
    rewrite V. symmetry. apply N.div_small. apply float_small; [assumption|].
    replace (b / 2 ^ 23) with e in L; [lia|].
    rewrite Eb, N.add_comm, N.div_add by discriminate. rewrite N.div_small by assumption. lia.
  - destruct (float_magnitude_ok b Hb Hlt) as (r & E & W & V).
    { destruct (value32_split b Hb) as (e & m & He & Hm & Eb & V).
      assert (e = b / 2 ^ 23).
      { rewrite Eb, N.add_comm, N.div_add by discriminate. rewrite N.div_small by assumption. lia. }
      rewrite V. destruct (N.eqb_spec e 0); [lia|].
      unfold unit32. replace 149 with (23 + 126) by lia. rewrite N.pow_add_r.
      apply N.mul_le_mono; [lia|]. apply N.pow_le_mono_r; lia. }
    unfold float_magnitude in E. 
    destruct (tmi_set_bit _ _); [|discriminate].
    exists r. destruct (_ <? 0)%Z; rewrite E; auto.
Qed.

(** Negative doubles of magnitude at least 1 (below 2^128). *)
Lemma from_double_neg : forall b, finite64 b -> unit64 <= value64 b -> value64 b < 2 ^ 128 * unit64 ->
  exists r, tmi_from_double (2 ^ 63 + b) = Some r /\ wf r /\ val r = 2 ^ 128 - 1 - value64 b / unit64.
Proof.
  intros b Hb Hge Hlt. unfold tmi_from_double.
  assert (B : b < 2047 * 2 ^ 52) by exact Hb.
  replace (N.land (N.shiftr (2 ^ 63 + b) 52) 0x7FF) with (b / 2 ^ 52).
  2:{ change 0x7FF with (N.ones 11). rewrite N.land_ones, shiftr_div.
      change (2 ^ 11) with 2048. change (2 ^ 52) with 4503599627370496 in *.
      change (2 ^ 63) with 9223372036854775808. clear -B. lia. }
  replace (N.land (2 ^ 63 + b) 0xFFFFFFFFFFFFF) with (b mod 2 ^ 52).
  2:{ change 0xFFFFFFFFFFFFF with (N.ones 52). rewrite N.land_ones.
      change (2 ^ 52) with 4503599627370496 in *.
      change (2 ^ 63) with 9223372036854775808. clear -B. lia. }
  replace (N.shiftr (2 ^ 63 + b) 63) with 1.
  2:{ rewrite shiftr_div. change (2 ^ 52) with 4503599627370496 in *.
      change (2 ^ 63) with 9223372036854775808. clear -B. lia. }
  cbn [N.eqb negb].
  destruct (Z.ltb_spec (Z.of_N (b / 2 ^ 52) - 1023 - 52) (-52)) as [L|L].
  - exfalso. destruct (value64_split b Hb) as (e & m & He & Hm & Eb & V).
    pose proof (double_small e m Hm) as S. rewrite <- V in S.
    replace (b / 2 ^ 52) with e in L; [specialize (S ltac:(lia)); lia|].
    rewrite Eb, N.add_comm, N.div_add by discriminate. rewrite N.div_small by assumption. lia.
  - destruct (double_magnitude_ok b Hb Hlt Hge) as (r & E & W & V).
    assert (WM : wf tmi_max) by (split; reflexivity).
    exists (tmi_sub tmi_max r).
    unfold double_magnitude in E. destruct (tmi_set_bit _ _); [|discriminate].
    split; [destruct (_ <? 0)%Z; rewrite E; reflexivity|].
    split; [now apply sub_wf|]. rewrite sub_exact; [|assumption|assumption|].
    + rewrite V. reflexivity.
    + pose proof (val_lt_wf r W). change (val tmi_max) with (W128 - 1). change (2 ^ 128) with W128 in *. lia.
Qed.

Lemma from_double_neg_small : forall b, finite64 b -> value64 b < unit64 ->
  tmi_from_double (2 ^ 63 + b) = Some tmi_zero.
Proof.
  intros b Hb Hlt. unfold tmi_from_double.
  assert (B : b < 2047 * 2 ^ 52) by exact Hb.
  replace (N.land (N.shiftr (2 ^ 63 + b) 52) 0x7FF) with (b / 2 ^ 52).
  2:{ change 0x7FF with (N.ones 11). rewrite N.land_ones, shiftr_div.
      change (2 ^ 11) with 2048. change (2 ^ 52) with 4503599627370496 in *.
      change (2 ^ 63) with 9223372036854775808. clear -B. lia. }
  destruct (Z.ltb_spec (Z.of_N (b / 2 ^ 52) - 1023 - 52) (-52)) as [L|L]; [reflexivity|].
  exfalso. destruct (value64_split b Hb) as (e & m & He & Hm & Eb & V).
  assert (e = b / 2 ^ 52).
  { rewrite Eb, N.add_comm, N.div_add by discriminate. rewrite N.div_small by assumption. lia. }
  rewrite V in Hlt. destruct (N.eqb_spec e 0); [lia|].
  assert (unit64 <= (2 ^ 52 + m) * 2 ^ (e - 1)); [|lia].
  unfold unit64. replace 1074 with (52 + 1022) by lia. rewrite N.pow_add_r.
  apply N.mul_le_mono; [lia|]. apply N.pow_le_mono_r; lia.
Qed.
