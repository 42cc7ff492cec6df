(** scan_double: the computed double against the number the literal denotes. *)
From Coq Require Import Reals ZArith NArith List Bool Lia Lra Psatz ZifyBool ZifyNat ZifyN.
From Flocq Require Import Core Relative IEEE754.BinarySingleNaN.
From Verif Require Import Base CTypeModel DigitsSpec DigitsProofs Fp FpProofs DblModel DblSpec DblScan DblLex DblError.
Import ListNotations.
Local Open Scope R_scope.

(** * Leading zeros *)

Lemma significant_length : forall ds, (length (significant ds) <= length ds)%nat.
Proof.
  induction ds as [|d ds IH]; [cbn; lia|]. cbn [significant]. destruct (N.eqb_spec d 0); cbn [length]; lia.
Qed.
Lemma significant_skipn : forall ds, significant ds = skipn (length ds - length (significant ds)) ds.
Proof.
  induction ds as [|d ds IH]; [reflexivity|]. cbn [significant]. destruct (N.eqb_spec d 0).
  - pose proof (significant_length ds). cbn [length].
    replace (S (length ds) - length (significant ds))%nat with (S (length ds - length (significant ds))) by lia. exact IH.
  - rewrite Nat.sub_diag. reflexivity.
Qed.
Lemma significant_number : forall ds, number 10 (significant ds) = number 10 ds.
Proof.
  induction ds as [|d ds IH]; [reflexivity|]. cbn [significant]. destruct (N.eqb_spec d 0) as [->|]; [|reflexivity].
  rewrite IH, number_cons. lia.
Qed.
Lemma significant_decimal : forall ds, decimal ds -> decimal (significant ds).
Proof.
  intros ds D. induction D as [|d ds H D IH]; [constructor|]. cbn [significant]. destruct (N.eqb d 0); [assumption|].
  now constructor.
Qed.
Lemma significant_nil : forall ds, number 10 ds = 0%N -> significant ds = [].
Proof.
  induction ds as [|d ds IH]; [reflexivity|]. rewrite number_cons. intros H. cbn [significant].
  assert (P : (10 ^ N.of_nat (length ds) <> 0)%N) by (apply N.pow_nonzero; lia).
  assert (d = 0%N) by nia. subst d. cbn [N.eqb]. apply IH. lia.
Qed.
Lemma significant_app : forall a b, number 10 a <> 0%N -> significant (a ++ b) = significant a ++ b.
Proof.
  induction a as [|d a IH]; intros b H; [cbn in H; lia|]. cbn [app significant].
  destruct (N.eqb_spec d 0) as [->|]; [|reflexivity]. apply IH. rewrite number_cons in H. lia.
Qed.

Lemma zeros_digits : forall ds tl il, decimal ds -> (il <= length ds)%nat \/ number 10 ds <> 0%N ->
  zeros (digits_text ds ++ tl) il = Nat.min il (length ds - length (significant ds)).
Proof.
  intros ds tl il D. revert il. induction D as [|d ds Hd D IH]; intros il H.
  - destruct H as [H|H]; [|cbn in H; lia]. cbn in H. replace il with 0%nat by lia. destruct tl; reflexivity.
  - destruct il as [|il]; [reflexivity|]. cbn [digits_text map app zeros significant].
    destruct (N.eqb_spec d 0) as [->|Hz].
    + change ((48 + 0 =? 48) || (48 + 0 =? 46))%N with true. cbv iota. fold (digits_text ds). rewrite IH.
      * pose proof (significant_length ds). cbn [length]. lia.
      * destruct H as [H|H]; [left; cbn [length] in H; lia|right]. rewrite number_cons in H. lia.
    + destruct (N.eqb_spec (48 + d) 48); [lia|]. destruct (N.eqb_spec (48 + d) 46); [lia|].
      rewrite Nat.sub_diag. reflexivity.
Qed.

Lemma digs_skip_digits : forall ds tl n, decimal ds -> (n <= length ds)%nat ->
  digs (skipn n (digits_text ds ++ tl)) = skipn n (digs (digits_text ds ++ tl)).
Proof.
  intros ds tl n D. revert n. induction D as [|d ds Hd D IH]; intros n H.
  - cbn in H. replace n with 0%nat by lia. reflexivity.
  - destruct n as [|n]; [reflexivity|]. cbn [digits_text map app].
    rewrite digs_digit by (unfold is_digit; lia). cbn [skipn]. fold (digits_text ds). apply IH. cbn [length] in H. lia.
Qed.

(** The double computed from the digits before and after the (moved) point. *)
Definition assembled (is fs : list N) (e : Z) (negative : bool) : option double :=
  fp' <- str_Pow10 (mantissa fs) (- Z.of_nat (length fs)) ;;
  v <- str_Pow10 (dadd (mantissa is) fp') e ;;
  Some (if negative then dneg v else v).

Lemma moved_split : forall l, all_digits l = moved_before l ++ moved_after l.
Proof. intros. symmetry. apply firstn_skipn. Qed.
Lemma moved_before_length : forall l, length (moved_before l) = point_position l.
Proof. intros. unfold moved_before. rewrite firstn_length. pose proof (point_position_le l). lia. Qed.
Lemma moved_after_length : forall l, length (moved_after l) = (length (all_digits l) - point_position l)%nat.
Proof. intros. unfold moved_after. now rewrite skipn_length. Qed.

Lemma mantissa_nil : mantissa [] = of_int 0.
Proof. reflexivity. Qed.

Lemma literal_double_assembled : forall l, lexical l -> ~ point_after_zeros l ->
  (length (significant (moved_before l)) <= 18)%nat -> (length (moved_after l) <= 18)%nat ->
  literal_double l = assembled (significant (moved_before l)) (moved_after l) (left_exponent l) (lit_minus l).
Proof.
  intros l L NP Ls La. pose proof (digs_mantissa l L) as DM. destruct L as (DB & DA & _).
  pose proof (point_position_le l) as PL. pose proof (all_digits_length l) as AL.
  pose proof (moved_before_length l) as MBL. pose proof (moved_after_length l) as MAL.
  pose proof (significant_length (moved_before l)) as SL.
  set (sig := significant (moved_before l)) in *. set (il := point_position l) in *.
  set (p := mantissa_text l) in *.
  assert (Hz : zeros p il = (il - length sig)%nat /\ (zeros p il <= length (lit_before l))%nat).
  { unfold p, mantissa_text. pose proof (significant_length (lit_before l)) as SB.
    destruct (Nat.le_gt_cases il (length (lit_before l))) as [C|C].
    - rewrite zeros_digits by (assumption || (left; assumption)).
      split; [|lia]. rewrite <- (firstn_skipn il (lit_before l)) at 1 2.
      assert (EB : moved_before l = firstn il (lit_before l)).
      { unfold moved_before, all_digits. fold il. rewrite firstn_app. replace (il - length (lit_before l))%nat with 0%nat by lia.
        cbn [firstn]. apply app_nil_r. }
      unfold sig. rewrite EB. set (b1 := firstn il (lit_before l)) in *. set (b2 := skipn il (lit_before l)).
      assert (L1 : length b1 = il) by (unfold b1; rewrite firstn_length; lia).
      destruct (N.eq_dec (number 10 b1) 0) as [Q|Q].
      + assert (SA : significant (b1 ++ b2) = significant b2).
        { clear -Q. induction b1 as [|d b1 IH]; [reflexivity|]. rewrite number_cons in Q.
          assert (P : (10 ^ N.of_nat (length b1) <> 0)%N) by (apply N.pow_nonzero; lia).
          assert (d = 0%N) by nia. subst d. cbn [app significant N.eqb]. apply IH. lia. }
        rewrite SA, (significant_nil b1 Q), app_length. pose proof (significant_length b2). cbn [length]. lia.
      + rewrite significant_app by assumption. rewrite !app_length. pose proof (significant_length b1). lia.
    - assert (Q : number 10 (lit_before l) <> 0%N).
      { intro Q. apply NP. split; assumption. }
      rewrite zeros_digits by (assumption || (right; assumption)).
      split; [|lia].
      assert (EB : moved_before l = lit_before l ++ firstn (il - length (lit_before l)) (lit_after l)).
      { unfold moved_before, all_digits. fold il. rewrite firstn_app. rewrite firstn_all2 by lia. reflexivity. }
      unfold sig. rewrite EB, significant_app by assumption.
      rewrite app_length, firstn_length. lia. }
  destruct Hz as [Hz Hzb].
  assert (DS : forall n, (n <= length (lit_before l))%nat -> digs (skipn n p) = skipn n (all_digits l)).
  { intros n Hn. rewrite <- DM. unfold p, mantissa_text. now apply digs_skip_digits. }
  unfold literal_double, computed_value, assembled. fold p il. rewrite <- MAL.
  destruct (Nat.ltb_spec (zeros p il) il) as [C|C].
  - rewrite DS by assumption. rewrite Hz.
    replace (il - (il - length sig))%nat with (length sig) by lia.
    rewrite (Nat.min_r 18 (length sig)) by assumption. rewrite Nat.min_r by assumption.
    assert (E1 : skipn (il - length sig) (all_digits l) = sig ++ moved_after l).
    { rewrite moved_split, skipn_app. rewrite MBL. replace (il - length sig - il)%nat with 0%nat by lia.
      cbn [skipn]. f_equal. unfold sig at 2. rewrite (significant_skipn (moved_before l)). rewrite MBL. reflexivity. }
    rewrite E1, firstn_app, Nat.sub_diag, firstn_O, app_nil_r, firstn_all.
    rewrite skipn_app, skipn_all, Nat.sub_diag. cbn [skipn app]. rewrite firstn_all. reflexivity.
  - assert (S0 : sig = []) by (destruct sig; [reflexivity|cbn [length] in *; lia]).
    rewrite S0 in *. cbn [length] in *. rewrite Nat.sub_0_r in Hz.
    rewrite DS by lia. rewrite Nat.min_r by assumption. cbn [skipn].
    change (skipn il (all_digits l)) with (moved_after l). rewrite firstn_all, mantissa_nil. reflexivity.
Qed.

(** * The value of the literal in terms of the moved point *)

Definition magnitude (l : literal) : R :=
  (intR (moved_before l) + intR (moved_after l) / bpow radix10 (Z.of_nat (length (moved_after l)))) *
  bpow radix10 (left_exponent l).

Lemma literal_value_magnitude : forall l,
  literal_value l = (if lit_minus l then -1 else 1) * magnitude l.
Proof.
  intros l. unfold literal_value, magnitude. rewrite Rmult_assoc. f_equal.
  rewrite (moved_split l), number_app, N2Z.inj_add, N2Z.inj_mul, N2Z.inj_pow, nat_N_Z.
  rewrite plus_IZR, mult_IZR. change (Z.of_N 10) with 10%Z. rewrite <- bpow10_Z by lia.
  fold (intR (moved_before l)). fold (intR (moved_after l)).
  set (k := Z.of_nat (length (moved_after l))).
  replace (exponent_value l - Z.of_nat (length (lit_after l)))%Z with (left_exponent l - k)%Z.
  - unfold Z.sub. rewrite bpow_plus, bpow_opp. field. apply Rgt_not_eq, bpow_gt_0.
  - unfold k. rewrite moved_after_length, all_digits_length. unfold left_exponent.
    pose proof (point_position_le l). rewrite all_digits_length in *. lia.
Qed.

Lemma significant_intR : forall ds, intR (significant ds) = intR ds.
Proof. intros. unfold intR. now rewrite significant_number. Qed.

(** * The last step *)

Lemma tau_u : tau = 23 / 8 * u.
Proof. unfold tau. rewrite u_val. change (2 ^ 60)%Z with (128 * 2 ^ 53)%Z. rewrite mult_IZR. field. lra. Qed.
Lemma u_small : 0 < u <= / 1000000.
Proof.
  split; [apply u_pos|]. rewrite u_val. apply Rinv_le; [lra|]. apply IZR_le. lia.
Qed.

Definition close (eps a x : R) : Prop := (1 - eps) * x <= a <= (1 + eps) * x.
Lemma close_abs : forall eps a x, close eps a x -> Rabs (a - x) <= eps * x.
Proof. intros eps a x [A B]. apply Rabs_le. lra. Qed.
Lemma abs_close : forall eps a x, Rabs (a - x) <= eps * x -> close eps a x.
Proof. intros eps a x H. apply abs_bounds in H. split; lra. Qed.

Lemma cube_le : (1 + u) * (1 + u) * (1 + u) - 1 <= 31 / 10 * u.
Proof. pose proof u_small. nra. Qed.

Lemma close_mult : forall s x y p, 0 <= x -> 0 <= p -> close (31 / 10 * u) s x -> close tau y p -> close (6 * u) (s * y) (x * p).
Proof.
  intros s x y p Hx Hp [S1 S2] [Y1 Y2]. rewrite tau_u in *. pose proof u_small as U.
  assert (0 <= (1 - 31 / 10 * u) * x) by nra. assert (0 <= (1 - 23 / 8 * u) * p) by nra.
  split.
  - apply Rle_trans with ((1 - 31 / 10 * u) * x * ((1 - 23 / 8 * u) * p)); [|apply Rmult_le_compat; lra].
    replace ((1 - 31 / 10 * u) * x * ((1 - 23 / 8 * u) * p)) with ((1 - 31 / 10 * u) * (1 - 23 / 8 * u) * (x * p)) by ring.
    apply Rmult_le_compat_r; [now apply Rmult_le_pos|]. nra.
  - apply Rle_trans with ((1 + 31 / 10 * u) * x * ((1 + 23 / 8 * u) * p)); [apply Rmult_le_compat; lra|].
    replace ((1 + 31 / 10 * u) * x * ((1 + 23 / 8 * u) * p)) with ((1 + 31 / 10 * u) * (1 + 23 / 8 * u) * (x * p)) by ring.
    apply Rmult_le_compat_r; [now apply Rmult_le_pos|]. nra.
Qed.
Lemma close_div : forall s x y p, 0 <= x -> 0 < p -> close (31 / 10 * u) s x -> close tau y p -> close (6 * u) (s / y) (x / p).
Proof.
  intros s x y p Hx Hp [S1 S2] [Y1 Y2]. rewrite tau_u in *. pose proof u_small as U.
  assert (0 <= (1 - 31 / 10 * u) * x) by nra. assert (P1 : 0 < (1 - 23 / 8 * u) * p) by nra.
  assert (Y0 : 0 < y) by lra. set (q := x / p). assert (Eq : x = q * p) by (unfold q; field; lra).
  assert (Q0 : 0 <= q) by (apply Rmult_le_pos; [assumption|left; now apply Rinv_0_lt_compat]).
  split.
  - apply Rmult_le_reg_r with y; [assumption|]. replace (s / y * y) with s by (field; lra).
    apply Rle_trans with ((1 - 6 * u) * q * ((1 + 23 / 8 * u) * p)); [apply Rmult_le_compat_l; nra|].
    apply Rle_trans with ((1 - 31 / 10 * u) * x); [|assumption]. rewrite Eq.
    replace ((1 - 6 * u) * q * ((1 + 23 / 8 * u) * p)) with ((1 - 6 * u) * (1 + 23 / 8 * u) * (q * p)) by ring.
    apply Rmult_le_compat_r; [now rewrite <- Eq|]. nra.
  - apply Rmult_le_reg_r with y; [assumption|]. replace (s / y * y) with s by (field; lra).
    apply Rle_trans with ((1 + 6 * u) * q * ((1 - 23 / 8 * u) * p)); [|apply Rmult_le_compat_l; nra].
    apply Rle_trans with ((1 + 31 / 10 * u) * x); [assumption|]. rewrite Eq.
    replace ((1 + 6 * u) * q * ((1 - 23 / 8 * u) * p)) with ((1 + 6 * u) * (1 - 23 / 8 * u) * (q * p)) by ring.
    apply Rmult_le_compat_r; [now rewrite <- Eq|]. nra.
Qed.

Lemma close_rd : forall q x, bpow radix2 (-1021) <= x -> close (6 * u) q x -> close (8 * u) (rd q) x.
Proof.
  intros q x Hx [Q1 Q2]. pose proof u_small as U. pose proof (bpow_gt_0 radix2 (-1021)).
  assert (E : bpow radix2 (-1021) = 2 * bpow radix2 (-1022)).
  { change (-1021)%Z with (1 + -1022)%Z. rewrite bpow_plus. reflexivity. }
  assert (R : Rabs (rd q - q) <= u * q) by (apply rd_err; nra).
  apply abs_bounds in R. split; nra.
Qed.

Lemma bpow10_308 : bpow radix2 1023 < bpow radix10 308.
Proof.
  rewrite bpow10_Z by lia. rewrite <- (IZR_Zpower radix2 1023) by lia. apply IZR_lt. vm_compute. reflexivity.
Qed.
Lemma bpow10_n308 : bpow radix10 (-308) < bpow radix2 (-1021).
Proof.
  change (-308)%Z with (- (308))%Z. change (-1021)%Z with (- (1021))%Z. rewrite !bpow_opp.
  apply Rinv_lt_contravar; [apply Rmult_lt_0_compat; apply bpow_gt_0|].
  apply Rlt_trans with (bpow radix2 1023); [apply bpow_lt; lia|apply bpow10_308].
Qed.

(** When the exponent is not used up, all digits are on one side. *)
Lemma left_negative : forall l, (left_exponent l < 0)%Z -> moved_before l = [].
Proof.
  intros l H. pose proof (moved_before_length l) as L. unfold left_exponent, point_position in *.
  destruct (moved_before l); [reflexivity|]. cbn [length] in L. lia.
Qed.
Lemma left_positive : forall l, (0 < left_exponent l)%Z -> moved_after l = [].
Proof.
  intros l H. pose proof (moved_after_length l) as L. unfold left_exponent, point_position in *.
  destruct (moved_after l); [reflexivity|]. cbn [length] in L. lia.
Qed.

Lemma moved_decimal : forall l, lexical l -> decimal (moved_before l) /\ decimal (moved_after l).
Proof.
  intros l (A & B & _). assert (F : decimal (all_digits l)) by (apply Forall_app; split; assumption).
  rewrite moved_split in F. apply Forall_app in F. exact F.
Qed.

Lemma sign_pos : forall d x (m : bool) (v : double), v = (if m then dneg d else d) -> pos d x ->
  is_finite v = true /\ Bsign v = m /\ B2R v = (if m then -1 else 1) * x.
Proof.
  intros d x m v -> (F & S & V). destruct m.
  - unfold dneg. rewrite is_finite_Bopp, B2R_Bopp, Bsign_Bopp, V, S by (now apply finite_not_nan).
    repeat split; [assumption|]. ring.
  - repeat split; [assumption|assumption|]. rewrite V. ring.
Qed.

Lemma value_close : forall l, lexical l -> ~ point_after_zeros l ->
  (length (significant (moved_before l)) <= 18)%nat -> (length (moved_after l) <= 18)%nat ->
  bpow radix2 (-1021) <= magnitude l <= bpow radix2 1023 ->
  exists d, literal_double l = Some d /\ is_finite d = true /\ Bsign d = lit_minus l /\
    Rabs (B2R d - literal_value l) <= bpow radix2 (-50) * Rabs (literal_value l).
Proof.
  intros l L NP Ls La [M1 M2]. rewrite literal_double_assembled by assumption.
  destruct (moved_decimal l L) as [Db Da].
  destruct (sum_ok _ _ (significant_decimal _ Db) Da Ls La) as (df & s & E1 & Ps & _ & Es).
  cbv zeta in Es. rewrite significant_intR in Es.
  rewrite literal_value_magnitude. unfold assembled. rewrite E1.
  pose proof (bpow_gt_0 radix2 (-1021)) as B0. pose proof u_small as U. pose proof big_ge as BG.
  unfold magnitude in *. set (x0 := intR (moved_before l) + intR (moved_after l) / bpow radix10 (Z.of_nat (length (moved_after l)))) in *.
  set (e := left_exponent l) in *.
  assert (X0 : 0 <= x0).
  { unfold x0. pose proof (intR_ge (moved_before l)). apply Rplus_le_le_0_compat; [assumption|].
    apply Rmult_le_pos; [apply intR_ge|left; apply Rinv_0_lt_compat, bpow_gt_0]. }
  assert (Cs : close (31 / 10 * u) s x0).
  { apply abs_close. eapply Rle_trans; [exact Es|]. apply Rmult_le_compat_r; [assumption|apply cube_le]. }
  assert (T0 : 0 < tau) by (rewrite tau_u; lra).
  assert (E50 : bpow radix2 (-50) = 8 * u).
  { change (-50)%Z with (3 + -53)%Z. rewrite bpow_plus. reflexivity. }
  set (mag := x0 * bpow radix10 e) in *.
  assert (Fin : forall v q, pos v (rd q) -> close (6 * u) q mag ->
    exists d, Some (if lit_minus l then dneg v else v) = Some d /\ is_finite d = true /\ Bsign d = lit_minus l /\
    Rabs (B2R d - (if lit_minus l then -1 else 1) * mag) <= bpow radix2 (-50) * Rabs ((if lit_minus l then -1 else 1) * mag)).
  { intros v q Pv Cq. exists (if lit_minus l then dneg v else v). split; [reflexivity|].
    destruct (sign_pos _ _ (lit_minus l) _ eq_refl Pv) as (F1 & F2 & F3). split; [assumption|]. split; [assumption|].
    rewrite F3, <- Rmult_minus_distr_l, !Rabs_mult, E50.
    replace (Rabs (if lit_minus l then -1 else 1)) with 1 by (destruct (lit_minus l); unfold Rabs; destruct (Rcase_abs _); lra).
    rewrite !Rmult_1_l. rewrite (Rabs_pos_eq mag) by lra. apply close_abs, close_rd; assumption. }
  destruct (Z.lt_ge_cases e 0) as [He|He].
  - assert (K : (-308 < e)%Z).
    { destruct (Z.lt_ge_cases (-308) e) as [|K]; [assumption|exfalso].
      assert (bpow radix10 e <= bpow radix10 (-308)) by (apply bpow_le; lia). pose proof bpow10_n308.
      assert (x0 <= 1).
      { unfold x0. rewrite (left_negative l He). pose proof (intR_lt _ Da) as IL.
        set (t := bpow radix10 (Z.of_nat (length (moved_after l)))) in *. assert (0 < t) by apply bpow_gt_0.
        change (intR []) with 0. rewrite Rplus_0_l. apply Rmult_le_reg_r with t; [assumption|].
        unfold Rdiv. rewrite Rmult_assoc, Rinv_l by lra. lra. }
      assert (0 < bpow radix10 e) by apply bpow_gt_0. unfold mag in *. nra. }
    destruct (str_Pow10_div (dadd (mantissa (significant (moved_before l))) df) (- e) ltac:(lia)) as (t & y & _ & Pt & E2 & A & _).
    replace (- - e)%Z with e in E2 by lia. rewrite E2.
    assert (Bp : 0 < bpow radix10 (- e)) by apply bpow_gt_0.
    assert (Cy : close tau y (bpow radix10 (- e))) by now apply abs_close.
    assert (Em : mag = x0 / bpow radix10 (- e)).
    { unfold mag. rewrite bpow_opp. field. apply Rgt_not_eq, bpow_gt_0. }
    assert (Cq : close (6 * u) (s / y) mag) by (rewrite Em; now apply close_div).
    apply (Fin (ddiv (dadd (mantissa (significant (moved_before l))) df) t) (s / y)); [|assumption].
    apply ddiv_pos; [assumption|assumption| |].
    + destruct Cy as [C1 _]. rewrite tau_u in C1. nra.
    + destruct Cq as [_ C2]. nra.
  - assert (K : (e < 308)%Z).
    { destruct (Z.lt_ge_cases e 308) as [|K]; [assumption|exfalso].
      assert (bpow radix10 308 <= bpow radix10 e) by (apply bpow_le; lia). pose proof bpow10_308.
      assert (1 <= x0).
      { assert (x0 <> 0) by (intro Z0; unfold mag in *; rewrite Z0 in *; lra).
        unfold x0 in *. rewrite (left_positive l) in * by (fold e; lia).
        change (intR []) with 0 in *. unfold Rdiv in *. rewrite Rmult_0_l, Rplus_0_r in *.
        unfold intR in *. apply IZR_le. assert (Z.of_N (number 10 (moved_before l)) <> 0)%Z; [|lia]. intro Q. rewrite Q in *. lra. }
      assert (0 < bpow radix10 308) by apply bpow_gt_0. unfold mag in *. nra. }
    destruct (str_Pow10_mul (dadd (mantissa (significant (moved_before l))) df) e ltac:(lia)) as (t & y & _ & Pt & E2 & A & _).
    rewrite E2.
    assert (Bp : 0 < bpow radix10 e) by apply bpow_gt_0.
    assert (Cy : close tau y (bpow radix10 e)) by now apply abs_close.
    assert (Cq : close (6 * u) (s * y) mag) by (apply close_mult; [assumption|lra|assumption|assumption]).
    apply (Fin (dmul (dadd (mantissa (significant (moved_before l))) df) t) (s * y)); [|assumption].
    apply dmul_pos; [assumption|assumption|]. destruct Cq as [_ C2]. nra.
Qed.

(** Zero. *)
Lemma value_zero : forall l, lexical l -> number 10 (all_digits l) = 0%N -> ~ point_after_zeros l ->
  (length (moved_after l) <= 18)%nat -> (-308 <= left_exponent l <= 308)%Z ->
  exists d, literal_double l = Some d /\ is_finite d = true /\ Bsign d = lit_minus l /\ B2R d = 0.
Proof.
  intros l L Hz NP La He. destruct (moved_decimal l L) as [Db Da].
  assert (Hs : number 10 (moved_before l) = 0%N /\ number 10 (moved_after l) = 0%N).
  { rewrite moved_split, number_app in Hz.
    assert (P : (10 ^ N.of_nat (length (moved_after l)) <> 0)%N) by (apply N.pow_nonzero; lia). split; nia. }
  destruct Hs as [Zb Za]. pose proof (significant_nil _ Zb) as Sn.
  rewrite literal_double_assembled; [|assumption|assumption|rewrite Sn; cbn; lia|assumption].
  rewrite Sn. destruct (sum_ok [] (moved_after l) ltac:(constructor) Da ltac:(cbn; lia) La) as (df & s & E1 & Ps & _ & Es).
  cbv zeta in Es. assert (I0 : intR (moved_after l) = 0) by (unfold intR; now rewrite Za).
  change (intR []) with 0 in Es. rewrite I0 in Es. unfold Rdiv in Es. rewrite Rmult_0_l, Rplus_0_r, Rminus_0_r, Rmult_0_r in Es.
  assert (S0 : s = 0) by (apply abs_bounds in Es; lra). subst s.
  unfold assembled. rewrite E1.
  assert (Bz : 0 <= big) by (pose proof (bpow_big 0 ltac:(lia)); cbn [bpow] in *; lra).
  destruct (Z.lt_ge_cases (left_exponent l) 0) as [C|C].
  - destruct (str_Pow10_div (dadd (mantissa []) df) (- left_exponent l) ltac:(lia)) as (t & y & _ & Pt & E2 & A & _).
    replace (- - left_exponent l)%Z with (left_exponent l) in E2 by lia. rewrite E2.
    assert (Y : 0 < y).
    { apply abs_close in A. destruct A as [A _]. rewrite tau_u in A. pose proof u_small.
      pose proof (bpow_gt_0 radix10 (- left_exponent l)). nra. }
    assert (Pv : pos (ddiv (dadd (mantissa []) df) t) (rd (0 / y))).
    { apply ddiv_pos; [assumption|assumption|assumption|]. unfold Rdiv. rewrite Rmult_0_l. assumption. }
    unfold Rdiv in Pv. rewrite Rmult_0_l, rd_0 in Pv. destruct (sign_pos _ _ (lit_minus l) _ eq_refl Pv) as (F1 & F2 & F3).
    eexists. split; [reflexivity|]. rewrite F3. repeat split; [assumption|assumption|ring].
  - destruct (str_Pow10_mul (dadd (mantissa []) df) (left_exponent l) ltac:(lia)) as (t & y & _ & Pt & E2 & A & _).
    rewrite E2.
    assert (Pv : pos (dmul (dadd (mantissa []) df) t) (rd (0 * y))).
    { apply dmul_pos; [assumption|assumption|]. rewrite Rmult_0_l. assumption. }
    rewrite Rmult_0_l, rd_0 in Pv. destruct (sign_pos _ _ (lit_minus l) _ eq_refl Pv) as (F1 & F2 & F3).
    eexists. split; [reflexivity|]. rewrite F3. repeat split; [assumption|assumption|ring].
Qed.

(** Few digits on one side of the point: correctly rounded. *)
Lemma value_rounded : forall l, lexical l -> ~ point_after_zeros l ->
  (moved_after l = [] /\ (length (significant (moved_before l)) <= 15)%nat /\ (0 <= left_exponent l <= 22)%Z) \/
  (number 10 (moved_before l) = 0%N /\ (length (moved_after l) <= 18)%nat /\
   (length (significant (moved_after l)) <= 15)%nat /\ left_exponent l = 0%Z) ->
  exists d, literal_double l = Some d /\ is_finite d = true /\ Bsign d = lit_minus l /\
    B2R d = rd (literal_value l).
Proof.
  intros l L NP H. destruct (moved_decimal l L) as [Db Da].
  assert (Few : forall ds, decimal ds -> (length (significant ds) <= 15)%nat -> rd (intR ds) = intR ds /\ intR ds <= IZR (10 ^ 15)).
  { intros ds D Hl. rewrite <- significant_intR. pose proof (intR_lt _ (significant_decimal _ D)) as IL.
    assert (bpow radix10 (Z.of_nat (length (significant ds))) <= IZR (10 ^ 15)).
    { rewrite <- (bpow10_Z 15) by lia. apply bpow_le. lia. }
    split; [|lra]. unfold intR in *. apply rd_int. assert (Z.of_N (number 10 (significant ds)) < 10 ^ 15)%Z; [|lia].
    apply lt_IZR. lra. }
  assert (Ls : (length (significant (moved_before l)) <= 18)%nat).
  { destruct H as [(_ & H & _)|(H & _)]; [lia|]. rewrite (significant_nil _ H). cbn. lia. }
  assert (La : (length (moved_after l) <= 18)%nat).
  { destruct H as [(H & _)|(_ & H & _)]; [rewrite H; cbn; lia|assumption]. }
  rewrite literal_double_assembled by assumption.
  destruct (sum_ok _ _ (significant_decimal _ Db) Da Ls La) as (df & s & E1 & Ps & Es & _).
  rewrite significant_intR in Es. unfold assembled. rewrite E1.
  rewrite literal_value_magnitude.
  assert (Rs : forall m : bool, rd ((if m then -1 else 1) * magnitude l) = (if m then -1 else 1) * rd (magnitude l)).
  { intros [|]; [|now rewrite !Rmult_1_l]. replace (-1 * magnitude l) with (- magnitude l) by ring. rewrite rd_opp. ring. }
  rewrite Rs.
  assert (Fin : forall v, pos v (rd (magnitude l)) -> exists d, Some (if lit_minus l then dneg v else v) = Some d /\
     is_finite d = true /\ Bsign d = lit_minus l /\ B2R d = (if lit_minus l then -1 else 1) * rd (magnitude l)).
  { intros v Pv. eexists. split; [reflexivity|]. now apply (sign_pos v). }
  destruct H as [(Hn & H15 & H22)|(Hz & _ & H15 & H0)].
  - rewrite Hn in *. cbn [length] in Es. change (intR []) with 0 in Es. rewrite rd_0 in Es. unfold Rdiv in Es.
    rewrite Rmult_0_l, rd_0, Rplus_0_r, rd_rd in Es. destruct (Few _ Db H15) as [Ei Bi]. rewrite Ei in Es. subst s.
    assert (Em : magnitude l = intR (moved_before l) * bpow radix10 (left_exponent l)).
    { unfold magnitude. rewrite Hn. change (intR []) with 0. unfold Rdiv. ring. }
    destruct (str_Pow10_mul (dadd (mantissa (significant (moved_before l))) df) (left_exponent l) ltac:(lia)) as (t & y & _ & Pt & E2 & _ & X).
    rewrite E2. apply Fin. rewrite Em. specialize (X ltac:(lia)). subst y. apply dmul_pos; [assumption|assumption|].
    assert (Big : IZR (10 ^ 15 * 10 ^ 22) <= big).
    { apply Rle_trans with (IZR (2 ^ 130)); [apply IZR_le; lia|].
      change (IZR (2 ^ 130)) with (bpow radix2 130). apply bpow_big. lia. }
    eapply Rle_trans; [|exact Big]. rewrite mult_IZR, <- (bpow10_Z 22) by lia.
    pose proof (intR_ge (moved_before l)). pose proof (bpow_gt_0 radix10 (left_exponent l)).
    apply Rmult_le_compat; [assumption|lra|assumption|apply bpow_le; lia].
  - assert (I0 : intR (moved_before l) = 0) by (unfold intR; now rewrite Hz).
    destruct (Few _ Da H15) as [Ei _]. rewrite I0, rd_0, Rplus_0_l, rd_rd, Ei in Es.
    assert (Em : magnitude l = intR (moved_after l) / bpow radix10 (Z.of_nat (length (moved_after l)))).
    { unfold magnitude. rewrite I0, H0. cbn [bpow]. ring. }
    rewrite <- Em in Es. subst s.
    destruct (str_Pow10_mul (dadd (mantissa (significant (moved_before l))) df) 0 ltac:(lia)) as (t & y & _ & Pt & E2 & _ & X).
    rewrite H0, E2. apply Fin. specialize (X ltac:(lia)). cbn [bpow] in X. subst y.
    replace (rd (magnitude l)) with (rd (rd (magnitude l) * 1)) by (rewrite Rmult_1_r; apply rd_rd).
    apply dmul_pos; [assumption|assumption|]. rewrite Rmult_1_r.
    assert (M1 : magnitude l <= 1).
    { rewrite Em. pose proof (intR_lt _ Da) as IL.
      set (t10 := bpow radix10 (Z.of_nat (length (moved_after l)))) in *. assert (0 < t10) by apply bpow_gt_0.
      apply Rmult_le_reg_r with t10; [assumption|]. unfold Rdiv. rewrite Rmult_assoc, Rinv_l by lra. lra. }
    apply Rle_trans with (rd 1); [now apply rd_le|].
    replace (rd 1) with (bpow radix2 0) by (symmetry; exact (rd_bpow 0 ltac:(lia))). apply bpow_big. lia.
Qed.
