(** The digits before the point: integer_loop prints the integer part of every double below 2^56 and
    leaves the fraction. *)
From Coq Require Import Reals ZArith NArith List Bool Lia Lra Psatz ZifyBool ZifyNat ZifyN.
From Flocq Require Import Core IEEE754.BinarySingleNaN.
From Verif Require Import Base DigitsSpec DigitsProofs ConvModel ConvSpec ConvPrint Fp FpProofs DblModel DblSpec DblError PdModel PdSpec PdText PdMag.
Import ListNotations.
Local Open Scope R_scope.

Lemma trunc_pos : forall d x, pos d x -> Btrunc d = Zfloor x.
Proof.
  intros d x P. pose proof (pos_ge _ _ P) as G. destruct P as (_ & _ & <-).
  apply eq_IZR. rewrite Btrunc_correct by reflexivity. rewrite round_FIX_IZR. f_equal. now apply Ztrunc_floor.
Qed.
Lemma floor_ge0 : forall x, 0 <= x -> (0 <= Zfloor x)%Z.
Proof. intros x H. apply Zfloor_lub. exact H. Qed.
Lemma floor_bounds : forall x, IZR (Zfloor x) <= x < IZR (Zfloor x) + 1.
Proof. intros x. split; [apply Zfloor_lb|apply Zfloor_ub]. Qed.
Lemma floor_lt : forall x z, x < IZR z -> (Zfloor x < z)%Z.
Proof. intros x z H. apply lt_IZR. eapply Rle_lt_trans; [apply Zfloor_lb|exact H]. Qed.
Lemma to_u64_pos : forall d x, pos d x -> x < IZR (2 ^ 64) -> to_u64 d = Some (Z.to_N (Zfloor x)).
Proof.
  intros d x P L. unfold to_u64, assert_. rewrite (trunc_pos d x P). pose proof (pos_ge _ _ P) as G.
  pose proof (floor_ge0 x G) as F0. pose proof (floor_lt x _ L) as F1. destruct P as (F & _ & _). rewrite F.
  destruct (Z.leb_spec 0 (Zfloor x)); [|lia]. destruct (Z.ltb_spec (Zfloor x) (2 ^ 64)); [|lia]. reflexivity.
Qed.

Lemma dsub_pos : forall a b x y, pos a x -> pos b y -> y <= x -> rd (x - y) = x - y -> pos (dsub a b) (x - y).
Proof.
  intros a b x y Pa Pb L E. pose proof (pos_ge _ _ Pa). pose proof (pos_ge _ _ Pb). pose proof (pos_big _ _ Pa).
  destruct Pa as (Fa & Sa & Va), Pb as (Fb & Sb & Vb).
  pose proof (Bminus_correct 53 1024 prec53 emax1024 mode_NE a b Fa Fb) as C. rewrite Va, Vb in C.
  change (round radix2 (SpecFloat.fexp 53 1024) (round_mode mode_NE) (x - y)) with (rd (x - y)) in C.
  rewrite rd_small in C by lra. destruct C as (C1 & C2 & C3). split; [assumption|]. split; [|unfold dsub; rewrite C1; exact E].
  unfold dsub. rewrite C3, Sa, Sb. destruct (Rcompare_spec (x - y) 0); [lra|reflexivity|reflexivity].
Qed.

Lemma bpow_Z : forall e, (0 <= e)%Z -> bpow radix2 e = IZR (2 ^ e).
Proof. intros e H. symmetry. exact (IZR_Zpower radix2 e H). Qed.

(** Differences of multiples of 2^e are exact. *)
Lemma rd_sub : forall m k e, (0 <= m < 2 ^ 53)%Z -> (-1074 <= e)%Z -> (0 <= k <= m)%Z ->
  rd (IZR m * bpow radix2 e - IZR k * bpow radix2 e) = IZR m * bpow radix2 e - IZR k * bpow radix2 e.
Proof.
  intros m k e Hm He Hk. rewrite <- Rmult_minus_distr_r, <- minus_IZR. apply rd_exact; lia.
Qed.
Lemma multiple_le : forall m k e, IZR k * bpow radix2 e <= IZR m * bpow radix2 e -> (k <= m)%Z.
Proof. intros m k e H. apply Rmult_le_reg_r in H; [now apply le_IZR|apply bpow_gt_0]. Qed.

(** An integer as a multiple of 2^e. *)
Lemma int_multiple : forall z e, (e <= 0)%Z -> IZR z = IZR (z * 2 ^ (- e)) * bpow radix2 e.
Proof.
  intros z e H. rewrite mult_IZR, <- (bpow_Z (- e)) by lia. rewrite Rmult_assoc, <- bpow_plus.
  replace (- e + e)%Z with 0%Z by lia. cbn [bpow]. ring.
Qed.

(** x - floor x is exact: if 2^e is a fraction, by subtraction; if not, x is an integer. *)
Lemma fraction_exact : forall d x z c, pos d x -> (0 <= z)%Z -> IZR z <= x -> x < IZR z + 1 -> pos c (IZR z) -> pos (dsub d c) (x - IZR z).
Proof.
  intros d x z c P Hz L U Pc. apply dsub_pos; [assumption|assumption|assumption|].
  destruct (pos_repr d x P) as (m & e & Hm & He & E & _).
  destruct (Z.le_gt_cases e 0) as [A|A].
  - rewrite E, (int_multiple z e A). rewrite (int_multiple z e A), E in L. apply multiple_le in L.
    apply rd_sub; [assumption|assumption|]. split; [|assumption]. apply Z.mul_nonneg_nonneg; [assumption|]. apply Z.pow_nonneg. lia.
  - rewrite bpow_Z, <- mult_IZR in E by lia. rewrite E in *. rewrite <- (plus_IZR z 1) in U. apply lt_IZR in U. apply le_IZR in L.
    assert (Q : (m * 2 ^ e = z)%Z) by lia. rewrite Q, Rminus_diag_eq by reflexivity. apply rd_0.
Qed.

(** Dividing by 10^k leaves the integer quotient, and the remainder is exact. *)
Lemma split_group : forall d x k, pos d x -> (1 <= k <= 3)%Z -> x < IZR (10 ^ (k + 14)) -> x < IZR (2 ^ 56) -> IZR (10 ^ (k + 13)) <= x ->
  exists part t, str_Pow10 d (- k) = Some part /\ pos part (rd (x / IZR (10 ^ k))) /\
    Zfloor (rd (x / IZR (10 ^ k))) = Zfloor (x / IZR (10 ^ k)) /\
    str_Pow10 (of_int (Zfloor (x / IZR (10 ^ k)))) k = Some t /\
    pos t (IZR (Zfloor (x / IZR (10 ^ k)) * 10 ^ k)) /\
    pos (dsub d t) (x - IZR (Zfloor (x / IZR (10 ^ k)) * 10 ^ k)).
Proof.
  intros d x k P Hk U U2 L. set (D := IZR (10 ^ k)). pose proof (pos_ge _ _ P) as G.
  assert (K14 : exists e, (e <= k)%Z /\ (-1074 <= e)%Z /\ exists m, (0 <= m < 2 ^ 53)%Z /\ x = IZR m * bpow radix2 e).
  { destruct (pos_repr d x P) as (m & e & Hm & He & E & S). exists e. split; [|split; [assumption|now exists m]].
    destruct S as [S| ->]; [|lia].
    destruct (Z.le_gt_cases e k) as [A|A]; [assumption|exfalso].
    assert (X : IZR (2 ^ (52 + (k + 1))) <= x).
    { rewrite E. rewrite <- bpow_Z, bpow_plus by lia. apply Rmult_le_compat; [apply bpow_ge_0|apply bpow_ge_0|rewrite bpow_Z by lia; apply IZR_le; lia|apply bpow_le; lia]. }
    assert (Kc : (k = 1 \/ k = 2 \/ k = 3)%Z) by lia.
    destruct Kc as [->|[->| ->]].
    - apply (Rle_lt_trans _ _ _ X) in U. apply lt_IZR in U. revert U. vm_compute. discriminate.
    - apply (Rle_lt_trans _ _ _ X) in U. apply lt_IZR in U. revert U. vm_compute. discriminate.
    - apply (Rle_lt_trans _ _ _ X) in U2. apply lt_IZR in U2. revert U2. vm_compute. discriminate. }
  destruct K14 as (e & Ek & He & m & Hm & Ex).
  assert (D1 : 10 <= D <= 1000).
  { unfold D. split; [apply (IZR_le 10); change 10%Z with (10 ^ 1)%Z; apply Z.pow_le_mono_r; lia|].
    apply (IZR_le _ 1000). change 1000%Z with (10 ^ 3)%Z. apply Z.pow_le_mono_r; lia. }
  set (n := Zfloor (x / D)).
  assert (X0 : 0 < x). { eapply Rlt_le_trans; [|exact L]. apply IZR_lt. apply Z.pow_pos_nonneg; lia. }
  assert (Xd : 0 < x / D) by (apply Rdiv_lt_0_compat; lra).
  pose proof (floor_bounds (x / D)) as [N1 N2]. fold n in N1, N2. pose proof (floor_ge0 (x / D) ltac:(lra)) as N0. fold n in N0.
  assert (N1' : IZR n * D <= x). { apply Rmult_le_reg_r with (/ D); [apply Rinv_0_lt_compat; lra|]. unfold Rdiv in N1. field_simplify; lra. }
  assert (N2' : x < (IZR n + 1) * D). { apply Rmult_lt_reg_r with (/ D); [apply Rinv_0_lt_compat; lra|]. unfold Rdiv in N2. field_simplify; lra. }
  assert (T5 : (10 ^ k = 5 ^ k * 2 ^ k)%Z) by (rewrite <- Z.pow_mul_l; reflexivity).
  (* n * 10^k and (n + 1) * 10^k are multiples of 2^e *)
  assert (Mul : forall z, IZR z * D = IZR (z * 5 ^ k * 2 ^ (k - e)) * bpow radix2 e).
  { intros z. unfold D. rewrite T5, !mult_IZR, <- (bpow_Z k), <- (bpow_Z (k - e)) by lia.
    rewrite <- !Rmult_assoc. rewrite (Rmult_assoc _ (bpow radix2 (k - e))), <- bpow_plus. do 2 f_equal. lia. }
  assert (P5 : (0 < 5 ^ k)%Z) by (apply Z.pow_pos_nonneg; lia). assert (P2 : (0 < 2 ^ (k - e))%Z) by (apply Z.pow_pos_nonneg; lia).
  (* the quotient does not round up to the next integer *)
  assert (Up : rd (x / D) < IZR n + 1).
  { assert (Er : Rabs (rd (x / D) - x / D) <= u * (x / D)).
    { apply rd_err. apply Rle_trans with 1; [change 1 with (bpow radix2 0); apply bpow_le; lia|].
      apply Rmult_le_reg_r with D; [lra|]. field_simplify; [|lra].
      apply Rle_trans with (IZR (10 ^ (k + 13))); [|assumption]. apply Rle_trans with 1000; [lra|].
      apply (IZR_le 1000). change 1000%Z with (10 ^ 3)%Z. apply Z.pow_le_mono_r; lia. }
    apply Rle_lt_trans with (x / D + u * (x / D)).
    { pose proof (Rle_abs (rd (x / D) - x / D)). lra. }
    apply Rmult_lt_reg_r with D; [lra|]. replace ((x / D + u * (x / D)) * D) with (x + u * x) by (field; lra).
    rewrite <- plus_IZR in *. rewrite Mul, Ex in N2'. rewrite Mul, Ex.
    apply Rmult_lt_reg_r in N2'; [|apply bpow_gt_0]. apply lt_IZR in N2'.
    assert (V : u * (IZR m * bpow radix2 e) < bpow radix2 e).
    { unfold u. pose proof (bpow_gt_0 radix2 e). assert (IZR m * bpow radix2 (-53) < 1); [|nra].
      apply Rmult_lt_reg_r with (bpow radix2 53); [apply bpow_gt_0|]. rewrite Rmult_assoc, <- bpow_plus.
      change (-53 + 53)%Z with 0%Z. change (bpow radix2 0) with 1. rewrite Rmult_1_r, Rmult_1_l, (bpow_Z 53) by lia. apply IZR_lt. lia. }
    apply Rlt_le_trans with (IZR m * bpow radix2 e + bpow radix2 e); [lra|].
    replace (IZR m * bpow radix2 e + bpow radix2 e) with (IZR (m + 1) * bpow radix2 e) by (rewrite plus_IZR; ring).
    apply Rmult_le_compat_r; [apply bpow_ge_0|]. apply IZR_le. lia. }
  assert (Nb : (n <= 2 ^ 53)%Z).
  { apply Z.le_trans with (10 ^ 14)%Z; [|vm_compute; discriminate]. apply Z.lt_le_incl. apply floor_lt.
    apply Rmult_lt_reg_r with D; [lra|]. unfold Rdiv. rewrite Rmult_assoc, Rinv_l, Rmult_1_r by lra.
    unfold D. rewrite <- mult_IZR, <- Z.pow_add_r by lia. replace (14 + k)%Z with (k + 14)%Z by lia. exact U. }
  assert (Lo : IZR n <= rd (x / D)). { rewrite <- (rd_int n) by lia. now apply rd_le. }
  assert (En : Zfloor (rd (x / D)) = n). { apply Zfloor_imp. rewrite plus_IZR. now split. }
  destruct (pow10_ok (Z.to_N k) ltac:(lia)) as (t10 & y & Et & Py & _ & Ey). specialize (Ey ltac:(lia)).
  rewrite bpow10_Z in Ey by lia. rewrite Z2N.id in Ey by lia. subst y. fold D in Py.
  assert (Xbig : x / D <= big).
  { apply Rle_trans with x; [|now apply (pos_big d)]. apply Rmult_le_reg_r with D; [lra|]. field_simplify; [|lra]. nra. }
  assert (Pn : pos (of_int n) (IZR n)) by (apply of_int_exact; lia).
  assert (Pt : pos (dmul (of_int n) t10) (IZR (n * 10 ^ k))).
  { rewrite mult_IZR. fold D. replace (IZR n * D) with (rd (IZR n * D)).
    - apply dmul_pos; [assumption|assumption|]. apply Rle_trans with x; [assumption|now apply (pos_big d)].
    - rewrite Mul. rewrite Mul, Ex in N1'. apply multiple_le in N1'. apply rd_exact; [|assumption]. rewrite Z.abs_eq; [lia|].
      apply Z.mul_nonneg_nonneg; [|lia]. apply Z.mul_nonneg_nonneg; lia. }
  unfold pow10 in Et.
  exists (ddiv d t10), (dmul (of_int n) t10). split.
  { unfold str_Pow10, assert_. destruct (Z.ltb_spec (- k) 511); [|lia]. rewrite Z.abs_opp, Z.abs_eq, Et by lia.
    destruct (Z.ltb_spec (- k) 0); [reflexivity|lia]. }
  split; [apply ddiv_pos; [assumption|assumption|lra|assumption]|]. split; [assumption|]. split.
  { unfold str_Pow10, assert_. destruct (Z.ltb_spec k 511); [|lia]. rewrite Z.abs_eq, Et by lia.
    destruct (Z.ltb_spec k 0); [lia|reflexivity]. }
  split; [assumption|]. apply dsub_pos; [assumption|assumption|rewrite mult_IZR; exact N1'|].
  rewrite mult_IZR. fold D. rewrite Mul, Ex. rewrite Mul, Ex in N1'. apply multiple_le in N1'. apply rd_sub; [assumption|assumption|].
  split; [|assumption]. apply Z.mul_nonneg_nonneg; [|lia]. apply Z.mul_nonneg_nonneg; lia.
Qed.
