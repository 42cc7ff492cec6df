(** The numerical side of scan_double: how far the computed double is from the number. *)
From Coq Require Import Reals ZArith NArith List Bool Lia Lra Psatz ZifyBool ZifyNat ZifyN.
From Flocq Require Import Core Relative IEEE754.BinarySingleNaN.
From Verif Require Import Base DigitsSpec DigitsProofs Fp FpProofs DblModel DblSpec DblScan DblLex.
Import ListNotations.
Local Open Scope R_scope.

(** * The powers of ten *)

Definition pow10 (k : N) : option double := pow10_loop (uint_bits k) PowersOfTen (of_int 1).
Definition tau : R := IZR 368 / IZR (2 ^ 60).

Definition check_pow10 (k : N) : bool :=
  match pow10 k with
  | Some (B754_finite false m e _) =>
    let p := (10 ^ Z.of_N k)%Z in
    if (0 <=? e)%Z
    then (Z.abs (Z.pos m * 2 ^ e - p) * 2 ^ 60 <=? 368 * p)%Z &&
         ((22 <? k)%N || (Z.pos m * 2 ^ e =? p)%Z)
    else (Z.abs (Z.pos m - p * 2 ^ (- e)) * 2 ^ 60 <=? 368 * (p * 2 ^ (- e)))%Z &&
         ((22 <? k)%N || (Z.pos m =? p * 2 ^ (- e))%Z)
  | _ => false
  end.

Lemma check_all : forallb (fun k => check_pow10 (N.of_nat k)) (seq 0 309) = true.
Proof. vm_compute. reflexivity. Qed.

Lemma bpow10_Z : forall k, (0 <= k)%Z -> bpow radix10 k = IZR (10 ^ k).
Proof. intros k H. symmetry. exact (IZR_Zpower radix10 k H). Qed.

Lemma pow10_ok : forall k, (k <= 308)%N -> exists t y, pow10 k = Some t /\ pos t y /\
  Rabs (y - bpow radix10 (Z.of_N k)) <= tau * bpow radix10 (Z.of_N k) /\
  ((k <= 22)%N -> y = bpow radix10 (Z.of_N k)).
Proof.
  intros k H. pose proof check_all as C. rewrite forallb_forall in C. specialize (C (N.to_nat k)).
  rewrite N2Nat.id in C. specialize (C ltac:(apply in_seq; lia)). unfold check_pow10 in C.
  rewrite (bpow10_Z (Z.of_N k)) by lia. set (p := (10 ^ Z.of_N k)%Z) in *.
  assert (Hp : (0 < p)%Z) by (apply Z.pow_pos_nonneg; lia).
  destruct (pow10 k) as [[| | |[] m e B]|]; try discriminate.
  exists (B754_finite false m e B), (B2R (B754_finite false m e B : double)).
  split; [reflexivity|]. split; [repeat split|].
  cbn [B2R SpecFloat.cond_Zopp]. unfold F2R. cbn [Fnum Fexp].
  apply (IZR_lt 0) in Hp.
  destruct (Z.leb_spec 0 e) as [He|He]; apply andb_true_iff in C; destruct C as [C1 C2].
  - rewrite <- (IZR_Zpower radix2 e) by assumption. change (radix2 ^ e)%Z with (2 ^ e)%Z. rewrite <- mult_IZR.
    split.
    + apply Z.leb_le in C1. apply IZR_le in C1. rewrite !mult_IZR, abs_IZR, minus_IZR in C1.
      unfold tau. apply Rmult_le_reg_r with (IZR (2 ^ 60)); [lra|].
      replace (IZR 368 / IZR (2 ^ 60) * IZR p * IZR (2 ^ 60)) with (IZR 368 * IZR p) by (field; lra).
      exact C1.
    + intros K. f_equal. lia.
  - set (q := (2 ^ - e)%Z) in *.
    assert (Hq : (0 < q)%Z) by (apply Z.pow_pos_nonneg; lia).
    assert (E : bpow radix2 e = / IZR q).
    { replace e with (- (- e))%Z by lia. rewrite bpow_opp. f_equal. rewrite <- (IZR_Zpower radix2 (- e)) by lia. reflexivity. }
    rewrite E. apply (IZR_lt 0) in Hq. split.
    + apply Z.leb_le in C1. apply IZR_le in C1. rewrite !mult_IZR, abs_IZR, minus_IZR, !mult_IZR in C1.
      unfold tau. apply Rmult_le_reg_r with (IZR (2 ^ 60) * IZR q); [apply Rmult_lt_0_compat; lra|].
      replace (IZR 368 / IZR (2 ^ 60) * IZR p * (IZR (2 ^ 60) * IZR q)) with (IZR 368 * (IZR p * IZR q)) by (field; lra).
      replace (Rabs (IZR (Z.pos m) * / IZR q - IZR p) * (IZR (2 ^ 60) * IZR q)) with
        (Rabs (IZR (Z.pos m) - IZR p * IZR q) * IZR (2 ^ 60)); [exact C1|].
      rewrite <- (Rabs_pos_eq (IZR q)) at 3 by lra.
      rewrite (Rmult_comm (IZR (2 ^ 60))), <- Rmult_assoc, <- Rabs_mult. f_equal. f_equal. field. lra.
    + intros K. assert (E2 : Z.pos m = (p * q)%Z) by lia. rewrite E2, mult_IZR. field. lra.
Qed.

(** * Digits to double *)

Definition intR (ds : list N) : R := IZR (Z.of_N (number 10 ds)).
Lemma intR_ge : forall ds, 0 <= intR ds.
Proof. intros. apply IZR_le. lia. Qed.
Lemma intR_lt : forall ds, decimal ds -> intR ds < bpow radix10 (Z.of_nat (length ds)).
Proof.
  intros ds D. rewrite bpow10_Z by lia. apply IZR_lt.
  pose proof (number_lt 10 ds ltac:(lia) D) as L.
  replace (10 ^ Z.of_nat (length ds))%Z with (Z.of_N (10 ^ N.of_nat (length ds))); [lia|].
  rewrite N2Z.inj_pow, nat_N_Z. reflexivity.
Qed.
Lemma number_app : forall a b, number 10 (a ++ b) = (number 10 a * 10 ^ N.of_nat (length b) + number 10 b)%N.
Proof. intros. unfold number at 1. rewrite fold_left_app. apply number_acc. Qed.

Lemma pow2_1023 : forall z, (z <= 2 ^ 100)%Z -> IZR z <= big.
Proof.
  intros z H. apply Rle_trans with (IZR (2 ^ 100)); [now apply IZR_le|].
  change (IZR (2 ^ 100)) with (bpow radix2 100). apply bpow_big. lia.
Qed.

Lemma mantissa_pos : forall ds, decimal ds -> (length ds <= 18)%nat -> pos (mantissa ds) (rd (intR ds)).
Proof.
  intros ds D L. unfold mantissa.
  set (h := firstn (length ds - 9) ds). set (w := skipn (length ds - 9) ds).
  assert (E : ds = h ++ w) by (symmetry; apply firstn_skipn).
  assert (Dh : decimal h). { unfold decimal in *. rewrite E, Forall_app in D. apply D. }
  assert (Dw : decimal w). { unfold decimal in *. rewrite E, Forall_app in D. apply D. }
  assert (Lh : (length h <= 9)%nat) by (unfold h; rewrite firstn_length; lia).
  assert (Lw : (length w <= 9)%nat) by (unfold w; rewrite skipn_length; lia).
  pose proof (number_lt 10 h ltac:(lia) Dh) as Nh. pose proof (number_lt 10 w ltac:(lia) Dw) as Nw.
  assert (P9 : forall k, (k <= 9)%nat -> (10 ^ N.of_nat k <= 1000000000)%N).
  { intros k K. change 1000000000%N with (10 ^ 9)%N. apply N.pow_le_mono_r; lia. }
  pose proof (P9 _ Lh). pose proof (P9 _ Lw).
  set (zh := Z.of_N (number 10 h)). set (zw := Z.of_N (number 10 w)).
  assert (Bh : (0 <= zh < 1000000000)%Z) by lia. assert (Bw : (0 <= zw < 1000000000)%Z) by lia.
  pose proof (of_int_exact 1000000000 ltac:(lia)) as Pg.
  pose proof (of_int_exact zh ltac:(lia)) as Ph. pose proof (of_int_exact zw ltac:(lia)) as Pw.
  assert (Pm : pos (dmul (of_int 1000000000) (of_int zh)) (IZR (1000000000 * zh))).
  { rewrite mult_IZR. replace (IZR 1000000000 * IZR zh) with (rd (IZR 1000000000 * IZR zh)).
    - apply dmul_pos; [assumption|assumption|]. rewrite <- mult_IZR. apply pow2_1023. lia.
    - replace (IZR 1000000000 * IZR zh) with (IZR (1953125 * zh) * bpow radix2 9).
      + apply rd_exact; lia.
      + rewrite mult_IZR. change (bpow radix2 9) with 512. lra. }
  replace (intR ds) with (IZR (1000000000 * zh) + IZR zw).
  - apply dadd_pos; [assumption|assumption|]. rewrite <- plus_IZR. apply pow2_1023. lia.
  - unfold intR. rewrite <- plus_IZR. f_equal. rewrite E, number_app, N2Z.inj_add, N2Z.inj_mul, N2Z.inj_pow.
    unfold zh, zw. destruct (Nat.le_gt_cases (length ds) 9) as [C|C].
    + assert (Eh : h = []) by (unfold h; replace (length ds - 9)%nat with 0%nat by lia; reflexivity).
      rewrite Eh. reflexivity.
    + assert (Ew : length w = 9%nat) by (unfold w; rewrite skipn_length; lia). rewrite Ew.
      change (Z.of_N 10 ^ Z.of_N (N.of_nat 9))%Z with 1000000000%Z. lia.
Qed.

(** * str_Pow10 *)

Lemma str_Pow10_mul : forall d k, (0 <= k <= 308)%Z -> exists t y, pow10 (Z.to_N k) = Some t /\ pos t y /\
  str_Pow10 d k = Some (dmul d t) /\
  Rabs (y - bpow radix10 k) <= tau * bpow radix10 k /\ ((k <= 22)%Z -> y = bpow radix10 k).
Proof.
  intros d k H. destruct (pow10_ok (Z.to_N k) ltac:(lia)) as (t & y & E & P & A & X).
  rewrite Z2N.id in * by lia. exists t, y. split; [assumption|]. split; [assumption|]. split.
  - unfold str_Pow10, assert_. destruct (Z.ltb_spec k 511); [|lia]. rewrite Z.abs_eq by lia.
    unfold pow10 in E. rewrite E. destruct (Z.ltb_spec k 0); [lia|reflexivity].
  - split; [assumption|]. intros. apply X. lia.
Qed.
Lemma str_Pow10_div : forall d k, (0 < k <= 308)%Z -> exists t y, pow10 (Z.to_N k) = Some t /\ pos t y /\
  str_Pow10 d (- k) = Some (ddiv d t) /\
  Rabs (y - bpow radix10 k) <= tau * bpow radix10 k /\ ((k <= 22)%Z -> y = bpow radix10 k).
Proof.
  intros d k H. destruct (pow10_ok (Z.to_N k) ltac:(lia)) as (t & y & E & P & A & X).
  rewrite Z2N.id in * by lia. exists t, y. split; [assumption|]. split; [assumption|]. split.
  - unfold str_Pow10, assert_. destruct (Z.ltb_spec (- k) 511); [|lia].
    replace (Z.to_N (Z.abs (- k))) with (Z.to_N k) by lia.
    unfold pow10 in E. rewrite E. destruct (Z.ltb_spec (- k) 0); [reflexivity|lia].
  - split; [assumption|]. intros. apply X. lia.
Qed.

(** The digits after the point. *)
Lemma bpow10_pos : forall k, 0 < bpow radix10 k.
Proof. intros. apply bpow_gt_0. Qed.

Lemma bpow10_18 : forall k, (0 <= k <= 18)%Z -> 1 <= bpow radix10 k <= IZR (10 ^ 18).
Proof.
  intros k H. rewrite <- (bpow10_Z 18) by lia. change 1 with (bpow radix10 0). split; apply bpow_le; lia.
Qed.

Lemma small_bpow : bpow radix2 (-1022) <= / IZR (10 ^ 19).
Proof.
  apply Rle_trans with (bpow radix2 (-64)); [apply bpow_le; lia|].
  change (bpow radix2 (-64)) with (/ IZR (2 ^ 64)). apply Rinv_le; [|apply IZR_le; lia]. apply IZR_lt. lia.
Qed.
Lemma big_bpow : IZR (10 ^ 30) <= big.
Proof. apply pow2_1023. lia. Qed.

Lemma rd_int_err : forall z, (0 <= z)%Z -> Rabs (rd (IZR z) - IZR z) <= u * IZR z.
Proof.
  intros z H. destruct (Z.eq_dec z 0) as [->|Hz].
  - rewrite rd_0, Rminus_0_r, Rabs_R0. lra.
  - apply rd_err. apply Rle_trans with 1; [|apply IZR_le; lia].
    change 1 with (bpow radix2 0). apply bpow_le. lia.
Qed.

Lemma abs_bounds : forall x y, Rabs x <= y -> - y <= x <= y.
Proof. intros x y H. apply Rabs_le_inv in H. lra. Qed.

Lemma fraction_ok : forall ds, decimal ds -> (length ds <= 18)%nat ->
  exists d c, str_Pow10 (mantissa ds) (- Z.of_nat (length ds)) = Some d /\ pos d c /\
    c = rd (rd (intR ds) / bpow radix10 (Z.of_nat (length ds))) /\
    Rabs (c - intR ds / bpow radix10 (Z.of_nat (length ds))) <=
      ((1 + u) * (1 + u) - 1) * (intR ds / bpow radix10 (Z.of_nat (length ds))).
Proof.
  intros ds D L. pose proof (mantissa_pos ds D L) as Pm. pose proof (intR_ge ds) as I0.
  pose proof (rd_int_err (Z.of_N (number 10 ds)) ltac:(lia)) as Eb. fold (intR ds) in Eb.
  pose proof u_pos as U0. set (k := Z.of_nat (length ds)) in *. set (t10 := bpow radix10 k) in *.
  pose proof (bpow10_18 k ltac:(lia)) as Ht. fold t10 in Ht.
  assert (U1 : u <= 1) by (unfold u; change 1 with (bpow radix2 0); apply bpow_le; lia).
  set (b := rd (intR ds)) in *. apply abs_bounds in Eb.
  assert (B0 : 0 <= b) by (apply (pos_ge _ _ Pm)).
  assert (D1 : exists d, str_Pow10 (mantissa ds) (- k) = Some d /\ pos d (rd (b / t10))).
  { assert (Bnd : b / t10 <= big).
    { apply Rle_trans with b.
      - apply Rmult_le_reg_r with t10; [lra|]. replace (b / t10 * t10) with b by (field; lra). nra.
      - apply Rle_trans with (2 * IZR (10 ^ 18)).
        + pose proof (intR_lt ds D) as IL. fold k t10 in IL. nra.
        + rewrite <- mult_IZR. apply pow2_1023. lia. }
    destruct (Z.eq_dec k 0) as [K0|K0].
    - destruct (str_Pow10_mul (mantissa ds) 0 ltac:(lia)) as (t & y & _ & Pt & E & _ & X).
      rewrite K0. change (- 0)%Z with 0%Z. exists (dmul (mantissa ds) t). split; [assumption|].
      specialize (X ltac:(lia)). cbn [bpow] in X. subst y.
      replace (b / t10) with (b * 1) by (unfold t10; rewrite K0; cbn [bpow]; field).
      apply dmul_pos; [assumption|assumption|].
      replace (b * 1) with (b / t10); [assumption|]. unfold t10; rewrite K0; cbn [bpow]; field.
    - destruct (str_Pow10_div (mantissa ds) k ltac:(lia)) as (t & y & _ & Pt & E & _ & X).
      exists (ddiv (mantissa ds) t). split; [assumption|]. specialize (X ltac:(lia)). fold t10 in X. subst y.
      apply ddiv_pos; [assumption|assumption|lra|assumption]. }
  destruct D1 as (d & E & Pd). exists d, (rd (b / t10)). split; [assumption|]. split; [assumption|].
  split; [reflexivity|].
  set (x := intR ds / t10) in *.
  assert (X0 : 0 <= x) by (apply Rmult_le_pos; [assumption|left; apply Rinv_0_lt_compat; lra]).
  assert (Hb : - (u * x) <= b / t10 - x <= u * x).
  { unfold x. replace (b / t10 - intR ds / t10) with ((b - intR ds) / t10) by (field; lra).
    replace (u * (intR ds / t10)) with (u * intR ds / t10) by (field; lra).
    split.
    - apply Rmult_le_reg_r with t10; [lra|].
      replace (- (u * intR ds / t10) * t10) with (- (u * intR ds)) by (field; lra).
      replace ((b - intR ds) / t10 * t10) with (b - intR ds) by (field; lra). lra.
    - apply Rmult_le_reg_r with t10; [lra|].
      replace (u * intR ds / t10 * t10) with (u * intR ds) by (field; lra).
      replace ((b - intR ds) / t10 * t10) with (b - intR ds) by (field; lra). lra. }
  destruct (Req_dec (intR ds) 0) as [Z0|Z0].
  - assert (Hx : x = 0) by (unfold x; rewrite Z0; field; lra).
    rewrite Hx in *. replace (b / t10) with 0 by lra. rewrite rd_0. rewrite Rminus_0_r, Rabs_R0. lra.
  - assert (I1 : 1 <= intR ds).
    { unfold intR in *. apply IZR_le. assert (Z.of_N (number 10 ds) <> 0)%Z by (intro Q; apply Z0; now rewrite Q). lia. }
    assert (X1 : / IZR (10 ^ 18) <= x).
    { unfold x. apply Rmult_le_reg_r with t10; [lra|]. replace (intR ds / t10 * t10) with (intR ds) by (field; lra).
      apply Rle_trans with 1; [|assumption]. apply Rmult_le_reg_l with (IZR (10 ^ 18)); [lra|].
      rewrite <- Rmult_assoc, Rinv_r by lra. lra. }
    assert (Ec : Rabs (rd (b / t10) - b / t10) <= u * (b / t10)).
    { apply rd_err. eapply Rle_trans; [apply small_bpow|].
      assert (u <= / 2) by (unfold u; change (/ 2) with (bpow radix2 (-1)); apply bpow_le; lia).
      apply Rle_trans with (/ 2 * x); [|nra].
      apply Rle_trans with (/ 2 * / IZR (10 ^ 18)); [|lra]. lra. }
    apply abs_bounds in Ec. apply Rabs_le. nra.
Qed.

(** Without an exponent left: the number before the last step. *)
Lemma sum_ok : forall is fs, decimal is -> decimal fs -> (length is <= 18)%nat -> (length fs <= 18)%nat ->
  exists d s, str_Pow10 (mantissa fs) (- Z.of_nat (length fs)) = Some d /\
    pos (dadd (mantissa is) d) s /\
    s = rd (rd (intR is) + rd (rd (intR fs) / bpow radix10 (Z.of_nat (length fs)))) /\
    let x := intR is + intR fs / bpow radix10 (Z.of_nat (length fs)) in
    Rabs (s - x) <= ((1 + u) * (1 + u) * (1 + u) - 1) * x.
Proof.
  intros is fs Di Df Li Lf. destruct (fraction_ok fs Df Lf) as (d & c & E & Pd & Ce & Ec).
  pose proof (mantissa_pos is Di Li) as Pi. pose proof (intR_ge is) as I0. pose proof (intR_ge fs) as F0.
  pose proof (rd_int_err (Z.of_N (number 10 is)) ltac:(lia)) as Ea. fold (intR is) in Ea.
  pose proof (bpow10_18 (Z.of_nat (length fs)) ltac:(lia)) as Ht.
  set (t10 := bpow radix10 (Z.of_nat (length fs))) in *.
  set (a := rd (intR is)) in *. pose proof u_pos as U0.
  assert (U1 : u <= / 4) by (unfold u; change (/ 4) with (bpow radix2 (-2)); apply bpow_le; lia).
  apply abs_bounds in Ea. apply abs_bounds in Ec.
  pose proof (pos_ge _ _ Pi) as A0. pose proof (pos_ge _ _ Pd) as C0.
  set (f := intR fs / t10) in *.
  assert (Fpos : 0 <= f) by (apply Rmult_le_pos; [assumption|left; apply Rinv_0_lt_compat; lra]).
  assert (F1 : f <= 1).
  { unfold f. pose proof (intR_lt fs Df) as IL. fold t10 in IL.
    apply Rmult_le_reg_r with t10; [lra|]. replace (intR fs / t10 * t10) with (intR fs) by (field; lra). lra. }
  assert (I18 : intR is <= IZR (10 ^ 18)).
  { pose proof (intR_lt is Di). pose proof (bpow10_18 (Z.of_nat (length is)) ltac:(lia)). lra. }
  assert (Pos : pos (dadd (mantissa is) d) (rd (a + c))).
  { apply dadd_pos; [assumption|assumption|]. eapply Rle_trans; [|apply big_bpow]. nra. }
  exists d, (rd (a + c)). split; [assumption|]. split; [assumption|]. split; [now rewrite Ce|].
  cbv zeta. set (x := intR is + f).
  destruct (Req_dec x 0) as [X0|X0].
  - assert (intR is = 0 /\ f = 0) as [Q1 Q2] by (unfold x in X0; lra).
    rewrite Q1, Q2 in *. replace (a + c) with 0 by lra. rewrite rd_0, X0, Rminus_0_r, Rabs_R0. lra.
  - assert (X1 : / IZR (10 ^ 18) <= x).
    { destruct (Req_dec (intR is) 0) as [Q|Q].
      - assert (1 <= intR fs).
        { unfold intR in *. apply IZR_le. assert (Z.of_N (number 10 fs) <> 0)%Z; [|lia]. intro Z0. apply X0.
          unfold x, f. rewrite Q, Z0. field. lra. }
        assert (/ IZR (10 ^ 18) <= f); [|unfold x; lra].
        unfold f. apply Rmult_le_reg_r with t10; [lra|]. replace (intR fs / t10 * t10) with (intR fs) by (field; lra).
        apply Rle_trans with 1; [|assumption]. apply Rmult_le_reg_l with (IZR (10 ^ 18)); [lra|].
        rewrite <- Rmult_assoc, Rinv_r by lra. lra.
      - assert (1 <= intR is).
        { unfold intR in *. apply IZR_le. assert (Z.of_N (number 10 is) <> 0)%Z; [|lia]. intro Z0. apply Q. now rewrite Z0. }
        unfold x. lra. }
    assert (Hs : (1 - 3 * u) * x <= a + c <= (1 + u) * (1 + u) * x) by (unfold x; split; nra).
    assert (Es : Rabs (rd (a + c) - (a + c)) <= u * (a + c)).
    { apply rd_err. eapply Rle_trans; [apply small_bpow|]. apply Rle_trans with (/ 4 * x); [|nra].
      apply Rle_trans with (/ 4 * / IZR (10 ^ 18)); [|lra]. lra. }
    apply abs_bounds in Es.
    assert (Ls : - ((1 + u) * (1 + u) - 1) * x <= a + c - x) by (unfold x; nra).
    apply Rabs_le. split; nra.
Qed.
