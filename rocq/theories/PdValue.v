(** The value of the printed text, and reading a printed float back. *)
From Coq Require Import Reals ZArith NArith List Bool Lia Lra Psatz ZifyBool ZifyNat ZifyN.
From Flocq Require Import Core IEEE754.BinarySingleNaN.
From Verif Require Import Base DigitsSpec DigitsProofs ConvModel ConvSpec Fp FpProofs DblModel DblSpec DblError DblTotal PdModel PdSpec PdText PdMag PdInt PdNum PdFinite.
Import ListNotations.
Local Open Scope R_scope.

Definition sign_R (minus : bool) : R := if minus then -1 else 1.
Lemma ten_nat : forall k, IZR (Z.of_N (10 ^ N.of_nat k)) = bpow radix10 (Z.of_nat k).
Proof. intros k. rewrite bpow10_Z by lia. f_equal. rewrite N2Z.inj_pow. f_equal. lia. Qed.

Lemma printed_value : forall minus ds point fs,
  literal_value (printed minus ds point fs) = sign_R minus * (intR ds + intR fs * bpow radix10 (- Z.of_nat (length fs))).
Proof.
  intros minus ds point fs. unfold literal_value, printed, all_digits, exponent_value. cbn [lit_minus lit_before lit_after lit_exponent].
  rewrite Z.sub_0_l, Rmult_assoc. unfold sign_R. f_equal. rewrite number_app, N2Z.inj_add, N2Z.inj_mul, plus_IZR, mult_IZR, ten_nat. unfold intR.
  rewrite Rmult_plus_distr_r, Rmult_assoc, <- bpow_plus. replace (Z.of_nat (length fs) + - Z.of_nat (length fs))%Z with 0%Z by lia.
  change (bpow radix10 0) with 1. ring.
Qed.

Lemma printed_well_formed : forall minus ds point fs n, canonical 10 (Z.to_N n) ds -> decimal fs -> (point = false -> fs = []) ->
  plain (printed minus ds point fs) n.
Proof.
  intros minus ds point fs n C D Hp. split; [|split; [reflexivity|exact C]]. split; [now apply (canonical_decimal _ _ C)|]. split; [exact D|].
  split; [left; apply C|]. split; [exact Hp|exact I].
Qed.

(** The digits behind the point stand for [d] units. *)
Lemma fraction_value : forall tr kp p d point fs, fraction_digits tr kp p d point fs -> (d < 10 ^ N.of_nat p)%N ->
  (length fs <= Nat.max 1 p)%nat /\ (p = 0%nat -> fs = []) /\
  ((0 < p)%nat -> intR fs * bpow radix10 (- Z.of_nat (length fs)) = IZR (Z.of_N d) * bpow radix10 (- Z.of_nat p)).
Proof.
  intros tr kp p d point fs (D & H0 & H1 & H) L. destruct (Nat.eqb_spec p 0) as [->|Np].
  - rewrite (H0 H). cbn [length]. split; [lia|]. split; [reflexivity|lia].
  - destruct (N.eqb_spec d 0) as [->|Nd].
    + destruct tr.
      * destruct H as [-> ->]. split; [destruct kp; [cbn [length]; lia|rewrite repeat_length; lia]|]. split; [lia|]. intros _.
        assert (Z : forall k, number 10 (repeat 0%N k) = 0%N) by (intros k; rewrite <- (app_nil_r (repeat 0%N k)), number_zeros; reflexivity).
        destruct kp; unfold intR; [|rewrite Z]; cbn; lra.
      * rewrite (H0 H). cbn [length]. split; [lia|]. split; [reflexivity|]. intros _. unfold intR. cbn. lra.
    + destruct H as [_ H]. destruct (negb tr || kp).
      * destruct H as [[-> ->]|(Lf & E & _)]; [lia|]. split; [lia|]. split; [lia|]. intros _.
        rewrite <- E, N2Z.inj_mul, mult_IZR, ten_nat. unfold intR. rewrite Rmult_assoc, <- bpow_plus. do 2 f_equal. lia.
      * destruct H as [E Lf]. rewrite (Lf L). split; [lia|]. split; [lia|]. intros _. unfold intR. now rewrite E.
Qed.

Lemma canonical_intR : forall n ds, (0 <= n)%Z -> canonical 10 (Z.to_N n) ds -> intR ds = IZR n.
Proof. intros n ds H (E & _). unfold intR. rewrite E, Z2N.id by assumption. reflexivity. Qed.

(** The error of the whole. *)
Lemma printed_error : forall minus x p ds tr kp point fs, 0 <= x -> (0 <= p <= 14)%Z -> carry_free x p ->
  canonical 10 (Z.to_N (Zfloor x)) ds ->
  fraction_digits tr kp (Z.to_nat p) (Z.to_N (unit_count (x - IZR (Zfloor x)) p)) point fs ->
  Rabs (literal_value (printed minus ds point fs) - sign_R minus * x) <= bpow radix10 (- p) / 2 + bpow radix2 (-52) /\
  (length fs <= Z.to_nat (Z.max 1 p))%nat /\ ((1 <= p)%Z -> (Z.to_N (unit_count (x - IZR (Zfloor x)) p) < 10 ^ N.of_nat (Z.to_nat p))%N).
Proof.
  intros minus x p ds tr kp point fs G Hp Cf C Fd.
  assert (Sg : forall a b, sign_R minus * a - sign_R minus * b = sign_R minus * (a - b)) by (intros; ring).
  assert (Sa : Rabs (sign_R minus) = 1) by (destruct minus; unfold sign_R; unfold Rabs; destruct (Rcase_abs _); lra).
  rewrite printed_value, Sg, Rabs_mult, Sa, Rmult_1_l. rewrite (canonical_intR (Zfloor x) ds (floor_ge0 x G) C).
  destruct (Z.eq_dec p 0) as [->|Np].
  - change (Z.to_nat 0) with 0%nat in *. destruct Fd as (_ & H0 & _ & Pt). cbn [Nat.eqb] in Pt. rewrite (H0 Pt). cbn [length]. split; [|split; [lia|lia]].
    unfold intR. cbn [number fold_left]. change (number 10 []) with 0%N. cbn [Z.of_N]. rewrite Rmult_0_l, Rplus_0_r.
    pose proof (floor_bounds x) as [B1 B2]. unfold carry_free in Cf. change (bpow radix10 (- 0)) with 1 in *. rewrite plus_IZR in Cf.
    pose proof (bpow_gt_0 radix2 (-51)). pose proof (bpow_gt_0 radix2 (-52)). pose proof (floor_ge0 x G) as F0. apply IZR_le in F0.
    rewrite Rabs_minus_sym, Rabs_pos_eq by lra. nra.
  - destruct (unit_count_near x p G ltac:(lia) Cf) as (Lt & Nr).
    assert (U0 : (0 <= unit_count (x - IZR (Zfloor x)) p)%Z).
    { unfold unit_count. apply floor_ge0. apply rd_pos. pose proof (floor_bounds x) as [B1 B2]. pose proof (ten_range p ltac:(lia)).
      pose proof (rd_pos ((x - IZR (Zfloor x)) * IZR (10 ^ p)) ltac:(nra)). lra. }
    assert (Ld : (Z.to_N (unit_count (x - IZR (Zfloor x)) p) < 10 ^ N.of_nat (Z.to_nat p))%N).
    { replace (10 ^ N.of_nat (Z.to_nat p))%N with (Z.to_N (10 ^ p)); [lia|]. rewrite Z2N.inj_pow by lia. f_equal. lia. }
    destruct (fraction_value _ _ _ _ _ _ Fd Ld) as (L1 & _ & V). rewrite (V ltac:(lia)). rewrite !Z2N.id, Z2Nat.id by lia.
    split; [|split; [lia|intros _; exact Ld]].
    replace (IZR (Zfloor x) + IZR (unit_count (x - IZR (Zfloor x)) p) * bpow radix10 (- p) - x) with
      (IZR (unit_count (x - IZR (Zfloor x)) p) * bpow radix10 (- p) - (x - IZR (Zfloor x))) by ring. exact Nr.
Qed.

(** * Floats *)
Lemma of_float_ok : forall v : float, is_finite v = true -> is_finite (of_float v) = true /\ Bsign (of_float v) = Bsign v /\ B2R (of_float v) = B2R v.
Proof.
  intros v F. destruct v as [s|s| |s m e B]; try discriminate; [repeat split|].
  cbn [of_float]. assert (E := B). unfold SpecFloat.bounded in E. apply andb_prop in E. destruct E as [E1 E2].
  unfold SpecFloat.canonical_mantissa in E1. apply Zeq_bool_eq in E1. apply Z.leb_le in E2.
  unfold SpecFloat.fexp, SpecFloat.emin in E1. pose proof (Digits.Zdigits_correct radix2 (Z.pos m)) as [_ Dg].
  rewrite <- Digits.Zpos_digits2_pos in *.
  assert (Hm : (Z.pos m < 2 ^ 24)%Z).
  { eapply Z.lt_le_trans; [exact Dg|]. change (Zaux.radix_val radix2) with 2%Z. apply Z.pow_le_mono_r; lia. }
  assert (He : (-149 <= e)%Z) by lia.
  set (z := SpecFloat.cond_Zopp s (Z.pos m)).
  assert (Rx : rd (F2R (Float radix2 z e)) = F2R (Float radix2 z e)).
  { unfold F2R. cbn [Fnum Fexp]. apply rd_exact; [|lia]. replace (Z.abs z) with (Z.pos m) by (destruct s; reflexivity).
    apply Z.le_trans with (2 ^ 24)%Z; [lia|vm_compute; discriminate]. }
  pose proof (binary_normalize_correct 53 1024 prec53 emax1024 mode_NE z e s) as N. cbv zeta in N.
  change (round radix2 (SpecFloat.fexp 53 1024) (round_mode mode_NE) (F2R (Float radix2 z e))) with (rd (F2R (Float radix2 z e))) in N.
  rewrite Rx in N. rewrite Rlt_bool_true in N.
  - destruct N as (N1 & N2 & N3). split; [exact N2|]. split; [|exact N1].
    rewrite N3. unfold z. destruct s.
    + rewrite Rcompare_Lt; [reflexivity|]. apply F2R_lt_0. reflexivity.
    + rewrite Rcompare_Gt; [reflexivity|]. apply F2R_gt_0. reflexivity.
  - unfold F2R. cbn [Fnum Fexp]. rewrite Rabs_mult, <- abs_IZR, (Rabs_pos_eq (bpow radix2 e)) by apply bpow_ge_0.
    replace (Z.abs z) with (Z.pos m) by (destruct s; reflexivity).
    apply Rlt_le_trans with (IZR (2 ^ 24) * bpow radix2 e); [apply Rmult_lt_compat_r; [apply bpow_gt_0|now apply IZR_lt]|].
    rewrite <- bpow_Z, <- bpow_plus by lia. apply bpow_le. lia.
Qed.

Definition is_float (x : R) : Prop := generic_format radix2 (FLT_exp (-149) 24) x.
Lemma float_gap : forall x g, is_float x -> is_float g -> 0 < x -> g <> x -> x * bpow radix2 (-25) <= Rabs (g - x).
Proof.
  intros x g Fx Fg X Ne. set (ul := ulp radix2 (FLT_exp (-149) 24)).
  assert (P24 : Prec_gt_0 24) by reflexivity. assert (V : Valid_exp (FLT_exp (-149) 24)) by (apply FLT_exp_valid; reflexivity).
  assert (E : bpow radix2 (-24) = 2 * bpow radix2 (-25)) by (change (-24)%Z with (1 + -25)%Z; rewrite bpow_plus; reflexivity).
  assert (S : bpow radix2 (-25) <= / 4) by (change (/ 4) with (bpow radix2 (-2)); apply bpow_le; lia). pose proof (bpow_gt_0 radix2 (-25)) as B0.
  destruct (Rtotal_order g x) as [A|[A|A]]; [|contradiction|].
  - pose proof (pred_ge_gt radix2 (FLT_exp (-149) 24) g x Fg Fx A) as Pg.
    pose proof (pred_plus_ulp radix2 (FLT_exp (-149) 24) x X Fx) as Pu. set (w := pred radix2 (FLT_exp (-149) 24) x) in *. fold (ul w) in Pu.
    assert (W0 : 0 <= w) by (unfold w; now apply pred_ge_0).
    assert (Uw : Rabs w * bpow radix2 (-24) < ul w \/ w = 0).
    { destruct (Req_dec w 0) as [Q|Q]; [now right|left]. exact (ulp_FLT_gt radix2 (-149) 24 w). }
    rewrite Rabs_minus_sym, Rabs_pos_eq by lra. destruct Uw as [Uw|Uw].
    + rewrite Rabs_pos_eq in Uw by assumption. nra.
    + nra.
  - pose proof (succ_le_lt radix2 (FLT_exp (-149) 24) x g Fx Fg A) as Sg. rewrite succ_eq_pos in Sg by lra. fold (ul x) in Sg.
    assert (Ux : Rabs x * bpow radix2 (-24) < ul x) by exact (ulp_FLT_gt radix2 (-149) 24 x). rewrite (Rabs_pos_eq x) in Ux by lra.
    rewrite Rabs_pos_eq by lra. nra.
Qed.

Lemma float_nearest : forall x d, is_float x -> x <> 0 -> Rabs (d - x) < Rabs x * bpow radix2 (-26) -> rf d = x.
Proof.
  assert (K : forall x d, is_float x -> 0 < x -> Rabs (d - x) < x * bpow radix2 (-26) -> rf d = x).
  { intros x d Fx X H. destruct (Req_dec (rf d) x) as [Q|Q]; [assumption|exfalso].
    assert (Fr : is_float (rf d)) by (apply generic_format_round; [apply FLT_exp_valid; reflexivity|apply valid_rnd_N]).
    pose proof (float_gap x (rf d) Fx Fr X Q) as Gp.
    destruct (round_N_pt radix2 (FLT_exp (-149) 24) (fun z => negb (Z.even z)) d) as [_ N]. specialize (N x Fx).
    fold (rf d) in N. rewrite (Rabs_minus_sym x d) in N.
    assert (T : Rabs (rf d - x) <= Rabs (rf d - d) + Rabs (d - x)) by (replace (rf d - x) with ((rf d - d) + (d - x)) by ring; apply Rabs_triang).
    assert (E : bpow radix2 (-25) = 2 * bpow radix2 (-26)) by (change (-25)%Z with (1 + -26)%Z; rewrite bpow_plus; reflexivity).
    rewrite E in Gp. lra. }
  intros x d Fx X H. destruct (Rle_or_lt x 0) as [A|A].
  - assert (E : rf (- d) = - x).
    { apply K; [now apply generic_format_opp|lra|]. replace (- d - - x) with (- (d - x)) by ring. rewrite Rabs_Ropp.
      rewrite (Rabs_left1 x) in H by lra. exact H. }
    assert (O : rf (- d) = - rf d) by (unfold rf; apply round_NE_opp). lra.
  - apply K; [assumption|assumption|]. rewrite (Rabs_pos_eq x) in H by lra. exact H.
Qed.

(** Floats from 2^-21 on are printed without a carry, or they are integers. *)
Lemma float_carry_free : forall v : float, is_finite v = true -> bpow radix2 (-21) <= Rabs (B2R v) ->
  Rabs (B2R v) = IZR (Zfloor (Rabs (B2R v))) \/ (carry_free (Rabs (B2R v)) 14 /\ Rabs (B2R v) < IZR (2 ^ 23)).
Proof.
  intros v F L. assert (Fm : exists m e, (2 ^ 23 <= m < 2 ^ 24)%Z /\ Rabs (B2R v) = IZR m * bpow radix2 e).
  { destruct v as [s|s| |s m e B]; try discriminate.
    - exfalso. cbn [B2R] in L. rewrite Rabs_R0 in L. pose proof (bpow_gt_0 radix2 (-21)). lra.
    - exists (Z.pos m), e. assert (A : Rabs (B2R (B754_finite s m e B)) = IZR (Z.pos m) * bpow radix2 e).
      { cbn [B2R]. rewrite <- F2R_Zabs. unfold F2R. cbn [Fnum Fexp]. f_equal. f_equal. destruct s; reflexivity. }
      split; [|exact A]. assert (E := B). unfold SpecFloat.bounded in E. apply andb_prop in E. destruct E as [E1 E2].
      unfold SpecFloat.canonical_mantissa in E1. apply Zeq_bool_eq in E1. apply Z.leb_le in E2.
      unfold SpecFloat.fexp, SpecFloat.emin in E1. pose proof (Digits.Zdigits_correct radix2 (Z.pos m)) as [Dl Dg].
      rewrite <- Digits.Zpos_digits2_pos in *. change (Zaux.radix_val radix2) with 2%Z in *.
      set (k := Z.pos (Digits.digits2_pos m)) in *. cbn [Z.abs] in *.
      assert (Hm : (Z.pos m < 2 ^ 24)%Z) by (eapply Z.lt_le_trans; [exact Dg|apply Z.pow_le_mono_r; lia]).
      split; [|assumption]. destruct (Z.le_gt_cases 24 k) as [K|K].
      + eapply Z.le_trans; [|exact Dl]. apply Z.pow_le_mono_r; lia.
      + exfalso. assert (e = -149)%Z by lia. subst e. rewrite A in L.
        assert (Q : IZR (Z.pos m) * bpow radix2 (-149) <= bpow radix2 24 * bpow radix2 (-149)).
        { apply Rmult_le_compat_r; [apply bpow_ge_0|]. rewrite bpow_Z by lia. apply IZR_le. lia. }
        rewrite <- bpow_plus in Q. pose proof (bpow_lt radix2 (24 + -149) (-21) ltac:(lia)). lra. }
  destruct Fm as (m & e & Hm & Ex). set (x := Rabs (B2R v)) in *.
  destruct (Z.le_gt_cases 0 e) as [He|He].
  - left. rewrite Ex, bpow_Z, <- mult_IZR, Zfloor_IZR by assumption. reflexivity.
  - assert (Up : x < IZR (2 ^ 23)).
    { rewrite Ex. apply Rlt_le_trans with (IZR (2 ^ 24) * bpow radix2 e); [apply Rmult_lt_compat_r; [apply bpow_gt_0|apply IZR_lt; lia]|].
      rewrite <- (bpow_Z 24), <- (bpow_Z 23), <- bpow_plus by lia. apply bpow_le. lia. }
    right. split; [|assumption].
    unfold carry_free. rewrite bpow10_neg by lia. pose proof (floor_bounds x) as [B1 B2].
    assert (G : 0 <= x) by (unfold x; apply Rabs_pos). pose proof (floor_ge0 x G) as F0.
    assert (Hq : / IZR (10 ^ 14) / 2 <= bpow radix2 (-40)).
    { change (bpow radix2 (-40)) with (/ 1099511627776). change (10 ^ 14)%Z with 100000000000000%Z. lra. }
    pose proof (floor_lt x _ Up) as F1. assert (F2 : (Zfloor x <= 2 ^ 23 - 1)%Z) by lia. apply IZR_le in F2. rewrite plus_IZR. apply IZR_le in F0. rewrite minus_IZR in F2.
    set (n := IZR (Zfloor x)) in *.
    assert (C51 : (n + 1) * bpow radix2 (-51) <= bpow radix2 (-28)).
    { apply Rle_trans with (IZR (2 ^ 23) * bpow radix2 (-51)); [apply Rmult_le_compat_r; [apply bpow_ge_0|lra]|].
      rewrite <- bpow_Z, <- bpow_plus by lia. apply bpow_le. lia. }
    assert (S1 : bpow radix2 (-40) + bpow radix2 (-28) <= bpow radix2 (-24)) by (cbn; lra).
    destruct (Rle_or_lt x (/ 2)) as [Hh|Hh].
    + assert (bpow radix2 (-24) <= / 4) by (cbn; lra). nra.
    + assert (E24 : (-24 <= e)%Z).
      { destruct (Z.le_gt_cases (-24) e) as [Q|Q]; [assumption|exfalso]. rewrite Ex in Hh.
        assert (IZR m * bpow radix2 e <= bpow radix2 24 * bpow radix2 (-25)).
        { apply Rmult_le_compat; [apply IZR_le; lia|apply bpow_ge_0|rewrite bpow_Z by lia; apply IZR_le; lia|apply bpow_le; lia]. }
        rewrite <- bpow_plus in H. cbn in H. lra. }
      assert (Xn : x <= n + 1 - bpow radix2 e).
      { unfold n. rewrite <- (plus_IZR _ 1). rewrite (int_multiple (Zfloor x + 1) e) by lia. rewrite Ex.
        assert (Lm : (m < (Zfloor x + 1) * 2 ^ (- e))%Z).
        { apply lt_IZR. apply Rmult_lt_reg_r with (bpow radix2 e); [apply bpow_gt_0|]. rewrite <- int_multiple by lia. rewrite <- Ex, plus_IZR. exact B2. }
        rewrite Ex in Lm. assert (Q : IZR m + 1 <= IZR ((Zfloor (IZR m * bpow radix2 e) + 1) * 2 ^ (- e))) by (rewrite <- plus_IZR; apply IZR_le; lia).
        pose proof (bpow_gt_0 radix2 e). nra. }
      assert (bpow radix2 (-24) <= bpow radix2 e) by (apply bpow_le; lia). lra.
Qed.
