(** Proof support for the double arithmetic of Fp.v: results of operations on non-negative doubles,
    error bounds. *)
From Coq Require Import Reals ZArith Lia Lra Psatz.
From Flocq Require Import Core Relative IEEE754.BinarySingleNaN.
From Verif Require Import Fp.
Local Open Scope R_scope.

(** Rounding to the nearest double (ties to even), as if the exponent were unbounded above. *)
Definition rd (x : R) : R := round radix2 (FLT_exp (-1074) 53) ZnearestE x.
Definition u : R := bpow radix2 (-53).
Definition pos (d : double) (x : R) : Prop := is_finite d = true /\ Bsign d = false /\ B2R d = x.

#[local] Instance vexp : Valid_exp (FLT_exp (-1074) 53).
Proof. apply FLT_exp_valid. reflexivity. Qed.

Lemma u_pos : 0 < u.
Proof. apply bpow_gt_0. Qed.
Lemma u_val : u = / IZR (2 ^ 53).
Proof. reflexivity. Qed.

Lemma pos_ge : forall d x, pos d x -> 0 <= x.
Proof.
  intros d x (F & S & <-). destruct d as [s|s| |s m e B]; cbn in *; try discriminate; try lra.
  subst s. cbn [SpecFloat.cond_Zopp]. apply F2R_ge_0. cbn. lia.
Qed.

Lemma rd_0 : rd 0 = 0.
Proof. apply round_0. auto with typeclass_instances. Qed.
Lemma rd_le : forall x y, x <= y -> rd x <= rd y.
Proof. intros. apply round_le; [apply vexp|apply valid_rnd_N|assumption]. Qed.
Lemma rd_pos : forall x, 0 <= x -> 0 <= rd x.
Proof. intros x H. rewrite <- rd_0. now apply rd_le. Qed.
Lemma rd_bpow : forall k, (-1074 <= k)%Z -> rd (bpow radix2 k) = bpow radix2 k.
Proof.
  intros k H. apply round_generic; [apply valid_rnd_N|]. apply generic_format_bpow.
  unfold FLT_exp. lia.
Qed.
Lemma rd_opp : forall x, rd (- x) = - rd x.
Proof. intros. apply round_NE_opp. Qed.
Lemma rd_rd : forall x, rd (rd x) = rd x.
Proof. intros x. apply round_generic; [apply valid_rnd_N|]. apply generic_format_round; [apply vexp|apply valid_rnd_N]. Qed.
Lemma rd_B2R : forall d : double, rd (B2R d) = B2R d.
Proof. intros d. apply round_generic; [apply valid_rnd_N|]. apply (generic_format_B2R 53 1024 d). Qed.
Lemma rd_exact : forall z e, (Z.abs z <= 2 ^ 53)%Z -> (-1074 <= e)%Z -> rd (IZR z * bpow radix2 e) = IZR z * bpow radix2 e.
Proof.
  intros z e H He. apply round_generic; [apply valid_rnd_N|].
  destruct (Z.eq_dec (Z.abs z) (2 ^ 53)) as [E|E].
  - assert (Hz : exists s : bool, z = if s then (- 2 ^ 53)%Z else (2 ^ 53)%Z).
    { destruct (Z.abs_eq_or_opp z) as [A|A]; [exists false|exists true]; lia. }
    assert (G : generic_format radix2 (FLT_exp (-1074) 53) (bpow radix2 (53 + e))).
    { apply generic_format_bpow. unfold FLT_exp. lia. }
    destruct Hz as [[|] ->].
    + rewrite opp_IZR. change (IZR (2 ^ 53)) with (bpow radix2 53).
      rewrite Ropp_mult_distr_l_reverse, <- bpow_plus. now apply generic_format_opp.
    + change (IZR (2 ^ 53)) with (bpow radix2 53). now rewrite <- bpow_plus.
  - apply generic_format_FLT. exists (Float radix2 z e); cbn; [reflexivity|lia|lia].
Qed.
Lemma rd_int : forall z, (Z.abs z <= 2 ^ 53)%Z -> rd (IZR z) = IZR z.
Proof. intros z H. pose proof (rd_exact z 0 H ltac:(lia)) as E. cbn [bpow] in E. now rewrite Rmult_1_r in E. Qed.

(** The largest finite double. *)
Definition big : R := IZR (2 ^ 53 - 1) * bpow radix2 971.
Lemma big_ge : 3 / 2 * bpow radix2 1023 <= big.
Proof.
  unfold big. change 1023%Z with (52 + 971)%Z. rewrite bpow_plus, <- Rmult_assoc.
  apply Rmult_le_compat_r; [left; apply bpow_gt_0|]. change (bpow radix2 52) with (IZR (2 ^ 52)).
  apply Rmult_le_reg_l with 2; [lra|]. replace (2 * (3 / 2 * IZR (2 ^ 52))) with (3 * IZR (2 ^ 52)) by field.
  rewrite <- !mult_IZR. apply IZR_le. lia.
Qed.
Lemma rd_small : forall x, 0 <= x <= big -> Rlt_bool (Rabs (rd x)) (bpow radix2 1024) = true.
Proof.
  intros x [H0 H]. apply Rlt_bool_true. rewrite Rabs_pos_eq by now apply rd_pos.
  apply Rle_lt_trans with big.
  - replace big with (rd big); [now apply rd_le|]. apply rd_exact; lia.
  - unfold big. change 1024%Z with (53 + 971)%Z. rewrite bpow_plus.
    apply Rmult_lt_compat_r; [apply bpow_gt_0|]. change (bpow radix2 53) with (IZR (2 ^ 53)). apply IZR_lt. lia.
Qed.
Lemma bpow_big : forall k, (k <= 1023)%Z -> bpow radix2 k <= big.
Proof.
  intros k H. pose proof big_ge. pose proof (bpow_gt_0 radix2 1023).
  apply Rle_trans with (bpow radix2 1023); [now apply bpow_le|]. lra.
Qed.

Lemma rd_err : forall x, bpow radix2 (-1022) <= x -> Rabs (rd x - x) <= u * x.
Proof.
  intros x H. assert (0 < x) by (eapply Rlt_le_trans; [apply bpow_gt_0|exact H]).
  pose proof (relative_error_N_FLT radix2 (-1074) 53 eq_refl (fun z => negb (Z.even z)) x) as E.
  rewrite (Rabs_pos_eq x) in E by lra. specialize (E H).
  replace (/ 2 * bpow radix2 (- (53) + 1)) with u in E; [exact E|].
  unfold u. change (- (53) + 1)%Z with (-53 + 1)%Z. rewrite bpow_plus. change (bpow radix2 1) with 2. field.
Qed.

Lemma of_int_pos : forall z, (0 <= z)%Z -> IZR z <= big -> pos (of_int z) (rd (IZR z)).
Proof.
  intros z H B. unfold of_int. pose proof (binary_normalize_correct 53 1024 prec53 emax1024 mode_NE z 0 false) as C.
  cbv zeta in C. replace (F2R (Float radix2 z 0)) with (IZR z) in C by (unfold F2R; cbn; ring).
  assert (0 <= IZR z) by now apply IZR_le.
  fold (rd (IZR z)) in C.
  change (round radix2 (SpecFloat.fexp 53 1024) (round_mode mode_NE) (IZR z)) with (rd (IZR z)) in C.
  rewrite rd_small in C by lra. destruct C as (C1 & C2 & C3). split; [assumption|]. split; [|assumption].
  rewrite C3. destruct (Rcompare_spec (IZR z) 0); [lra|reflexivity|reflexivity].
Qed.
Lemma of_int_exact : forall z, (0 <= z <= 2 ^ 53)%Z -> pos (of_int z) (IZR z).
Proof.
  intros z H. pose proof (of_int_pos z ltac:(lia)) as P. rewrite rd_int in P by lia. apply P.
  apply Rle_trans with (IZR (2 ^ 53)); [now apply IZR_le|]. change (IZR (2 ^ 53)) with (bpow radix2 53). apply bpow_big. lia.
Qed.

Lemma dadd_pos : forall a b x y, pos a x -> pos b y -> x + y <= big -> pos (dadd a b) (rd (x + y)).
Proof.
  intros a b x y Pa Pb B. pose proof (pos_ge _ _ Pa). pose proof (pos_ge _ _ Pb).
  destruct Pa as (Fa & Sa & Va), Pb as (Fb & Sb & Vb).
  pose proof (Bplus_correct 53 1024 prec53 emax1024 mode_NE a b Fa Fb) as C. rewrite Va, Vb in C.
  change (round radix2 (SpecFloat.fexp 53 1024) (round_mode mode_NE) (x + y)) with (rd (x + y)) in C.
  rewrite rd_small in C by lra. destruct C as (C1 & C2 & C3). split; [assumption|]. split; [|assumption].
  unfold dadd. rewrite C3, Sa. destruct (Rcompare_spec (x + y) 0); [lra|reflexivity|reflexivity].
Qed.

Lemma finite_not_nan : forall d : double, is_finite d = true -> is_nan d = false.
Proof. intros [| | |] H; try discriminate; reflexivity. Qed.

Lemma dmul_pos : forall a b x y, pos a x -> pos b y -> x * y <= big -> pos (dmul a b) (rd (x * y)).
Proof.
  intros a b x y Pa Pb B. pose proof (pos_ge _ _ Pa). pose proof (pos_ge _ _ Pb).
  destruct Pa as (Fa & Sa & Va), Pb as (Fb & Sb & Vb).
  pose proof (Bmult_correct 53 1024 prec53 emax1024 mode_NE a b) as C. rewrite Va, Vb in C.
  change (round radix2 (SpecFloat.fexp 53 1024) (round_mode mode_NE) (x * y)) with (rd (x * y)) in C.
  rewrite rd_small in C by nra. destruct C as (C1 & C2 & C3). rewrite Fa, Fb in C2.
  split; [assumption|]. split; [|assumption].
  unfold dmul. rewrite C3 by now apply finite_not_nan. now rewrite Sa, Sb.
Qed.

Lemma ddiv_pos : forall a b x y, pos a x -> pos b y -> 0 < y -> x / y <= big -> pos (ddiv a b) (rd (x / y)).
Proof.
  intros a b x y Pa Pb Hy B. pose proof (pos_ge _ _ Pa).
  destruct Pa as (Fa & Sa & Va), Pb as (Fb & Sb & Vb).
  pose proof (Bdiv_correct 53 1024 prec53 emax1024 mode_NE a b) as C. rewrite Va, Vb in C. specialize (C ltac:(lra)).
  change (round radix2 (SpecFloat.fexp 53 1024) (round_mode mode_NE) (x / y)) with (rd (x / y)) in C.
  assert (0 <= x / y) by (apply Rmult_le_pos; [assumption|left; now apply Rinv_0_lt_compat]).
  rewrite rd_small in C by lra. destruct C as (C1 & C2 & C3). rewrite Fa in C2.
  split; [assumption|]. split; [|assumption].
  unfold ddiv. rewrite C3 by now apply finite_not_nan. now rewrite Sa, Sb.
Qed.
