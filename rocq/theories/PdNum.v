(** The numbers inside of print_double: the rounding step and the digits behind the point. *)
From Coq Require Import Reals ZArith NArith List Bool Lia Lra Psatz ZifyBool ZifyNat ZifyN.
From Flocq Require Import Core IEEE754.BinarySingleNaN.
From Verif Require Import Base DigitsSpec ConvModel Fp FpProofs DblModel DblSpec DblError PdModel PdSpec PdText PdMag PdInt.
Import ListNotations.
Local Open Scope R_scope.

Definition eta : R := bpow radix2 (-1022).
Lemma eta_pos : 0 < eta. Proof. apply bpow_gt_0. Qed.
Lemma eta_small : eta <= u * u.
Proof. unfold eta, u. rewrite <- bpow_plus. apply bpow_le. lia. Qed.
Lemma u_small : u <= / 9000000000000000.
Proof. rewrite u_val. apply Rinv_le; [lra|]. apply (IZR_le 9000000000000000). vm_compute. discriminate. Qed.

Lemma rd_err_abs : forall z, 0 <= z -> Rabs (rd z - z) <= u * z + eta.
Proof.
  intros z Z. pose proof eta_pos as E. pose proof u_pos as U. destruct (Rle_or_lt eta z) as [A|A].
  - pose proof (rd_err z A). lra.
  - assert (B : rd z <= eta) by (unfold eta in *; rewrite <- (rd_bpow (-1022)) by lia; apply rd_le; lra).
    pose proof (rd_pos z Z). assert (0 <= u * z) by nra. apply Rabs_le. lra.
Qed.

Lemma half_pos : pos half (/ 2).
Proof.
  assert (P1 : pos (of_int 1) 1) by (apply (of_int_exact 1); lia).
  assert (P2 : pos (of_int 2) 2) by (apply (of_int_exact 2); lia).
  pose proof (ddiv_pos _ _ _ _ P1 P2 ltac:(lra)) as D.
  replace (1 / 2) with (bpow radix2 (-1)) in D by (cbn; lra). rewrite rd_bpow in D by lia.
  unfold half. replace (/ 2) with (bpow radix2 (-1)) by (cbn; lra). apply D. apply bpow_big. lia.
Qed.

Lemma ten_range : forall p, (0 <= p <= 14)%Z -> 1 <= IZR (10 ^ p) <= IZR (10 ^ 14).
Proof.
  intros p H. split.
  - apply (IZR_le 1). pose proof (Z.pow_pos_nonneg 10 p). lia.
  - apply IZR_le. apply Z.pow_le_mono_r; lia.
Qed.
Lemma bpow10_neg : forall p, (0 <= p)%Z -> bpow radix10 (- p) = / IZR (10 ^ p).
Proof. intros p H. rewrite bpow_opp, bpow10_Z by assumption. reflexivity. Qed.

(** Half a unit of the last digit. *)
Lemma half_unit : forall p, (0 <= p <= 14)%Z -> exists h y, str_Pow10 half (- p) = Some h /\ pos h y /\
  Rabs (y - bpow radix10 (- p) / 2) <= u * (bpow radix10 (- p) / 2) /\ 0 < y <= / 2 /\ (p = 0%Z -> y = / 2).
Proof.
  intros p H. pose proof (ten_range p H) as [T1 T2]. pose proof half_pos as HP. rewrite bpow10_neg by lia.
  pose proof u_pos as U.
  destruct (Z.eq_dec p 0) as [->|Np].
  - destruct (str_Pow10_mul half 0 ltac:(lia)) as (t & y & _ & Pt & E & _ & X). specialize (X ltac:(lia)).
    change (bpow radix10 0) with 1 in X. subst y. pose proof (dmul_pos _ _ _ _ HP Pt) as M.
    rewrite Rmult_1_r in M. exists (dmul half t), (/ 2).
    split; [exact E|]. split.
    + replace (rd (/ 2)) with (/ 2) in M.
      * apply M. apply Rle_trans with 1; [lra|]. change 1 with (bpow radix2 0). apply bpow_big. lia.
      * replace (/ 2) with (bpow radix2 (-1)) by (cbn; lra). symmetry. apply rd_bpow. lia.
    + change (10 ^ 0)%Z with 1%Z. split; [|lra]. replace (/ 2 - / 1 / 2) with 0 by lra. rewrite Rabs_R0. lra.
  - destruct (str_Pow10_div half p ltac:(lia)) as (t & y & _ & Pt & E & _ & X). specialize (X ltac:(lia)).
    rewrite bpow10_Z in X by lia. subst y.
    assert (Bg : / 2 / IZR (10 ^ p) <= big).
    { apply Rle_trans with 1; [|change 1 with (bpow radix2 0); apply bpow_big; lia].
      apply Rmult_le_reg_r with (IZR (10 ^ p)); [lra|]. field_simplify; lra. }
    pose proof (ddiv_pos _ _ _ _ HP Pt ltac:(lra) Bg) as M.
    assert (Q : / 2 / IZR (10 ^ p) = / IZR (10 ^ p) / 2) by (field; lra). rewrite Q in M.
    assert (Lo : / IZR (10 ^ 19) <= / IZR (10 ^ p) / 2).
    { replace (/ IZR (10 ^ p) / 2) with (/ (2 * IZR (10 ^ p))) by (field; lra). apply Rinv_le; [lra|].
      apply Rle_trans with (2 * IZR (10 ^ 14)); [lra|]. rewrite <- mult_IZR. apply IZR_le. vm_compute. discriminate. }
    assert (L0 : 0 < / IZR (10 ^ 19)) by (apply Rinv_0_lt_compat; apply IZR_lt; lia).
    assert (Er : Rabs (rd (/ IZR (10 ^ p) / 2) - / IZR (10 ^ p) / 2) <= u * (/ IZR (10 ^ p) / 2)).
    { apply rd_err. eapply Rle_trans; [exact small_bpow|exact Lo]. }
    exists (ddiv half t), (rd (/ IZR (10 ^ p) / 2)). split; [exact E|]. split; [exact M|]. split; [exact Er|].
    split; [|intros; lia]. pose proof u_small as Us. apply abs_bounds in Er. split; [nra|].
    replace (/ 2) with (rd (/ 2)).
    + apply rd_le. assert (/ IZR (10 ^ p) <= 1); [|lra]. rewrite <- Rinv_1. apply Rinv_le; lra.
    + replace (/ 2) with (bpow radix2 (-1)) by (cbn; lra). apply rd_bpow. lia.
Qed.

(** Above 2^53 adding a half changes nothing. *)
Lemma add_half_big : forall d x y, pos d x -> IZR (2 ^ 53) <= x -> 0 <= y <= / 2 -> rd (x + y) = x.
Proof.
  intros d x y P B Y. apply Rle_antisym.
  - unfold rd. apply round_N_le_midp; [apply FLT_exp_valid; reflexivity| |].
    + rewrite <- (proj2 (proj2 P)). apply generic_format_B2R.
    + rewrite succ_eq_pos by (apply Rle_trans with (2 := B); apply (IZR_le 0); lia).
      assert (2 <= ulp radix2 (FLT_exp (-1074) 53) x); [|lra].
      rewrite ulp_neq_0 by (apply Rgt_not_eq; eapply Rlt_le_trans; [|exact B]; apply (IZR_lt 0); lia).
      change 2 with (bpow radix2 1). apply bpow_le. unfold cexp, FLT_exp.
      assert (54 <= mag radix2 x)%Z; [|lia]. apply mag_ge_bpow. rewrite Rabs_pos_eq.
      * rewrite bpow_Z by lia. exact B.
      * apply Rle_trans with (2 := B). apply (IZR_le 0). lia.
  - replace x with (rd x) at 1 by (rewrite <- (proj2 (proj2 P)); apply rd_B2R). apply rd_le. lra.
Qed.

(** The number that is printed: 1 larger if the rounding reaches the next integer. *)
Lemma rollover_ok : forall v x h y, pos v x -> x < IZR (2 ^ 56) -> pos h y -> 0 < y <= / 2 ->
  exists r i, to_u64 (dadd v h) = Some r /\ to_u64 v = Some i /\
    exists x', pos (if (i <? r)%N then dadd v (of_int 1) else v) x' /\ x' < IZR (2 ^ 56) /\
      x' = (if Zlt_bool (Zfloor x) (Zfloor (rd (x + y))) then rd (x + 1) else x).
Proof.
  intros v x h y P U Ph Y. pose proof (pos_ge _ _ P) as G.
  assert (B56 : IZR (2 ^ 57) <= big) by (apply pow2_1023; vm_compute; discriminate).
  assert (N56 : IZR (2 ^ 56) + 1 <= IZR (2 ^ 57)) by (rewrite <- plus_IZR; apply IZR_le; vm_compute; discriminate).
  assert (R56 : rd (IZR (2 ^ 57)) = IZR (2 ^ 57)) by (rewrite <- bpow_Z by lia; apply rd_bpow; lia).
  assert (W : IZR (2 ^ 57) < IZR (2 ^ 64)) by (apply IZR_lt; vm_compute; reflexivity).
  pose proof (dadd_pos _ _ _ _ P Ph ltac:(lra)) as Pa.
  assert (Ra : rd (x + y) <= IZR (2 ^ 57)) by (rewrite <- R56; apply rd_le; lra).
  pose proof (rd_pos (x + y) ltac:(lra)) as Ra0.
  exists (Z.to_N (Zfloor (rd (x + y)))), (Z.to_N (Zfloor x)).
  split; [apply to_u64_pos; [assumption|lra]|]. split; [apply to_u64_pos; [assumption|lra]|].
  pose proof (floor_ge0 x G) as F0. pose proof (floor_ge0 _ Ra0) as F1.
  replace (Z.to_N (Zfloor x) <? Z.to_N (Zfloor (rd (x + y))))%N with (Zlt_bool (Zfloor x) (Zfloor (rd (x + y)))) by lia.
  destruct (Z.ltb_spec (Zfloor x) (Zfloor (rd (x + y)))) as [A|A].
  - exists (rd (x + 1)). assert (P1 : pos (of_int 1) 1) by (apply (of_int_exact 1); lia).
    split; [apply dadd_pos; [assumption|assumption|lra]|]. split; [|reflexivity].
    destruct (Rle_or_lt (IZR (2 ^ 53)) x) as [Bx|Bx].
    + rewrite (add_half_big v x y P Bx ltac:(lra)) in A. lia.
    + apply Rle_lt_trans with (IZR (2 ^ 54)); [|apply IZR_lt; vm_compute; reflexivity].
      replace (IZR (2 ^ 54)) with (rd (IZR (2 ^ 54))) by (rewrite <- bpow_Z by lia; apply rd_bpow; lia).
      apply rd_le. apply Rle_trans with (IZR (2 ^ 53) + 1); [lra|]. rewrite <- plus_IZR. apply IZR_le. vm_compute. discriminate.
  - exists x. auto.
Qed.

Lemma no_carry : forall x y p, 0 <= x -> (0 <= p <= 14)%Z -> carry_free x p ->
  Rabs (y - bpow radix10 (- p) / 2) <= u * (bpow radix10 (- p) / 2) -> Zlt_bool (Zfloor x) (Zfloor (rd (x + y))) = false.
Proof.
  intros x y p G Hp C E. apply Z.ltb_ge. unfold carry_free in C. rewrite bpow10_neg in * by lia.
  pose proof (ten_range p Hp) as [T1 T2]. set (q := / IZR (10 ^ p) / 2) in *.
  assert (Q0 : 0 < q) by (unfold q; apply Rdiv_lt_0_compat; [apply Rinv_0_lt_compat; lra|lra]).
  assert (Q1 : q <= / 2) by (unfold q; assert (/ IZR (10 ^ p) <= 1) by (rewrite <- Rinv_1; apply Rinv_le; lra); lra).
  assert (U4 : bpow radix2 (-51) = 4 * u) by (unfold u; replace 4 with (bpow radix2 2) by (cbn; lra); rewrite <- bpow_plus; reflexivity).
  rewrite U4 in C. rewrite plus_IZR in C. pose proof u_pos as U0. pose proof u_small as U1. pose proof eta_small as Es. pose proof eta_pos as E0.
  apply abs_bounds in E. assert (Y0 : 0 < y) by nra.
  pose proof (rd_err_abs (x + y) ltac:(lra)) as Er. apply abs_bounds in Er.
  pose proof (floor_ge0 x G) as F0. apply IZR_le in F0. set (n := IZR (Zfloor x)) in *.
  apply Z.lt_succ_r. apply floor_lt. rewrite succ_IZR. fold n.
  assert (S1 : x + y <= (n + 1) * (1 - 4 * u) + u * / 2) by nra.
  assert (S2 : rd (x + y) <= ((n + 1) * (1 - 4 * u) + u * / 2) * (1 + u) + eta) by nra.
  eapply Rle_lt_trans; [exact S2|].
  assert (S3 : ((n + 1) * (1 - 4 * u)) * (1 + u) <= (n + 1) * (1 - 3 * u)) by nra.
  assert (uu : u * u <= u * / 1000) by (apply Rmult_le_compat_l; lra).
  assert (S4 : u * 3 <= u * (3 * (n + 1))) by (apply Rmult_le_compat_l; lra).
  replace (((n + 1) * (1 - 4 * u) + u * / 2) * (1 + u) + eta) with ((n + 1) * (1 - 4 * u) * (1 + u) + u * / 2 + u * u * / 2 + eta) by ring.
  replace ((n + 1) * (1 - 3 * u)) with (n + 1 - u * (3 * (n + 1))) in S3 by ring. lra.
Qed.

(** The digits behind the point as a number. *)
Definition unit_count (f : R) (p : Z) : Z := Zfloor (rd (rd (f * IZR (10 ^ p)) + / 2)).
Lemma nth_powers : forall p, (0 <= p <= 14)%Z -> nth_error print_PowersOfTen (Z.to_nat p) = Some (of_int (10 ^ p)).
Proof.
  intros p H. unfold print_PowersOfTen. rewrite nth_error_map.
  assert (E : nth_error [0; 1; 2; 3; 4; 5; 6; 7; 8; 9; 10; 11; 12; 13; 14]%Z (Z.to_nat p) = Some p).
  { assert (K : exists k, (k < 15)%nat /\ p = Z.of_nat k) by (exists (Z.to_nat p); lia). destruct K as (k & Hk & ->).
    rewrite Nat2Z.id. do 15 (destruct k as [|k]; [reflexivity|]). lia. }
  rewrite E. cbn [option_map]. exact eq_refl.
Qed.
Lemma unit_count_ok : forall f x p, pos f x -> x < 1 -> (0 <= p <= 14)%Z ->
  to_u64 (dadd (dmul f (of_int (10 ^ p))) half) = Some (Z.to_N (unit_count x p)) /\ (0 <= unit_count x p <= 10 ^ p)%Z.
Proof.
  intros f x p P X Hp. pose proof (pos_ge _ _ P) as G. pose proof (ten_range p Hp) as [T1 T2].
  pose proof (ten_int p ltac:(lia)) as Pt. pose proof big_bpow as Bg.
  assert (B14 : IZR (10 ^ 14) + 1 <= IZR (10 ^ 30)) by (rewrite <- plus_IZR; apply IZR_le; vm_compute; discriminate).
  assert (M0 : 0 <= x * IZR (10 ^ p)) by nra. assert (M1 : x * IZR (10 ^ p) <= IZR (10 ^ p)) by nra.
  pose proof (dmul_pos _ _ _ _ P Pt ltac:(lra)) as Pm.
  assert (Rm : rd (x * IZR (10 ^ p)) <= IZR (10 ^ p)).
  { rewrite <- (rd_int (10 ^ p)) at 2; [apply rd_le; assumption|]. rewrite Z.abs_eq by (apply Z.pow_nonneg; lia).
    apply Z.le_trans with (10 ^ 14)%Z; [apply Z.pow_le_mono_r; lia|vm_compute; discriminate]. }
  pose proof (rd_pos _ M0) as Rm0.
  pose proof (dadd_pos _ _ _ _ Pm half_pos ltac:(lra)) as Pa.
  assert (Ra : rd (rd (x * IZR (10 ^ p)) + / 2) <= IZR (10 ^ p) + / 2).
  { assert (E : rd (IZR (10 ^ p) + / 2) = IZR (10 ^ p) + / 2).
    { replace (IZR (10 ^ p) + / 2) with (IZR (2 * 10 ^ p + 1) * bpow radix2 (-1)).
      - apply rd_exact; [|lia]. rewrite Z.abs_eq by (pose proof (Z.pow_nonneg 10 p); lia).
        assert (10 ^ p <= 10 ^ 14)%Z by (apply Z.pow_le_mono_r; lia). apply Z.le_trans with (2 * 10 ^ 14 + 1)%Z; [lia|vm_compute; discriminate].
      - rewrite plus_IZR, mult_IZR. change (bpow radix2 (-1)) with (/ 2). lra. }
    rewrite <- E. apply rd_le. lra. }
  pose proof (rd_pos (rd (x * IZR (10 ^ p)) + / 2) ltac:(lra)) as Ra0.
  split.
  - apply to_u64_pos; [assumption|]. apply Rle_lt_trans with (IZR (10 ^ 14) + 1); [lra|]. rewrite <- plus_IZR. apply IZR_lt. vm_compute. reflexivity.
  - split; [now apply floor_ge0|]. apply Z.lt_succ_r. apply floor_lt. rewrite succ_IZR. lra.
Qed.

(** Without a carry they are nearest up to 2^-52. *)
Lemma unit_count_near : forall x p, 0 <= x -> (1 <= p <= 14)%Z -> carry_free x p ->
  (unit_count (x - IZR (Zfloor x)) p < 10 ^ p)%Z /\
  Rabs (IZR (unit_count (x - IZR (Zfloor x)) p) * bpow radix10 (- p) - (x - IZR (Zfloor x))) <= bpow radix10 (- p) / 2 + bpow radix2 (-52).
Proof.
  intros x p G Hp C. unfold carry_free in C. rewrite bpow10_neg in * by lia. pose proof (ten_range p ltac:(lia)) as [T1 T2].
  pose proof (floor_bounds x) as [B1 B2]. pose proof (floor_ge0 x G) as F0. apply IZR_le in F0. rewrite plus_IZR in C.
  set (n := IZR (Zfloor x)) in *. set (f := x - n) in *. unfold unit_count. set (T := IZR (10 ^ p)) in *.
  assert (U4 : bpow radix2 (-51) = 4 * u) by (unfold u; replace 4 with (bpow radix2 2) by (cbn; lra); rewrite <- bpow_plus; reflexivity).
  assert (U2 : bpow radix2 (-52) = 2 * u) by (unfold u; replace 2 with (bpow radix2 1) by (cbn; lra); rewrite <- bpow_plus; reflexivity).
  rewrite U4 in C. rewrite U2. pose proof u_pos as U0. pose proof u_small as U1. pose proof eta_small as Es. pose proof eta_pos as E0.
  assert (T10 : 10 <= T) by (unfold T; apply (IZR_le 10); change 10%Z with (10 ^ 1)%Z at 1; apply Z.pow_le_mono_r; lia).
  assert (T14 : T <= 100000000000000) by (eapply Rle_trans; [exact T2|]; apply IZR_le; vm_compute; discriminate).
  assert (Tu : T * u <= / 90) by (apply Rle_trans with (100000000000000 * / 9000000000000000); [apply Rmult_le_compat; lra|lra]).
  assert (f0 : 0 <= f) by (unfold f; lra).
  assert (fT : f * T + / 2 <= T * (1 - 4 * u)).
  { assert (Cf : f + / T / 2 <= 1 - 4 * u) by (unfold f; nra).
    apply (Rmult_le_compat_r T) in Cf; [|lra]. replace ((f + / T / 2) * T) with (f * T + / 2) in Cf by (field; lra). lra. }
  assert (fT0 : 0 <= f * T) by nra.
  pose proof (rd_err_abs (f * T) fT0) as Em. apply abs_bounds in Em. pose proof (rd_pos _ fT0) as M0.
  set (m := rd (f * T)) in *. pose proof (rd_err_abs (m + / 2) ltac:(lra)) as Ea. apply abs_bounds in Ea.
  set (a := rd (m + / 2)) in *. pose proof (floor_bounds a) as [A1 A2]. set (D := Zfloor a) in *.
  assert (uu : u * u <= u * / 1000) by (apply Rmult_le_compat_l; lra).
  assert (Tu0 : 0 <= T * u) by (apply Rmult_le_pos; lra). assert (fT1 : f * T + / 2 <= T - 4 * (T * u)) by (eapply Rle_trans; [exact fT|]; right; ring).
  set (w := u * (f * T)) in *. assert (w0 : 0 <= w) by (unfold w; nra). assert (w1 : w <= / 90) by (apply Rle_trans with (T * u); [unfold w; rewrite (Rmult_comm T); apply Rmult_le_compat_l; [lra|]; lra|assumption]).
  assert (um : u * m <= w + u * / 20). { assert (um1 : u * m <= u * (f * T + w + eta)) by (apply Rmult_le_compat_l; [lra|lra]). assert (um2 : u * w <= u * / 90) by (apply Rmult_le_compat_l; lra). assert (um3 : u * eta <= u * / 1000) by (apply Rmult_le_compat_l; lra). fold w in um1. assert (um4 : u * (f * T + w + eta) = w + u * w + u * eta) by (unfold w; ring). lra. }
  assert (tot : Rabs (a - (f * T + / 2)) <= 2 * w + u * / 2 + u * / 10) by (apply Rabs_le; lra).
  apply abs_bounds in tot.
  assert (wT : w <= u * (T - / 2)) by (unfold w; apply Rmult_le_compat_l; lra).
  split.
  - apply floor_lt. fold T. lra.
  - assert (Q : Rabs (IZR D - f * T) <= / 2 + 2 * u * T) by (apply Rabs_le; lra).
    replace (IZR D * / T - f) with ((IZR D - f * T) * / T) by (field; lra). rewrite Rabs_mult, (Rabs_pos_eq (/ T)) by (left; apply Rinv_0_lt_compat; lra).
    replace (/ T / 2 + 2 * u) with ((/ 2 + 2 * u * T) * / T) by (field; lra).
    apply Rmult_le_compat_r; [left; apply Rinv_0_lt_compat; lra|assumption].
Qed.

(** Rounding to an integer: nothing is lost if the two sums are exact. *)
Lemma exact_rounding : forall x, 0 <= x -> rd (x + / 2) = x + / 2 -> rd (x + 1) = x + 1 ->
  Zfloor (if Zlt_bool (Zfloor x) (Zfloor (rd (x + / 2))) then rd (x + 1) else x) = Zfloor (x + / 2).
Proof.
  intros x G E1 E2. rewrite E1, E2. pose proof (floor_bounds x) as [B1 B2]. pose proof (floor_bounds (x + / 2)) as [C1 C2].
  destruct (Z.ltb_spec (Zfloor x) (Zfloor (x + / 2))) as [A|A].
  - assert (Zfloor (x + / 2) < Zfloor x + 2)%Z by (apply floor_lt; rewrite plus_IZR; lra).
    apply Zfloor_imp. replace (Zfloor (x + / 2)) with (Zfloor x + 1)%Z by lia. rewrite !plus_IZR. lra.
  - assert (Zfloor x <= Zfloor (x + / 2))%Z by (apply Zfloor_le; lra). lia.
Qed.

(** An integer does not reach the next one. *)
Lemma integer_no_carry : forall d x y, pos d x -> x = IZR (Zfloor x) -> 0 <= y < / 2 -> Zlt_bool (Zfloor x) (Zfloor (rd (x + y))) = false.
Proof.
  intros d x y P Ex Y. apply Z.ltb_ge. apply Z.lt_succ_r. apply floor_lt. rewrite succ_IZR, <- Ex.
  destruct (round_N_pt radix2 (FLT_exp (-1074) 53) (fun z => negb (Z.even z)) (x + y)) as [_ N].
  specialize (N x ltac:(rewrite <- (proj2 (proj2 P)); apply generic_format_B2R)).
  fold (rd (x + y)) in N. replace (x - (x + y)) with (- y) in N by ring. rewrite Rabs_Ropp, (Rabs_pos_eq y) in N by lra.
  apply abs_bounds in N. lra.
Qed.
Lemma half_unit_less : forall p y, (1 <= p <= 14)%Z -> Rabs (y - bpow radix10 (- p) / 2) <= u * (bpow radix10 (- p) / 2) -> y < / 2.
Proof.
  intros p y H E. apply abs_bounds in E. pose proof u_small. pose proof u_pos.
  assert (B : bpow radix10 (- p) <= bpow radix10 (-1)) by (apply bpow_le; lia). change (bpow radix10 (-1)) with (/ 10) in B.
  pose proof (bpow_gt_0 radix10 (- p)). nra.
Qed.
Lemma unit_count_0 : forall p, (0 <= p)%Z -> unit_count 0 p = 0%Z.
Proof.
  intros p H. unfold unit_count. rewrite Rmult_0_l, rd_0, Rplus_0_l. replace (/ 2) with (bpow radix2 (-1)) by (cbn; lra).
  rewrite rd_bpow by lia. apply Zfloor_imp. change (bpow radix2 (-1)) with (/ 2). cbn. lra.
Qed.
