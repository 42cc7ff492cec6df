(** tm_bezier.h with IEEE binary32: whether the loops end. *)
From Coq Require Import ZArith Reals Lra Lia Bool List.
From Flocq Require Import Core Plus_error IEEE754.BinarySingleNaN.
From Verif Require Import UtFloatModel UtFloatProps PgFloat BzModel.
Local Open Scope R_scope.

Definition binary32 : field := Field float fadd fsub fmul fdiv Bopp (fun z => fnum z 0) Bleb.

Lemma ofZ_exact : forall k, (Z.abs k < 2 ^ 24)%Z -> represents (fnum k 0) k.
Proof.
  intros k H. pose proof (binary_normalize_correct prec emax prec_gt_0_ prec_lt_emax_ mode_NE k 0 false) as K. cbn [round_mode] in K. replace (F2R (Float radix2 k 0)) with (IZR k) in K by (unfold F2R; cbn [Fnum Fexp bpow]; ring).
  rewrite round_generic in K; [|auto with typeclass_instances|apply small_format, H]. rewrite Rlt_bool_true in K by apply small_bound, H. destruct K as (K1 & K2 & _). split; assumption.
Qed.
Lemma bound_2 : forall x, 0 <= x <= 2 -> 0 <= rnd x <= 2.
Proof.
  intros x [H1 H2]. assert (V : Valid_exp (FLT_exp (-149) 24)) by (apply FLT_exp_valid; reflexivity). split.
  - unfold rnd. rewrite <- (round_0 radix2 (FLT_exp (-149) 24) ZnearestE). apply round_le; auto with typeclass_instances.
  - unfold rnd. replace 2 with (round radix2 (FLT_exp (-149) 24) ZnearestE 2); [apply round_le; auto with typeclass_instances|]. apply round_generic; [auto with typeclass_instances|]. apply (small_format 2). reflexivity.
Qed.
Lemma small_2 : forall x, 0 <= x <= 2 -> Rabs x < bpow radix2 emax.
Proof. intros x H. rewrite Rabs_pos_eq by lra. apply Rle_lt_trans with (bpow radix2 1); [change (bpow radix2 1) with 2; lra|apply bpow_lt; reflexivity]. Qed.

Section Stops.
Variable n : Z.
Hypothesis N : (1 <= n <= 2 ^ 21)%Z.
Let h : float := fdiv (fnum 1 0) (fnum n 0).
Lemma h_ok : finite h /\ / (2 * IZR n) <= value h <= 1 /\ / 4194304 <= value h.
Proof.
  change (2 ^ 21)%Z with 2097152%Z in N. assert (N1 : 1 <= IZR n) by (apply (IZR_le 1); lia). assert (N2 : IZR n <= 2097152) by (apply (IZR_le n 2097152); lia).
  destruct (ofZ_exact 1 ltac:(reflexivity)) as [F1 V1]. destruct (ofZ_exact n ltac:(change (2 ^ 24)%Z with 16777216%Z; lia)) as [Fn Vn].
  assert (I : 0 < / IZR n) by (apply Rinv_0_lt_compat; lra). assert (I1 : / IZR n <= 1) by (rewrite <- Rinv_1; apply Rinv_le; lra). assert (I2 : / 2097152 <= / IZR n) by (apply Rinv_le; lra).
  pose proof (Bdiv_correct prec emax _ _ mode_NE (fnum 1 0) (fnum n 0)) as K. cbn [round_mode] in K. rewrite V1, Vn in K. specialize (K ltac:(lra)). replace (1 / IZR n) with (/ IZR n) in K by (field; lra).
  change (round radix2 (SpecFloat.fexp prec emax) ZnearestE (/ IZR n)) with (rnd (/ IZR n)) in K. pose proof (bound_2 (/ IZR n) ltac:(lra)) as B. rewrite Rlt_bool_true in K by (apply small_2, B). destruct K as (K1 & K2 & _). fold (fdiv (fnum 1 0) (fnum n 0)) in K1, K2. fold h in K1, K2.
  split; [unfold finite; rewrite K2; exact F1|]. unfold value. rewrite K1. destruct (rnd_any (/ IZR n)) as (e & t & He & Ht & E).
  assert (U : rnd (/ IZR n) <= 1). { unfold rnd. replace 1 with (round radix2 (FLT_exp (-149) 24) ZnearestE 1); [apply round_le; auto with typeclass_instances; apply FLT_exp_valid; reflexivity|]. apply round_generic; [auto with typeclass_instances|]. apply (small_format 1). reflexivity. }
  assert (L : / IZR n * / 2 <= rnd (/ IZR n)). { rewrite E. assert (Hu : 0 < u <= / 16) by (unfold u; lra). assert (u * u * u * u * u * u <= / 100000000). { unfold u. lra. } assert (- / 16 * / IZR n <= / IZR n * e) by nra. nra. }
  split; [split; [rewrite Rinv_mult; lra|exact U]|lra].
Qed.
Lemma step_grows : forall c : float, finite c -> 0 <= value c < 1 -> finite (fadd c h) /\ value c + value h * / 2 <= value (fadd c h) <= 2.
Proof.
  intros c Fc [C0 C1]. destruct h_ok as (Fh & [H1 H2] & H3). pose proof (Bplus_correct prec emax _ _ mode_NE c h Fc Fh) as K. cbn [round_mode] in K.
  change (round radix2 (SpecFloat.fexp prec emax) ZnearestE (B2R c + B2R h)) with (rnd (value c + value h)) in K.
  pose proof (bound_2 (value c + value h) ltac:(lra)) as B. rewrite Rlt_bool_true in K by (apply small_2, B). destruct K as (K1 & K2 & _). split; [exact K2|]. unfold value at 3 4. fold (fadd c h) in K1. change (Bplus mode_NE c h) with (fadd c h) in K1. rewrite K1. split; [|lra].
  destruct (FLT_plus_error_N_ex radix2 (-149) 24 (fun x => negb (Z.even x)) (value c) (value h) (format c) (format h)) as (e & He & E). apply small_eps in He. change (rnd (value c + value h) = (value c + value h) * (1 + e)) in E. rewrite E. unfold u in He.
  assert ((value c + value h) * e >= - 2 * / 16777216) by nra. lra.
Qed.
Lemma one_value : value (fnum 1 0) = 1 /\ finite (fnum 1 0).
Proof. destruct (ofZ_exact 1 ltac:(reflexivity)) as [F1 V1]. split; assumption. Qed.
Lemma reaches_one : forall m (c : float), 4 * IZR n <= INR m -> INR m * (/ (2 * IZR n) * / 2) <= value c -> finite c -> Bleb (fnum 1 0) c = true.
Proof.
  intros m c Hm Hc Fc. destruct one_value as [V1 F1]. rewrite Bleb_correct by assumption. apply Rle_bool_true. fold (value (fnum 1 0)). fold (value c). rewrite V1.
  assert (N1 : 1 <= IZR n) by (apply (IZR_le 1); lia). apply Rle_trans with (2 := Hc). replace 1 with ((4 * IZR n) * (/ (2 * IZR n) * / 2)) by (field; lra). apply Rmult_le_compat_r; [|exact Hm]. apply Rmult_le_pos; [|lra]. left. apply Rinv_0_lt_compat. lra.
Qed.
Lemma below_one : forall c : float, finite c -> Bleb (fnum 1 0) c = false -> value c < 1.
Proof. intros c Fc. destruct one_value as [V1 F1]. rewrite Bleb_correct by assumption. fold (value (fnum 1 0)). fold (value c). rewrite V1. intros H. destruct (Rle_bool_spec 1 (value c)); [discriminate H|assumption]. Qed.
Lemma more_steps : forall m (c : float), finite c -> 0 <= value c -> INR m * (/ (2 * IZR n) * / 2) <= value c -> Bleb (fnum 1 0) c = false ->
  (m < 4 * Z.to_nat n)%nat /\ finite (fadd c h) /\ 0 <= value (fadd c h) /\ INR (S m) * (/ (2 * IZR n) * / 2) <= value (fadd c h).
Proof.
  intros m c Fc C0 Cm E. pose proof (below_one c Fc E) as C1. destruct (step_grows c Fc (conj C0 C1)) as (Fs & [G _]). destruct h_ok as (_ & [H1 _] & _).
  split; [|split; [exact Fs|split]].
  - destruct (le_lt_dec (4 * Z.to_nat n) m) as [L|L]; [|exact L]. exfalso. rewrite (reaches_one m c) in E; [discriminate E| |exact Cm|exact Fc]. replace (4 * IZR n) with (IZR (4 * n)) by (rewrite mult_IZR; reflexivity). rewrite INR_IZR_INZ. apply IZR_le. lia.
  - assert (0 < / (2 * IZR n)) by (apply Rinv_0_lt_compat; assert (1 <= IZR n) by (apply (IZR_le 1); lia); lra). lra.
  - rewrite S_INR. lra.
Qed.
Lemma eval_stops : forall fuel m t c x y, finite c -> 0 <= value c -> INR m * (/ (2 * IZR n) * / 2) <= value c -> (4 * Z.to_nat n - m < fuel)%nat -> eval_loop binary32 fuel h t c x y <> None.
Proof.
  induction fuel as [|fuel IH]; intros m t c x y Fc C0 Cm L; [lia|]. cbn [eval_loop]. destruct (leb binary32 t c); [discriminate|]. cbn [binary32 leb ofZ add]. destruct (Bleb (fnum 1 0) c) eqn:E; [discriminate|].
  destruct (more_steps m c Fc C0 Cm E) as (Lm & Fs & S0 & Sm). apply (IH (S m)); [exact Fs|exact S0|exact Sm|lia].
Qed.
Lemma fromx_stops : forall fuel m v c x y, finite c -> 0 <= value c -> INR m * (/ (2 * IZR n) * / 2) <= value c -> (4 * Z.to_nat n - m < fuel)%nat -> fromx_loop binary32 fuel h v c x y <> None.
Proof.
  induction fuel as [|fuel IH]; intros m v c x y Fc C0 Cm L; [lia|]. cbn [fromx_loop]. destruct (leb binary32 v (pos _ x)); [discriminate|]. cbn [binary32 leb ofZ add]. destruct (Bleb (fnum 1 0) c) eqn:E; [discriminate|].
  destruct (more_steps m c Fc C0 Cm E) as (Lm & Fs & S0 & Sm). apply (IH (S m)); [exact Fs|exact S0|exact Sm|lia].
Qed.
Lemma h_positive : Bleb h (fnum 0 0) = false.
Proof.
  destruct h_ok as (Fh & _ & H). destruct (ofZ_exact 0 ltac:(reflexivity)) as [F0 V0]. rewrite Bleb_correct by assumption. rewrite V0. apply Rle_bool_false. unfold value in H. lra.
Qed.
Lemma zero_ok : finite (fnum 0 0) /\ value (fnum 0 0) = 0.
Proof. destruct (ofZ_exact 0 ltac:(reflexivity)) as [F0 V0]. split; assumption. Qed.
End Stops.

(** ** Too many steps *)
Definition half : float := fnum 1 (-1).
Definition tiny : float := fnum 1 (-25).
Lemma tiny_ok : finite tiny /\ value tiny = bpow radix2 (-25).
Proof.
  pose proof (binary_normalize_correct prec emax prec_gt_0_ prec_lt_emax_ mode_NE 1 (-25) false) as K. cbn [round_mode] in K. replace (F2R (Float radix2 1 (-25))) with (bpow radix2 (-25)) in K by (unfold F2R; cbn [Fnum Fexp]; ring).
  rewrite round_generic in K; [|auto with typeclass_instances|change (SpecFloat.fexp prec emax) with (FLT_exp (-149) 24); apply generic_format_bpow; vm_compute; discriminate]. rewrite Rlt_bool_true in K by (rewrite Rabs_pos_eq by apply bpow_ge_0; apply bpow_lt; reflexivity). destruct K as (K1 & K2 & _). split; assumption.
Qed.
Lemma half_ok : finite half /\ value half = bpow radix2 (-1).
Proof.
  pose proof (binary_normalize_correct prec emax prec_gt_0_ prec_lt_emax_ mode_NE 1 (-1) false) as K. cbn [round_mode] in K. replace (F2R (Float radix2 1 (-1))) with (bpow radix2 (-1)) in K by (unfold F2R; cbn [Fnum Fexp]; ring).
  rewrite round_generic in K; [|auto with typeclass_instances|change (SpecFloat.fexp prec emax) with (FLT_exp (-149) 24); apply generic_format_bpow; vm_compute; discriminate]. rewrite Rlt_bool_true in K by (rewrite Rabs_pos_eq by apply bpow_ge_0; apply bpow_lt; reflexivity). destruct K as (K1 & K2 & _). split; assumption.
Qed.
Lemma stalls : fadd half tiny = half.
Proof. apply B2SF_inj. vm_compute. reflexivity. Qed.
Definition stuck (c : float) : Prop := finite c /\ exists k, (0 <= k <= 2 ^ 24)%Z /\ value c = IZR k * bpow radix2 (-25).
Lemma stuck_below : forall c, stuck c -> 0 <= value c <= bpow radix2 (-1).
Proof.
  intros c (_ & k & Hk & E). pose proof (bpow_ge_0 radix2 (-25)). rewrite E. split; [apply Rmult_le_pos; [apply (IZR_le 0); lia|assumption]|]. replace (bpow radix2 (-1)) with (IZR (2 ^ 24) * bpow radix2 (-25)). 2: { change (IZR (2 ^ 24)) with (bpow radix2 24). rewrite <- bpow_plus. reflexivity. } apply Rmult_le_compat_r; [assumption|apply IZR_le; lia].
Qed.
Lemma stuck_step : forall c, stuck c -> stuck (fadd c tiny).
Proof.
  intros c S. pose proof (stuck_below c S) as B. destruct S as (Fc & k & Hk & E). destruct tiny_ok as [Ft Vt]. destruct (Z.eq_dec k (2 ^ 24)) as [->|Nk].
  - assert (Ec : value c = bpow radix2 (-1)) by (rewrite E; change (IZR (2 ^ 24)) with (bpow radix2 24); rewrite <- bpow_plus; reflexivity).
    assert (c = half).
    { destruct half_ok as [Fh Vh]. apply B2R_inj; [| |fold (value c); fold (value half); congruence].
      - unfold finite, value in Fc, Ec. clear - Fc Ec. destruct c; try discriminate Fc; [|reflexivity]. cbn [B2R] in Ec. pose proof (bpow_gt_0 radix2 (-1)). lra.
      - vm_compute. reflexivity. }
    subst c. rewrite stalls. split; [exact Fc|exists (2 ^ 24)%Z; split; [lia|exact E]].
  - change (2 ^ 24)%Z with 16777216%Z in *. pose proof (Bplus_correct prec emax _ _ mode_NE c tiny Fc Ft) as K. cbn [round_mode] in K. fold (value c) in K. fold (value tiny) in K. rewrite E, Vt in K. replace (IZR k * bpow radix2 (-25) + bpow radix2 (-25)) with (F2R (Float radix2 (k + 1) (-25))) in K by (unfold F2R; cbn [Fnum Fexp]; rewrite plus_IZR; ring).
    assert (Hr : Rabs (F2R (Float radix2 (k + 1) (-25))) <= bpow radix2 (-1)).
    { unfold F2R. cbn [Fnum Fexp]. rewrite Rabs_pos_eq by (apply Rmult_le_pos; [apply (IZR_le 0); lia|apply bpow_ge_0]). replace (bpow radix2 (-1)) with (IZR 16777216 * bpow radix2 (-25)). 2: { change (IZR 16777216) with (bpow radix2 24). rewrite <- bpow_plus. reflexivity. } apply Rmult_le_compat_r; [apply bpow_ge_0|apply IZR_le; lia]. }
    rewrite round_generic in K; [|auto with typeclass_instances|].
    + rewrite Rlt_bool_true in K by (eapply Rle_lt_trans; [exact Hr|apply bpow_lt; reflexivity]). destruct K as (K1 & K2 & _). split; [exact K2|]. exists (k + 1)%Z. change (2 ^ 24)%Z with 16777216%Z. split; [lia|exact K1].
    + destruct (Z.eq_dec (k + 1) 16777216) as [->|Nk'].
      * replace (F2R (Float radix2 16777216 (-25))) with (bpow radix2 (-1)). 2: { unfold F2R. cbn [Fnum Fexp]. change (IZR 16777216) with (bpow radix2 24). rewrite <- bpow_plus. reflexivity. } change (SpecFloat.fexp prec emax) with (FLT_exp (-149) 24). apply generic_format_bpow. vm_compute. discriminate.
      * change (SpecFloat.fexp prec emax) with (FLT_exp (-149) 24). apply generic_format_FLT. exists (Float radix2 (k + 1) (-25)); cbn [Fnum Fexp]; [reflexivity|change (radix2 ^ 24)%Z with 16777216%Z; lia|lia].
Qed.
Lemma stuck_forever : forall fuel c x y, stuck c -> eval_loop binary32 fuel tiny (fnum 1 0) c x y = None.
Proof.
  induction fuel as [|fuel IH]; intros c x y S; [reflexivity|]. cbn [eval_loop]. cbn [binary32 leb ofZ add].
  assert (E : Bleb (fnum 1 0) c = false). { destruct (ofZ_exact 1 ltac:(reflexivity)) as [F1 V1]. pose proof (stuck_below c S) as B. destruct S as (Fc & _). rewrite Bleb_correct by assumption. rewrite V1. apply Rle_bool_false. fold (value c). assert (bpow radix2 (-1) < 1) by (change 1 with (bpow radix2 0); apply bpow_lt; lia). lra. }
  rewrite E. apply IH, stuck_step, S.
Qed.
Lemma stuck_zero : stuck (fnum 0 0).
Proof. destruct (ofZ_exact 0 ltac:(reflexivity)) as [F0 V0]. split; [exact F0|]. exists 0%Z. split; [lia|]. unfold value. rewrite V0. ring. Qed.
Lemma tiny_h : fdiv (fnum 1 0) (fnum 33554432 0) = tiny.
Proof. apply B2SF_inj. vm_compute. reflexivity. Qed.
