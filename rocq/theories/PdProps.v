(** Printing of floating point numbers: C162 to C167. *)
From Coq Require Import Reals ZArith NArith Bool Lia Lra String List Psatz ZifyBool ZifyNat ZifyN.
From Flocq Require Import Core IEEE754.BinarySingleNaN.
From Verif Require Import Base U128Text DigitsSpec ConvModel ConvSpec Fp DblModel DblSpec PdModel PdSpec.
From Verif Require DigitsProofs FpProofs DblError DblTotal DblProps PdText PdMag PdInt PdNum PdFinite PdValue.
Import ListNotations.
Local Open Scope N_scope.

(** print_double writes [text], into every buffer: all of it, or as much as fits and EOVERFLOW. *)
Definition prints (dbg cw : bool) (v : double) (nan_sign : bool) (flags : N) (precision : Z) (text : list N) : Prop :=
  forall buf maxlen, (maxlen <= length buf)%nat ->
  exists r, print_double dbg cw buf maxlen v nan_sign flags precision = Some r /\ report_print text buf maxlen r.

(** A '-' is written for negative numbers, and with PF_SIGNBIT (bit 7) for a set sign bit. *)
Definition has_minus (v : double) (flags : N) : bool := (N.testbit flags 7 && Bsign v) || Rlt_bool (B2R v) 0.

(** The text written into 64 characters, for concrete cases. *)
Definition shown (v : double) (flags : N) (precision : Z) : option (list N) :=
  match print_double true true (repeat 0 64) 64 v false flags precision with
  | Some (Conv n OK, b) => Some (firstn n b)
  | _ => None
  end.
(** n / 10^k and m * 2^e, rounded to doubles. *)
Definition dec (n k : Z) : double := ddiv (of_int n) (of_int (10 ^ k)).
Definition bin (m e : Z) : double := binary_normalize 53 1024 prec53 emax1024 mode_NE m e false.

Lemma minus_finite : forall v ns flags, is_finite v = true -> PdFinite.shown_minus v ns flags = has_minus v flags.
Proof.
  intros v ns flags F. unfold PdFinite.shown_minus, has_minus. rewrite (FpProofs.finite_not_nan v F), PdFinite.dlt_zero.
  destruct v as [s|s| |s m e B]; try discriminate; f_equal.
  - cbn [B2R]. symmetry. apply Rlt_bool_false. lra.
  - cbn [B2R]. symmetry. destruct s.
    + apply Rlt_bool_true. apply F2R_lt_0. reflexivity.
    + apply Rlt_bool_false. left. apply F2R_gt_0. reflexivity.
Qed.
Lemma signed_value : forall v flags, is_finite v = true -> (PdValue.sign_R (has_minus v flags) * Rabs (B2R v) = B2R v)%R.
Proof.
  intros v flags F. unfold has_minus, PdValue.sign_R. destruct v as [s|s| |s m e B]; try discriminate.
  - cbn [B2R]. rewrite Rabs_R0. ring.
  - assert (N : (B2R (B754_finite s m e B) < 0)%R <-> s = true).
    { cbn [B2R]. destruct s; [split; [reflexivity|]; intros _; apply F2R_lt_0; reflexivity|]. split; [|discriminate]. intros H. exfalso.
      assert ((0 < F2R (Float radix2 (SpecFloat.cond_Zopp false (Z.pos m)) e))%R) by (apply F2R_gt_0; reflexivity). lra. }
    destruct s.
    + rewrite Rlt_bool_true by now apply N. rewrite orb_true_r. rewrite Rabs_left by now apply N. ring.
    + assert (P : (0 <= B2R (B754_finite false m e B))%R) by (apply Rnot_lt_le; rewrite N; discriminate).
      rewrite Rlt_bool_false by assumption. cbn [Bsign]. rewrite andb_false_r. cbn [orb]. rewrite Rabs_pos_eq by assumption. ring.
Qed.

(** * C162 *)

(** Not all numbers can be printed: from 2^64 on, and for some smaller integers already, a conversion to
    uint64_t is out of range, which is undefined; the comments promise +-1e19. 1234567890123456768 is
    printed wrongly. *)
Theorem C162_refuted :
  shown (bin 1 64) 0 2 = None /\ shown (of_int (10 ^ 20)) 0 2 = None /\
  shown (of_int 175921860444189984) 0 2 = None /\
  shown (of_int 1234567890123456768) 0 0 = Some (bytes_of "1234567890123456832").
Proof. repeat split; vm_compute; reflexivity. Qed.

(** nan, the infinities and all numbers below 2^56: the call is defined, and one and the same text is
    reported for every buffer. *)
Theorem C162_partial : forall dbg cw v nan_sign flags precision,
  is_finite v = false \/ (Rabs (B2R v) < IZR (2 ^ 56))%R ->
  exists text, text <> [] /\ prints dbg cw v nan_sign flags precision text.
Proof.
  intros dbg cw v ns flags precision H. destruct (is_finite v) eqn:F.
  - destruct H as [H|H]; [discriminate|].
    destruct (PdFinite.double_ok dbg cw v ns flags precision F H) as (x' & ds & point & fs & _ & C & Fd & _ & K).
    exists (literal_text (PdFinite.printed (PdFinite.shown_minus v ns flags) ds point fs)). split; [|exact K].
    rewrite PdFinite.printed_text by apply Fd. destruct C as (_ & _ & Ne & _). destruct ds; [congruence|]. intros E.
    apply app_eq_nil in E. destruct E as [_ E]. discriminate E.
  - destruct v as [s|s| |s m e B]; try discriminate.
    + eexists. split; [|intros buf maxlen L; apply PdFinite.inf_ok; exact L]. destruct s, (N.testbit flags 6); discriminate.
    + eexists. split; [|intros buf maxlen L; apply PdFinite.nan_ok; [reflexivity|exact L]]. destruct (N.testbit flags 7 && ns), (N.testbit flags 6); discriminate.
Qed.
Lemma below_56 : forall z, (Z.abs z < 2 ^ 53)%Z -> is_finite (of_int z) = true /\ B2R (of_int z) = IZR z.
Proof.
  intros z Hz. unfold of_int. pose proof (binary_normalize_correct 53 1024 prec53 emax1024 mode_NE z 0 false) as C. cbv zeta in C.
  replace (F2R (Float radix2 z 0)) with (IZR z) in C by (unfold F2R; cbn; ring).
  change (round radix2 (SpecFloat.fexp 53 1024) (round_mode mode_NE) (IZR z)) with (FpProofs.rd (IZR z)) in C.
  rewrite FpProofs.rd_int in C by lia. rewrite Rlt_bool_true in C; [tauto|]. rewrite <- abs_IZR.
  apply Rlt_le_trans with (IZR (2 ^ 53)); [now apply IZR_lt|]. rewrite <- PdInt.bpow_Z by lia. apply bpow_le. lia.
Qed.
Example C162_ex : (exists text, prints true true (of_int (-123456)) false 0 3 text) /\
  shown (of_int (-123456)) 0 3 = Some (bytes_of "-123456.000") /\
  print_double true true (repeat 0 64) 9 (of_int (-123456)) false 0 3 = Some (Conv 9 EOVERFLOW, bytes_of "-123456.0" ++ repeat 0 55) /\
  print_double true true (repeat 0 64) 3 (of_int (-123456)) false 0 3 = Some (Conv 3 EOVERFLOW, bytes_of "-" ++ repeat 0 63).
Proof.
  split; [|repeat split; vm_compute; reflexivity].
  destruct (below_56 (-123456) eq_refl) as [F E].
  destruct (C162_partial true true (of_int (-123456)) false 0 3) as (text & _ & P); [right|now exists text].
  rewrite E, <- abs_IZR. apply IZR_lt. reflexivity.
Qed.

(** * C163 *)

(** With a fixed number of digits the result can be far off, if rounding reaches the next integer: the
    digits behind the point are not set to 0 then. *)
Theorem C163_refuted :
  shown (dec 99 2) 0 1 = Some (bytes_of "1.10") /\           (* 0.99 *)
  shown (dec 999 3) 0 2 = Some (bytes_of "1.100") /\         (* 0.999 *)
  shown (dec 895 2) 0 1 = Some (bytes_of "9.9") /\           (* 8.95 *)
  shown (dec 9995 3) 0 2 = Some (bytes_of "10.99") /\        (* 9.995 *)
  shown (dec 100000095 2) 0 1 = Some (bytes_of "1000001.9"). (* 1000000.95 *)
Proof. repeat split; vm_compute; reflexivity. Qed.

(** If it does not: exactly [precision] digits, all digits before the point right, and an error of at
    most half a unit of the last digit (and 2^-52). *)
Theorem C163_fixed_partial : forall dbg cw v nan_sign flags precision,
  is_finite v = true -> (Rabs (B2R v) < IZR (2 ^ 56))%R -> (0 <= precision)%Z -> N.testbit flags 3 = false ->
  carry_free (Rabs (B2R v)) (Z.min 14 precision) ->
  exists l, prints dbg cw v nan_sign flags precision (literal_text l) /\
    plain l (Zfloor (Rabs (B2R v))) /\ lit_minus l = has_minus v flags /\
    length (lit_after l) = Z.to_nat (Z.min 14 precision) /\ lit_point l = (0 <? precision)%Z /\
    (Rabs (literal_value l - B2R v) <= bpow radix10 (- Z.min 14 precision) / 2 + bpow radix2 (-52))%R.
Proof.
  intros dbg cw v ns flags precision F U Hp Hs Cf.
  destruct (PdFinite.double_ok dbg cw v ns flags precision F U) as (x' & ds & point & fs & A & C & Fd & Ld & K).
  assert (Es : shortest flags precision = false) by (unfold shortest; rewrite Hs; lia).
  assert (Ep : used_precision flags precision = Z.min 14 precision) by (unfold used_precision; now rewrite Es).
  assert (Ez : shows_zeros flags precision = true) by (unfold shows_zeros; rewrite Es; apply orb_true_r).
  rewrite Ep in *. rewrite Es, Ez in *. set (p := Z.min 14 precision) in *.
  destruct A as (_ & A & _). specialize (A Cf). subst x'. rewrite minus_finite in K by assumption.
  exists (PdFinite.printed (has_minus v flags) ds point fs). split; [exact K|].
  split; [apply PdValue.printed_well_formed; [exact C|apply Fd|apply Fd]|]. split; [reflexivity|].
  destruct (PdValue.printed_error (has_minus v flags) (Rabs (B2R v)) p ds true false point fs (Rabs_pos _) ltac:(lia) Cf C Fd) as (E & L1 & L2).
  rewrite signed_value in E by assumption. cbn [PdFinite.printed lit_after lit_point].
  assert (Q : length fs = Z.to_nat p /\ point = (0 <? precision)%Z); [|destruct Q; auto].
  destruct Fd as (D & H0 & H1 & H). destruct (Nat.eqb_spec (Z.to_nat p) 0) as [P0|P0].
  - rewrite (H0 H), P0, H. split; [reflexivity|]. lia.
  - assert (P1 : (0 <? precision)%Z = true) by lia. rewrite P1.
    destruct (N.eqb_spec (Z.to_N (PdNum.unit_count (Rabs (B2R v) - IZR (Zfloor (Rabs (B2R v)))) p)) 0) as [Z0|Z0].
    + destruct H as [-> ->]. split; [apply repeat_length|reflexivity].
    + destruct H as [-> H]. cbn [negb orb] in H. destruct H as [_ H]. split; [apply H, L2; lia|reflexivity].
Qed.
(** The hypotheses hold of 3.25, with 3 digits. *)
Lemma value_325 : is_finite (bin 13 (-2)) = true /\ B2R (bin 13 (-2)) = (13 / 4)%R.
Proof. destruct (PdMag.scaled_pos 13 (-2)) as (F & S & E); [lia|lia|]. split; [exact F|]. change (bin 13 (-2)) with (PdMag.scaled 13 (-2)). rewrite E. change (bpow radix2 (-2)) with (/ 4)%R. lra. Qed.
Lemma floor_325 : Zfloor (Rabs (13 / 4)) = 3%Z.
Proof. rewrite Rabs_pos_eq by lra. apply Zfloor_imp. cbn. lra. Qed.
Lemma free_325 : forall p, (1 <= p)%Z -> carry_free (Rabs (13 / 4)) p.
Proof.
  intros p H. unfold carry_free. rewrite floor_325, Rabs_pos_eq by lra.
  assert ((bpow radix10 (- p) <= bpow radix10 (-1))%R) by (apply bpow_le; lia). change (bpow radix10 (-1)) with (/ 10)%R in H0.
  assert ((bpow radix2 (-51) <= / 1024)%R) by (change (/ 1024)%R with (bpow radix2 (-10)); apply bpow_le; lia).
  change (IZR (3 + 1)) with 4%R. lra.
Qed.
Example C163_fixed_ex : (exists l, prints true true (bin 13 (-2)) false 0 3 (literal_text l) /\ length (lit_after l) = 3%nat /\
    (Rabs (literal_value l - 13 / 4) <= bpow radix10 (-3) / 2 + bpow radix2 (-52))%R) /\
  shown (bin 13 (-2)) 0 3 = Some (bytes_of "3.250").
Proof.
  split; [|vm_compute; reflexivity]. destruct value_325 as [F E].
  destruct (C163_fixed_partial true true (bin 13 (-2)) false 0 3) as (l & P & _ & _ & L & _ & V).
  - exact F.
  - rewrite E, Rabs_pos_eq by lra. apply Rlt_trans with 4%R; [lra|]. apply IZR_lt. reflexivity.
  - lia.
  - reflexivity.
  - rewrite E. apply free_325. lia.
  - exists l. rewrite E in V. auto.
Qed.

(** Integers are printed exactly, unless no digit behind the point is asked for. *)
Theorem C163_integer_partial : forall dbg cw v nan_sign flags precision,
  is_finite v = true -> (Rabs (B2R v) < IZR (2 ^ 56))%R -> Rabs (B2R v) = IZR (Zfloor (Rabs (B2R v))) ->
  (precision <> 0)%Z \/ N.testbit flags 3 = true ->
  exists l, prints dbg cw v nan_sign flags precision (literal_text l) /\
    plain l (Zfloor (Rabs (B2R v))) /\ lit_minus l = has_minus v flags /\ literal_value l = B2R v /\
    lit_after l = (if shows_zeros flags precision
                   then if shortest flags precision then [0] else repeat 0 (Z.to_nat (Z.min 14 precision)) else []).
Proof.
  intros dbg cw v ns flags precision F U I Hp.
  destruct (PdFinite.double_ok dbg cw v ns flags precision F U) as (x' & ds & point & fs & A & C & Fd & Ld & K).
  pose proof (PdFinite.used_range flags precision) as Hu.
  assert (P1 : (1 <= used_precision flags precision)%Z).
  { unfold used_precision, shortest. destruct (Z.ltb_spec precision 0); cbn [orb]; [lia|]. destruct (N.testbit flags 3); [lia|].
    destruct Hp as [Hp|Hp]; [lia|discriminate]. }
  destruct A as (_ & _ & _ & A & _). specialize (A P1 I). subst x'. rewrite minus_finite in K by assumption.
  exists (PdFinite.printed (has_minus v flags) ds point fs). split; [exact K|].
  split; [apply PdValue.printed_well_formed; [exact C|apply Fd|apply Fd]|]. split; [reflexivity|].
  rewrite PdValue.printed_value. cbn [PdFinite.printed lit_after].
  rewrite (PdValue.canonical_intR _ ds (PdInt.floor_ge0 _ (Rabs_pos _)) C), <- I.
  replace (Rabs (B2R v) - IZR (Zfloor (Rabs (B2R v))))%R with 0%R in Fd by lra. rewrite PdNum.unit_count_0 in Fd by lia.
  destruct (PdValue.fraction_value _ _ _ _ _ _ Fd) as (_ & _ & V).
  { change (Z.to_N 0) with 0%N. apply N.neq_0_lt_0. apply N.pow_nonzero. lia. }
  rewrite V by lia. change (IZR (Z.of_N (Z.to_N 0))) with 0%R. rewrite Rmult_0_l, Rplus_0_r. split; [now apply signed_value|].
  destruct Fd as (_ & H0 & _ & H). destruct (Nat.eqb_spec (Z.to_nat (used_precision flags precision)) 0); [lia|].
  change (Z.to_N 0 =? 0) with true in H. cbv iota in H. destruct (shows_zeros flags precision); [|now apply H0].
  destruct H as [_ ->]. unfold used_precision. destruct (shortest flags precision); reflexivity.
Qed.
Example C163_integer_ex : (exists l, prints true true (of_int 9007199254740991) false 0 2 (literal_text l) /\ literal_value l = IZR 9007199254740991) /\
  shown (of_int 9007199254740991) 0 2 = Some (bytes_of "9007199254740991.00").
Proof.
  split; [|vm_compute; reflexivity]. destruct (below_56 9007199254740991 eq_refl) as [F E].
  destruct (C163_integer_partial true true (of_int 9007199254740991) false 0 2) as (l & P & _ & _ & V & _).
  - exact F.
  - rewrite E, <- abs_IZR. apply IZR_lt. reflexivity.
  - rewrite E, <- abs_IZR, Zfloor_IZR. reflexivity.
  - left. lia.
  - exists l. rewrite E in V. auto.
Qed.

(** * C164 *)

(** The shortest text: same problem. *)
Theorem C164_refuted : shown (bin (5 * 2 ^ 50 - 6) (-50)) 0 (-1) = Some (bytes_of "5.99999999999999").  (* 4.99999999999999467 *)
Proof. vm_compute. reflexivity. Qed.

Theorem C164_shortest_partial : forall dbg cw v nan_sign flags precision,
  is_finite v = true -> (Rabs (B2R v) < IZR (2 ^ 56))%R -> (precision < 0)%Z \/ N.testbit flags 3 = true ->
  carry_free (Rabs (B2R v)) 14 ->
  exists l, prints dbg cw v nan_sign flags precision (literal_text l) /\
    plain l (Zfloor (Rabs (B2R v))) /\ lit_minus l = has_minus v flags /\
    (length (lit_after l) <= 14)%nat /\
    (no_trailing_zero l \/ (N.testbit flags 4 = true /\ lit_after l = [0])) /\
    (N.testbit flags 4 = true -> lit_point l = true) /\
    (Rabs (literal_value l - B2R v) <= bpow radix10 (-14) / 2 + bpow radix2 (-52))%R.
Proof.
  intros dbg cw v ns flags precision F U Hs Cf.
  destruct (PdFinite.double_ok dbg cw v ns flags precision F U) as (x' & ds & point & fs & A & C & Fd & Ld & K).
  assert (Es : shortest flags precision = true).
  { unfold shortest. destruct Hs as [Hs| ->]; [|apply orb_true_r]. destruct (Z.ltb_spec precision 0); [reflexivity|lia]. }
  assert (Ep : used_precision flags precision = 14%Z) by (unfold used_precision; now rewrite Es).
  assert (Ez : shows_zeros flags precision = N.testbit flags 4) by (unfold shows_zeros; rewrite Es; apply orb_false_r).
  rewrite Ep in *. rewrite Es, Ez in *.
  destruct A as (_ & A & _). specialize (A Cf). subst x'. rewrite minus_finite in K by assumption.
  exists (PdFinite.printed (has_minus v flags) ds point fs). split; [exact K|].
  split; [apply PdValue.printed_well_formed; [exact C|apply Fd|apply Fd]|]. split; [reflexivity|].
  destruct (PdValue.printed_error (has_minus v flags) (Rabs (B2R v)) 14 ds _ _ point fs (Rabs_pos _) ltac:(lia) Cf C Fd) as (E & L1 & L2).
  rewrite signed_value in E by assumption. unfold no_trailing_zero. cbn [PdFinite.printed lit_after lit_point].
  specialize (L2 ltac:(lia)). split; [exact L1|].
  assert (Q : ((if point then last fs 0 <> 0 else fs = []) \/ (N.testbit flags 4 = true /\ fs = [0])) /\ (N.testbit flags 4 = true -> point = true));
    [|destruct Q; auto].
  destruct Fd as (D & H0 & H1 & H). change (Z.to_nat 14 =? 0)%nat with false in H. cbv iota in H.
  destruct (N.eqb_spec (Z.to_N (PdNum.unit_count (Rabs (B2R v) - IZR (Zfloor (Rabs (B2R v)))) 14)) 0) as [Z0|Z0].
  - destruct (N.testbit flags 4).
    + destruct H as [-> ->]. split; [right; auto|reflexivity].
    + rewrite H, (H0 H). split; [now left|discriminate].
  - destruct H as [-> H]. rewrite orb_true_r in H. destruct H as [[H _]|(_ & _ & H)]; [lia|]. split; [now left|reflexivity].
Qed.
Example C164_shortest_ex : (exists l, prints true true (bin 13 (-2)) false 0 (-1) (literal_text l) /\ no_trailing_zero l /\
    (Rabs (literal_value l - 13 / 4) <= bpow radix10 (-14) / 2 + bpow radix2 (-52))%R) /\
  shown (bin 13 (-2)) 0 (-1) = Some (bytes_of "3.25") /\ shown (of_int 7) 0 (-1) = Some (bytes_of "7") /\
  shown (of_int 7) 16 (-1) = Some (bytes_of "7.0").
Proof.
  split; [|repeat split; vm_compute; reflexivity]. destruct value_325 as [F E].
  destruct (C164_shortest_partial true true (bin 13 (-2)) false 0 (-1)) as (l & P & _ & _ & _ & [T|[T _]] & _ & V).
  - exact F.
  - rewrite E, Rabs_pos_eq by lra. apply Rlt_trans with 4%R; [lra|]. apply IZR_lt. reflexivity.
  - left. lia.
  - rewrite E. apply free_325. lia.
  - exists l. rewrite E in V. auto.
  - discriminate T.
Qed.

(** * C165 *)

(** Without digits behind the point the number is not always rounded to the nearest integer: the sums
    v + 0.5 and v + 1 are rounded themselves. *)
Theorem C165_refuted :
  shown (bin (2 ^ 53 - 1) (-53)) 0 0 = Some (bytes_of "2") /\               (* the largest double below 1 *)
  shown (bin (2 ^ 53 - 1) (-52)) 0 0 = Some (bytes_of "3") /\               (* the largest double below 2 *)
  shown (bin (2 ^ 53 - 1) (-54)) 0 0 = Some (bytes_of "1") /\               (* the largest double below 0.5 *)
  shown (of_int 4503599627370497) 0 0 = Some (bytes_of "4503599627370498").
Proof. repeat split; vm_compute; reflexivity. Qed.

(** It is, halves away from 0, if both sums are doubles; and integers from 2^53 on are printed as they
    are. *)
Theorem C165_nearest_partial : forall dbg cw v nan_sign flags,
  is_finite v = true -> N.testbit flags 3 = false ->
  let x := Rabs (B2R v) in
  (x < IZR (2 ^ 56))%R -> (is_double (x + / 2) /\ is_double (x + 1)) \/ (IZR (2 ^ 53) <= x)%R ->
  exists l, prints dbg cw v nan_sign flags 0 (literal_text l) /\
    plain l (Zfloor (x + / 2)) /\ lit_minus l = has_minus v flags /\ lit_point l = false.
Proof.
  intros dbg cw v ns flags F Hs x U H.
  destruct (PdFinite.double_ok dbg cw v ns flags 0 F U) as (x' & ds & point & fs & A & C & Fd & Ld & K).
  assert (Es : shortest flags 0 = false) by (unfold shortest; rewrite Hs; reflexivity).
  assert (Ep : used_precision flags 0 = 0%Z) by (unfold used_precision; now rewrite Es).
  rewrite Ep in *. fold x in A. rewrite minus_finite in K by assumption.
  assert (Ef : Zfloor x' = Zfloor (x + / 2)).
  { destruct A as (_ & _ & A53 & _ & A0). destruct H as [[D1 D2]|B]; [now apply A0|]. rewrite (A53 B).
    assert (I : x = IZR (Zfloor x)).
    { assert (Pv : exists w : double, FpProofs.pos w x).
      { destruct (PdFinite.finite_shown v F ns flags) as [[P _]|(_ & Z & _)]; [eexists; exact P|].
        exists (B754_zero false). unfold x. rewrite Z, Rabs_R0. repeat split. }
      destruct Pv as (w & Pw). destruct (PdMag.pos_repr w x Pw) as (m & e & Hm & He & Ex & _).
      assert (He0 : (0 <= e)%Z).
      { destruct (Z.le_gt_cases 0 e) as [Q|Q]; [assumption|exfalso]. rewrite Ex in B.
        assert (Q2 : (IZR m * bpow radix2 e < IZR (2 ^ 53))%R).
        { apply Rle_lt_trans with (IZR m * 1)%R; [apply Rmult_le_compat_l; [apply IZR_le; lia|]; change 1%R with (bpow radix2 0); apply bpow_le; lia|].
          rewrite Rmult_1_r. apply IZR_lt. lia. }
        lra. }
      rewrite Ex, PdInt.bpow_Z, <- mult_IZR, Zfloor_IZR by assumption. reflexivity. }
    symmetry. rewrite I at 1. apply Zfloor_imp. rewrite plus_IZR. lra. }
  rewrite Ef in C. exists (PdFinite.printed (has_minus v flags) ds point fs). split; [exact K|].
  split; [apply PdValue.printed_well_formed; [exact C|apply Fd|apply Fd]|]. split; [reflexivity|]. apply Fd.
Qed.
Example C165_nearest_ex : (exists l, prints true true (bin (-5) (-1)) false 0 0 (literal_text l) /\ plain l 3 /\ lit_minus l = true) /\
  shown (bin (-5) (-1)) 0 0 = Some (bytes_of "-3") /\ shown (bin 9 (-2)) 0 0 = Some (bytes_of "2").
Proof.
  split; [|repeat split; vm_compute; reflexivity].
  assert (V : is_finite (bin (-5) (-1)) = true /\ B2R (bin (-5) (-1)) = (- (5 / 2))%R).
  { assert (E : bin (-5) (-1) = dneg (bin 5 (-1))) by (apply B2SF_inj; vm_compute; reflexivity). rewrite E.
    destruct (PdMag.scaled_pos 5 (-1)) as (F & S & V); [lia|lia|]. change (PdMag.scaled 5 (-1)) with (bin 5 (-1)) in *. unfold dneg. rewrite is_finite_Bopp, B2R_Bopp, V.
    split; [exact F|]. change (bpow radix2 (-1)) with (/ 2)%R. lra. }
  destruct V as [F E]. assert (Ab : Rabs (- (5 / 2)) = (5 / 2)%R) by (rewrite Rabs_Ropp; apply Rabs_pos_eq; lra).
  assert (Dz : forall z, (Z.abs z < 2 ^ 53)%Z -> is_double (IZR z)).
  { intros z Hz. destruct (below_56 z Hz) as [_ Ez]. rewrite <- Ez. apply generic_format_B2R. }
  destruct (C165_nearest_partial true true (bin (-5) (-1)) false 0 F eq_refl) as (l & P & Q & M & _); cbv zeta in *; rewrite E, Ab in *.
  - apply Rlt_trans with 3%R; [lra|]. apply IZR_lt. reflexivity.
  - left. split.
    + replace (5 / 2 + / 2)%R with (IZR 3) by lra. apply Dz. reflexivity.
    + destruct (PdMag.scaled_pos 7 (-1)) as (_ & _ & V); [lia|lia|]. replace (5 / 2 + 1)%R with (B2R (PdMag.scaled 7 (-1))); [apply generic_format_B2R|].
      rewrite V. change (bpow radix2 (-1)) with (/ 2)%R. lra.
  - exists l. split; [exact P|]. split.
    + replace (Zfloor (5 / 2 + / 2)) with 3%Z in Q; [exact Q|]. symmetry. apply Zfloor_imp. cbn. lra.
    + rewrite M. unfold has_minus. rewrite E, Rlt_bool_true by lra. apply orb_true_r.
Qed.

(** * C166 *)

(** nan, infinities and zeros: exactly these texts, for all flags, precisions and buffers. The sign of a
    nan and of a zero is written with PF_SIGNBIT (bit 7) only; PF_LOWERCASE is bit 6. *)
Theorem C166_special : forall dbg cw s flags precision,
  let minus (b : bool) := if b then [45] else [] in
  prints dbg cw B754_nan s flags precision
    (minus (N.testbit flags 7 && s) ++ (if N.testbit flags 6 then bytes_of "nan" else bytes_of "NAN")) /\
  (forall any, prints dbg cw (B754_infinity s) any flags precision
    (minus s ++ (if N.testbit flags 6 then bytes_of "inf" else bytes_of "INF"))) /\
  (forall any, prints dbg cw (B754_zero s) any flags precision
    (minus (N.testbit flags 7 && s) ++ bytes_of "0" ++
     (if (0 <? used_precision flags precision)%Z && shows_zeros flags precision
      then bytes_of "." ++ (if shortest flags precision then bytes_of "0" else repeat 48 (Z.to_nat (Z.min 14 precision)))
      else []))).
Proof.
  intros dbg cw s flags precision minus. split; [|split].
  - intros buf maxlen L. exact (PdFinite.nan_ok dbg cw B754_nan s flags precision eq_refl buf maxlen L).
  - intros any buf maxlen L. exact (PdFinite.inf_ok dbg cw s any flags precision buf maxlen L).
  - intros any. assert (Z : B2R (B754_zero s : double) = 0%R) by reflexivity.
    destruct (PdFinite.double_ok dbg cw (B754_zero s) any flags precision eq_refl) as (x' & ds & point & fs & A & C & Fd & Ld & K).
    { rewrite Z, Rabs_R0. apply IZR_lt. reflexivity. }
    pose proof (PdFinite.used_range flags precision) as Hu. rewrite Z, Rabs_R0 in A.
    assert (Ex : x' = 0%R).
    { destruct A as (_ & A & _). apply A. unfold carry_free. rewrite (Zfloor_IZR 0).
      assert ((bpow radix10 (- used_precision flags precision) <= bpow radix10 0)%R) by (apply bpow_le; lia). change (bpow radix10 0) with 1%R in H.
      assert ((bpow radix2 (-51) <= / 1024)%R) by (change (/ 1024)%R with (bpow radix2 (-10)); apply bpow_le; lia).
      change (IZR (0 + 1)) with 1%R. lra. }
    subst x'. rewrite (Zfloor_IZR 0) in *. rewrite Rminus_0_r in *. rewrite PdNum.unit_count_0 in Fd by lia.
    assert (Eds : ds = [0]). { apply (DigitsProofs.canonical_unique 10 0); [lia|exact C|]. repeat split; [repeat constructor|discriminate]. }
    rewrite minus_finite in K by reflexivity.
    assert (Em : has_minus (B754_zero s) flags = N.testbit flags 7 && s).
    { unfold has_minus. rewrite Z, Rlt_bool_false by lra. cbn [Bsign]. apply orb_false_r. }
    rewrite Em, PdFinite.printed_text, Eds in K by apply Fd. intros buf maxlen L. destruct (K buf maxlen L) as (r & Er & Rr). exists r. split; [exact Er|].
    match goal with |- report_print ?t _ _ _ => match type of Rr with report_print ?t' _ _ _ => replace t with t'; [exact Rr|] end end.
    unfold minus. f_equal. change (digits_text [0]) with (bytes_of "0"). f_equal.
    destruct Fd as (_ & H0 & _ & H). change (Z.to_N 0 =? 0) with true in H. cbv iota in H.
    destruct (Nat.eqb_spec (Z.to_nat (used_precision flags precision)) 0) as [P0|P0].
    + rewrite H. destruct (Z.ltb_spec 0 (used_precision flags precision)); [lia|reflexivity].
    + destruct (Z.ltb_spec 0 (used_precision flags precision)); [|lia]. cbn [andb]. destruct (shows_zeros flags precision).
      * destruct H as [-> ->]. unfold PdText.fraction_text, used_precision in *. destruct (shortest flags precision); [reflexivity|].
        rewrite PdText.digits_text_zeros. reflexivity.
      * rewrite H. reflexivity.
Qed.
Example C166_ex : shown (B754_zero true) 128 2 = Some (bytes_of "-0.00") /\ shown (B754_zero true) 0 2 = Some (bytes_of "0.00") /\
  shown (B754_infinity true) 64 2 = Some (bytes_of "-inf") /\ shown (B754_zero false) 0 (-1) = Some (bytes_of "0") /\
  shown B754_nan 0 2 = Some (bytes_of "NAN").
Proof. repeat split; vm_compute; reflexivity. Qed.

(** * C167 *)

(** Printing and scanning does not always give the number back. *)
Definition read_back (v : float) : option SpecFloat.spec_float :=
  match shown (of_float v) 0 (-1) with
  | Some text => match scan_float (Some (text ++ [0])) (Some B754_nan) with Some (_, Some d) => Some (B2SF d) | _ => None end
  | None => None
  end.
Definition read_back_double (v : double) : option SpecFloat.spec_float :=
  match shown v 0 (-1) with
  | Some text => match scan_double (Some (text ++ [0])) (Some B754_nan) with Some (_, Some d) => Some (B2SF d) | _ => None end
  | None => None
  end.
Definition fbin (m e : Z) : float := binary_normalize 24 128 prec24 emax128 mode_NE m e false.
Theorem C167_refuted :
  read_back (fbin 1 (-50)) = Some (SpecFloat.S754_zero false) /\                                          (* 2^-50 *)
  B2SF (fbin 1 (-50)) = SpecFloat.S754_finite false 8388608 (-73) /\
  read_back (fbin 1 64) = None /\
  read_back_double (bin 5404319552844596 (-54)) = Some (SpecFloat.S754_finite false 5404319552844595 (-54)) /\  (* 0.30000000000000004 *)
  B2SF (bin 5404319552844596 (-54)) = SpecFloat.S754_finite false 5404319552844596 (-54).
Proof. repeat split; vm_compute; reflexivity. Qed.

(** From 2^-21 on a float is read back unchanged if 14 digits are printed. *)
Theorem C167_float_partial : forall dbg cw (v : float) nan_sign flags precision,
  is_finite v = true -> (bpow radix2 (-21) <= Rabs (B2R v) < IZR (2 ^ 56))%R ->
  (precision < 0)%Z \/ (14 <= precision)%Z \/ N.testbit flags 3 = true ->
  exists text,
    (forall buf maxlen, (maxlen <= length buf)%nat ->
       exists r, print_float dbg cw buf maxlen v nan_sign flags precision = Some r /\ report_print text buf maxlen r) /\
    (forall old more, scan_float (Some (text ++ 0 :: more)) (Some old) = Some (Conv (length text) OK, Some v)) /\
    (forall old range, Forall is_byte range -> scan_float_n (text ++ range) (length text) (Some old) = Some (Conv (length text) OK, Some v)).
Proof.
  intros dbg cw v ns flags precision F [Lo U] Hp.
  destruct (PdValue.of_float_ok v F) as (Fd0 & Sd & Ed).
  assert (Ep : used_precision flags precision = 14%Z).
  { unfold used_precision, shortest. destruct (Z.ltb_spec precision 0); cbn [orb]; [reflexivity|]. destruct (N.testbit flags 3); [reflexivity|].
    destruct Hp as [Hp|[Hp|Hp]]; [lia|lia|discriminate]. }
  rewrite <- Ed in U. destruct (PdFinite.double_ok dbg cw (of_float v) ns flags precision Fd0 U) as (x' & ds & point & fs & A & C & Fd & Ld & K).
  rewrite Ep in *. rewrite Ed in A, U. set (x := Rabs (B2R v)) in *. rewrite minus_finite in K by assumption.
  set (mi := has_minus (of_float v) flags) in *. pose proof (signed_value (of_float v) flags Fd0) as Sv. fold mi in Sv. rewrite Ed in Sv. fold x in Sv.
  assert (X0 : (0 <= x)%R) by apply Rabs_pos.
  assert (L21 : (bpow radix2 (-21) = / 2097152)%R) by reflexivity.
  (* the printed value is close *)
  assert (V : Zfloor x' = Zfloor x /\ (length fs <= 14)%nat /\
    (Rabs (literal_value (PdFinite.printed mi ds point fs) - B2R v) <= bpow radix10 (-14) / 2 + bpow radix2 (-52))%R).
  { destruct (PdValue.float_carry_free v F Lo) as [I|[Cf _]]; [fold x in I|fold x in Cf].
    - destruct A as (_ & _ & _ & A & _). specialize (A ltac:(lia) I). subst x'. split; [reflexivity|].
      replace (x - IZR (Zfloor x))%R with 0%R in Fd by lra. rewrite PdNum.unit_count_0 in Fd by lia.
      destruct (PdValue.fraction_value _ _ _ _ _ _ Fd) as (L1 & _ & V); [reflexivity|]. split; [exact L1|].
      rewrite PdValue.printed_value, (PdValue.canonical_intR _ ds (PdInt.floor_ge0 _ X0) C), <- I, V by lia.
      change (IZR (Z.of_N (Z.to_N 0))) with 0%R. rewrite Rmult_0_l, Rplus_0_r, Sv, Rminus_eq_0, Rabs_R0.
      pose proof (bpow_gt_0 radix10 (-14)). pose proof (bpow_gt_0 radix2 (-52)). lra.
    - destruct A as (_ & A & _). specialize (A Cf). subst x'. split; [reflexivity|].
      destruct (PdValue.printed_error mi x 14 ds _ _ point fs X0 ltac:(lia) Cf C Fd) as (E & L1 & _). rewrite Sv in E. split; [exact L1|exact E]. }
  destruct V as (Ef & L14 & V). rewrite Ef in *.
  set (l := PdFinite.printed mi ds point fs) in *. set (y := literal_value l) in *.
  pose proof (PdValue.printed_well_formed mi ds point fs (Zfloor x) C ltac:(apply Fd) ltac:(apply Fd)) as (W & X & _). fold l in W, X.
  assert (Small : (bpow radix10 (-14) / 2 + bpow radix2 (-52) <= 53 / 10000000000000000)%R).
  { change (bpow radix10 (-14)) with (/ 100000000000000)%R. change (bpow radix2 (-52)) with (/ 4503599627370496)%R. lra. }
  assert (Yx : (Rabs (Rabs y - x) <= 53 / 10000000000000000)%R).
  { eapply Rle_trans; [apply Rabs_triang_inv2|]. lra. }
  assert (Yb : (bpow radix2 (-22) <= Rabs y <= IZR (2 ^ 57))%R).
  { apply DblError.abs_bounds in Yx. rewrite L21 in Lo. split.
    - change (bpow radix2 (-22)) with (/ 4194304)%R. lra.
    - apply Rle_trans with (IZR (2 ^ 56) + 1)%R; [lra|]. rewrite <- plus_IZR. apply IZR_le. vm_compute. discriminate. }
  assert (Lds : (length ds <= 17)%nat).
  { destruct (Nat.le_gt_cases (length ds) 17) as [Q|Q]; [assumption|exfalso].
    destruct (DigitsProofs.canonical_count 10 _ ds ltac:(lia) C) as (_ & _ & Q2). specialize (Q2 ltac:(lia)).
    assert (Q3 : 10 ^ 17 <= 10 ^ N.of_nat (length ds - 1)) by (apply N.pow_le_mono_r; lia).
    pose proof (PdInt.floor_lt x _ U) as Q4. pose proof (PdInt.floor_ge0 x X0).
    assert (Q5 : (Z.to_N (Zfloor x) < Z.to_N (2 ^ 56))%N) by lia.
    assert (Q6 : (Z.to_N (2 ^ 56) <= 10 ^ 17)%N) by (vm_compute; discriminate). lia. }
  assert (PP : point_position l = length ds).
  { unfold point_position, exponent_value, all_digits. rewrite X, app_length. unfold l. cbn [PdFinite.printed lit_before lit_after]. lia. }
  assert (MB : moved_before l = ds).
  { unfold moved_before. rewrite PP. unfold all_digits, l. cbn [PdFinite.printed lit_before lit_after]. rewrite firstn_app, Nat.sub_diag, firstn_all. apply app_nil_r. }
  assert (MA : moved_after l = fs).
  { unfold moved_after. rewrite PP. unfold all_digits, l. cbn [PdFinite.printed lit_before lit_after]. rewrite skipn_app, Nat.sub_diag, skipn_all. reflexivity. }
  assert (Sig : forall a, (length (significant a) <= length a)%nat).
  { induction a as [|c a IH]; [reflexivity|]. cbn [significant]. destruct (c =? 0); cbn [length]; lia. }
  assert (LT : (Z.of_nat (length (literal_text l)) <= 2147483647)%Z).
  { unfold l. rewrite PdFinite.printed_text by apply Fd. unfold PdText.fraction_text. rewrite !app_length, PdText.digits_text_length.
    destruct mi, point; cbn [length]; rewrite ?PdText.digits_text_length; lia. }
  assert (LB : DblProps.literal_before l []).
  { split; [exact W|]. split; [apply DblProps.ends_before_end|]. split; [constructor|exact LT]. }
  destruct (DblProps.C45_value_partial l [] LB) as (d & D & Fin & Sg & Er).
  { unfold exponent_value. rewrite X. lia. }
  { intros [H _]. rewrite PP in H. unfold l in H. cbn [PdFinite.printed lit_before] in H. lia. }
  { rewrite MB. pose proof (Sig ds). lia. }
  { rewrite MA. lia. }
  { fold y. split; [eapply Rle_trans; [|apply Yb]; apply bpow_le; lia|]. eapply Rle_trans; [apply Yb|]. rewrite <- PdInt.bpow_Z by lia. apply bpow_le. lia. }
  fold y in Er.
  assert (B50 : (bpow radix2 (-50) = / 1125899906842624)%R) by reflexivity.
  assert (Near : (Rabs (B2R d - B2R v) < Rabs (B2R v) * bpow radix2 (-26))%R).
  { fold x. replace (B2R d - B2R v)%R with ((B2R d - y) + (y - B2R v))%R by ring. eapply Rle_lt_trans; [apply Rabs_triang|].
    apply DblError.abs_bounds in Yx. rewrite B50 in Er. rewrite L21 in Lo. change (bpow radix2 (-26)) with (/ 67108864)%R. lra. }
  assert (Bd : (Rabs (B2R d) <= bpow radix2 127)%R).
  { pose proof (Rabs_triang_inv (B2R d) (B2R v)) as T. fold x in T. change (bpow radix2 (-26)) with (/ 67108864)%R in Near.
    apply Rle_trans with (2 * IZR (2 ^ 56))%R; [fold x in Near; lra|]. rewrite <- mult_IZR. change (2 * 2 ^ 56)%Z with (2 ^ 57)%Z.
    rewrite <- PdInt.bpow_Z by lia. apply bpow_le. lia. }
  destruct (DblTotal.to_float_ok d Fin Bd) as (T1 & T2 & T3).
  assert (Vn : B2R v <> 0%R). { intros Q. unfold x in Lo. rewrite Q, Rabs_R0, L21 in Lo. lra. }
  assert (Tv : to_float d = v).
  { apply B2R_Bsign_inj; [exact T1|exact F| |].
    - rewrite T3. apply PdValue.float_nearest; [|exact Vn|exact Near]. exact (generic_format_B2R 24 128 v).
    - rewrite T2, Sg. unfold l, mi. cbn [PdFinite.printed lit_minus]. unfold has_minus. rewrite Ed, Sd.
      destruct v as [s|s| |s m e B]; try discriminate F; [cbn in Vn; lra|]. cbn [Bsign]. destruct s.
      + rewrite Rlt_bool_true by (apply F2R_lt_0; reflexivity). apply orb_true_r.
      + rewrite andb_false_r, Rlt_bool_false by (left; apply F2R_gt_0; reflexivity). reflexivity. }
  exists (literal_text l). split; [exact K|].
  assert (Ne : (length (literal_text l) =? 0)%nat = false).
  { apply Nat.eqb_neq. unfold l. rewrite PdFinite.printed_text by apply Fd. rewrite !app_length, PdText.digits_text_length.
    destruct C as (_ & _ & Nd & _). destruct ds; [congruence|cbn [length]; lia]. }
  split.
  - intros old more. destruct (D (of_int 0) more [] ltac:(cbn; tauto) ltac:(constructor)) as [D1 _]. cbn [app] in D1.
    unfold scan_float. rewrite D1. unfold scan_float_finish. cbn [cv_size cv_ec errc_eqb]. rewrite Ne, Tv. reflexivity.
  - intros old range Fr. destruct (D (of_int 0) [] range ltac:(cbn; tauto) Fr) as [_ D2]. cbn [app] in D2. rewrite app_nil_r in D2.
    unfold scan_float_n. rewrite D2. unfold scan_float_finish. cbn [cv_size cv_ec errc_eqb]. rewrite Ne, Tv. reflexivity.
Qed.
Example C167_float_ex : (exists text, forall old more, scan_float (Some (text ++ 0 :: more)) (Some old) = Some (Conv (length text) OK, Some (fbin 13421773 (-27)))) /\
  shown (of_float (fbin 13421773 (-27))) 0 (-1) = Some (bytes_of "0.10000000149012").  (* 0.1f *)
Proof.
  split; [|vm_compute; reflexivity].
  assert (N : is_finite (fbin 13421773 (-27)) = true /\ B2R (fbin 13421773 (-27)) = (13421773 / 134217728)%R).
  { pose proof (binary_normalize_correct 24 128 prec24 emax128 mode_NE 13421773 (-27) false) as N. cbv zeta in N.
    assert (V : F2R (Float radix2 13421773 (-27)) = (13421773 / 134217728)%R) by (unfold F2R; cbn [Fnum Fexp]; change (bpow radix2 (-27)) with (/ 134217728)%R; lra).
    assert (G : round radix2 (SpecFloat.fexp 24 128) (round_mode mode_NE) (F2R (Float radix2 13421773 (-27))) = F2R (Float radix2 13421773 (-27))).
    { apply round_generic; [apply valid_rnd_N|]. change (SpecFloat.fexp 24 128) with (FLT_exp (-149) 24). apply generic_format_FLT.
      apply (FLT_spec _ _ _ _ (Float radix2 13421773 (-27))); [reflexivity|reflexivity|vm_compute; discriminate]. }
    rewrite G in N. rewrite Rlt_bool_true in N; [rewrite V in N; tauto|]. rewrite V, Rabs_pos_eq by lra.
    apply Rlt_trans with 1%R; [lra|]. change 1%R with (bpow radix2 0). apply bpow_lt. lia. }
  destruct N as [F V].
  destruct (C167_float_partial true true (fbin 13421773 (-27)) false 0 (-1) F) as (text & _ & S & _).
  - rewrite V, Rabs_pos_eq by lra. split.
    + change (bpow radix2 (-21)) with (/ 2097152)%R. lra.
    + apply Rlt_trans with 1%R; [lra|]. apply IZR_lt. reflexivity.
  - left. lia.
  - exists text. exact S.
Qed.

Print Assumptions C162_refuted.
Print Assumptions C162_partial.
Print Assumptions C163_refuted.
Print Assumptions C163_fixed_partial.
Print Assumptions C163_integer_partial.
Print Assumptions C164_refuted.
Print Assumptions C164_shortest_partial.
Print Assumptions C165_refuted.
Print Assumptions C165_nearest_partial.
Print Assumptions C166_special.
Print Assumptions C167_refuted.
Print Assumptions C167_float_partial.
