(** Floating point scanning: C45, C95, C96. *)
From Coq Require Import Reals ZArith NArith Bool Lia Lra String List SpecFloat.
From Flocq Require Import Core IEEE754.BinarySingleNaN.
From Verif Require Import Base U128Text DigitsSpec Fp DblModel DblSpec.
From Verif Require FpProofs DblScan DblLex DblError DblValue DblTotal.
Import ListNotations.
Local Open Scope N_scope.

(** [text] is the literal [l], [rest] does not continue it, and it is not absurdly long (lengths are
    ints in the code). *)
Definition literal_before (l : literal) (rest : list N) : Prop :=
  well_formed l /\ ends_before l rest /\ Forall is_byte rest /\
  (Z.of_nat (length (literal_text l)) <= 2147483647)%Z.

Lemma literal_before_at : forall l rest, literal_before l rest -> DblLex.literal_at l rest.
Proof.
  intros l rest (W & E & F & L). split; [now apply DblLex.well_formed_lexical|]. split; [assumption|]. split; [assumption|].
  rewrite DblLex.literal_text_length in L. lia.
Qed.

(** Both functions are given the literal, once in front of a terminated string, once at the start of a
    range, and store [d]. *)
Definition scans_as (l : literal) (rest : list N) (d : double) : Prop :=
  forall old more range,
  ~ In 0 rest -> Forall is_byte range ->
  scan_double (Some (literal_text l ++ rest ++ 0 :: more)) (Some old) = Some (Conv (length (literal_text l)) OK, Some d) /\
  scan_double_n (literal_text l ++ rest ++ range) (length (literal_text l ++ rest)) (Some old)
    = Some (Conv (length (literal_text l)) OK, Some d).

Lemma scans_as_double : forall l rest d, literal_before l rest -> (Z.abs (exponent_value l) <= 511)%Z ->
  DblLex.literal_double l = Some d -> scans_as l rest d.
Proof.
  intros l rest d LB E D old more range N0 F. pose proof (literal_before_at _ _ LB) as LA. rewrite app_length.
  rewrite DblLex.scan_double_literal, DblLex.scan_double_n_literal by assumption.
  rewrite DblTotal.literal_result_ok, D by assumption. split; reflexivity.
Qed.

(** Well-formedness of the example literals. *)
Local Ltac wf :=
  unfold well_formed; cbn; split; [repeat constructor|]; split; [repeat constructor|];
  split; [left; discriminate|]; split; [try reflexivity; discriminate|];
  first [exact I | split; [repeat constructor|discriminate]].
Lemma ends_before_end : forall l, ends_before l [].
Proof.
  intros l. split; [intros []|]. intros _. split; [|discriminate]. intros (e & more & _ & _ & E). discriminate E.
Qed.

(** * C45 *)

(** The claim is false. *)
Definition wrong_1 := Literal false [0] true [5] (Some (ExponentPart false None [1])).             (* 0.5e1 *)
Definition wrong_2 := Literal false [0] true [0;5;1;2] (Some (ExponentPart false None [3])).       (* 0.0512e3 *)
Definition wrong_3 := Literal false [0] true (repeat 0 18 ++ [1]) None.                            (* 0.0000000000000000001 *)
Definition wrong_4 := Literal false (1 :: repeat 0 18) false [] None.                              (* 1000000000000000000 *)
Definition wrong_5 := Literal false [0] false [] (Some (ExponentPart false None [3;0;9])).         (* 0e309 *)
Definition scanned (l : literal) : option spec_float :=
  match scan_double (Some (literal_text l ++ [0])) (Some (of_int 7)) with
  | Some (_, Some d) => Some (B2SF d)
  | _ => None
  end.

Theorem C45_refuted :
  literal_text wrong_1 = bytes_of "0.5e1" /\ literal_value wrong_1 = 5%R /\
    scanned wrong_1 = Some (S754_zero false) /\
  literal_text wrong_2 = bytes_of "0.0512e3" /\ literal_value wrong_2 = (512 / 10)%R /\
    scanned wrong_2 = Some (B2SF (ddiv (of_int 51) (of_int 10))) /\
  literal_text wrong_3 = bytes_of "0.0000000000000000001" /\ literal_value wrong_3 = bpow radix10 (-19) /\
    scanned wrong_3 = Some (S754_zero false) /\
  literal_text wrong_4 = bytes_of "1000000000000000000" /\ literal_value wrong_4 = bpow radix10 18 /\
    scanned wrong_4 = Some (B2SF (of_int (10 ^ 17))) /\
  literal_text wrong_5 = bytes_of "0e309" /\ literal_value wrong_5 = 0%R /\
    scanned wrong_5 = Some S754_nan.
Proof.
  split; [reflexivity|]. split; [unfold literal_value; cbn; lra|]. split; [vm_compute; reflexivity|].
  split; [reflexivity|]. split; [unfold literal_value; cbn; lra|]. split; [vm_compute; reflexivity|].
  split; [reflexivity|]. split; [unfold literal_value; cbn [lit_minus wrong_3]|]. 
  { change (number 10 (all_digits wrong_3)) with 1. change (exponent_value wrong_3 - Z.of_nat (length (lit_after wrong_3)))%Z with (-19)%Z.
    change (Z.of_N 1) with 1%Z. ring. }
  split; [vm_compute; reflexivity|].
  split; [reflexivity|]. split.
  { unfold literal_value. cbn [lit_minus wrong_4].
    change (exponent_value wrong_4 - Z.of_nat (length (lit_after wrong_4)))%Z with 0%Z.
    change (number 10 (all_digits wrong_4)) with 1000000000000000000. rewrite (DblError.bpow10_Z 18) by lia.
    change (10 ^ 18)%Z with 1000000000000000000%Z. change (Z.of_N 1000000000000000000) with 1000000000000000000%Z. cbn [bpow]. ring. }
  split; [vm_compute; reflexivity|].
  split; [reflexivity|]. split.
  { unfold literal_value. change (number 10 (all_digits wrong_5)) with 0. cbn [Z.of_N]. ring. }
  vm_compute; reflexivity.
Qed.

(** True for literals where the scanner can keep all digits and finds the point: at most 18 significant
    digits before the point and at most 18 digits behind it (after the exponent moved it), and not only
    zeros in front of a point that moves to the right; and where the number is in the range of doubles.
    The relative error is at most 2^-50, 8 times that of the nearest double. *)
Theorem C45_value_partial : forall l rest,
  literal_before l rest -> (Z.abs (exponent_value l) <= 511)%Z ->
  ~ point_after_zeros l ->
  (length (significant (moved_before l)) <= 18)%nat -> (length (moved_after l) <= 18)%nat ->
  (bpow radix2 (-1021) <= Rabs (literal_value l) <= bpow radix2 1023)%R ->
  exists d, scans_as l rest d /\ is_finite d = true /\ Bsign d = lit_minus l /\
    (Rabs (B2R d - literal_value l) <= bpow radix2 (-50) * Rabs (literal_value l))%R.
Proof.
  intros l rest LB E NP Ls La R. pose proof (literal_before_at _ _ LB) as (Lx & _).
  assert (M : (bpow radix2 (-1021) <= DblValue.magnitude l <= bpow radix2 1023)%R).
  { rewrite DblValue.literal_value_magnitude, Rabs_mult in R.
    replace (Rabs (if lit_minus l then -1 else 1)) with 1%R in R by (destruct (lit_minus l); unfold Rabs; destruct (Rcase_abs _); lra).
    rewrite Rmult_1_l, Rabs_pos_eq in R; [assumption|]. unfold DblValue.magnitude.
    apply Rmult_le_pos; [|left; apply bpow_gt_0]. apply Rplus_le_le_0_compat; [apply DblError.intR_ge|].
    apply Rmult_le_pos; [apply DblError.intR_ge|left; apply Rinv_0_lt_compat, bpow_gt_0]. }
  destruct (DblValue.value_close l Lx NP Ls La M) as (d & D & F & S & V).
  exists d. split; [now apply scans_as_double|]. now split.
Qed.
(** -123.456e-7, followed by a comma *)
Definition ex_1 := Literal true [1;2;3] true [4;5;6] (Some (ExponentPart false (Some true) [7])).
Example C45_value_ex : exists d, scans_as ex_1 (bytes_of ", 5") d /\ is_finite d = true /\ Bsign d = true /\
  (Rabs (B2R d - - (123456 / 10000000000)) <= bpow radix2 (-50) * (123456 / 10000000000))%R.
Proof.
  assert (V : literal_value ex_1 = (- (123456 / 10000000000))%R).
  { unfold literal_value. change (exponent_value ex_1 - Z.of_nat (length (lit_after ex_1)))%Z with (-10)%Z.
    change (number 10 (all_digits ex_1)) with 123456. cbn [lit_minus ex_1 Z.of_N]. change (bpow radix10 (-10)) with (/ 10000000000)%R. lra. }
  assert (A : Rabs (literal_value ex_1) = (123456 / 10000000000)%R) by (rewrite V, Rabs_Ropp; apply Rabs_pos_eq; lra).
  destruct (C45_value_partial ex_1 (bytes_of ", 5")) as (d & D & F & S & Q).
  - split; [|split; [|split]].
    + wf.
    + split; [cbn; unfold is_decimal_char; lia|discriminate].
    + repeat constructor.
    + cbn. lia.
  - vm_compute; first [discriminate | lia].
  - intros [H _]. revert H. vm_compute. lia.
  - vm_compute; first [discriminate | lia].
  - vm_compute; first [discriminate | lia].
  - rewrite A. split.
    + apply Rle_trans with (bpow radix2 (-20)); [apply bpow_le; lia|]. change (bpow radix2 (-20)) with (/ 1048576)%R. lra.
    + apply Rle_trans with (bpow radix2 0); [cbn; lra|apply bpow_le; lia].
  - exists d. rewrite V in *. rewrite A in Q. now split.
Qed.

(** All zeros. *)
Theorem C45_zero_partial : forall l rest,
  literal_before l rest -> (Z.abs (exponent_value l) <= 511)%Z ->
  literal_value l = 0%R -> ~ point_after_zeros l ->
  (length (moved_after l) <= 18)%nat -> (-308 <= left_exponent l <= 308)%Z ->
  exists d, scans_as l rest d /\ is_finite d = true /\ Bsign d = lit_minus l /\ B2R d = 0%R.
Proof.
  intros l rest LB E V NP La He. pose proof (literal_before_at _ _ LB) as (Lx & _).
  destruct (DblValue.value_zero l Lx) as (d & D & Q); [|assumption|assumption|assumption|].
  - unfold literal_value in V. apply Rmult_integral in V. destruct V as [V|V].
    + apply Rmult_integral in V. destruct V as [V|V]; [destruct (lit_minus l); lra|].
      apply eq_IZR in V. lia.
    + pose proof (bpow_gt_0 radix10 (exponent_value l - Z.of_nat (length (lit_after l)))). lra.
  - exists d. split; [now apply scans_as_double|assumption].
Qed.
Definition ex_2 := Literal true [0] true [0;0] None.                                             (* -0.00 *)
Example C45_zero_ex : exists d, scans_as ex_2 [] d /\ is_finite d = true /\ Bsign d = true /\ B2R d = 0%R.
Proof.
  apply (C45_zero_partial ex_2 []).
  - split; [|split; [|split]].
    + wf.
    + apply ends_before_end.
    + constructor.
    + cbn. lia.
  - vm_compute; first [discriminate | lia].
  - unfold literal_value. change (number 10 (all_digits ex_2)) with 0. cbn [Z.of_N]. ring.
  - intros [H _]. revert H. vm_compute. lia.
  - vm_compute; first [discriminate | lia].
  - vm_compute. split; discriminate.
Qed.

(** Integers of up to 15 digits times a power of ten up to 22, and fractions of up to 15 significant
    digits (up to 18 places), are rounded to the nearest double; in particular integers of up to 15
    digits are exact. *)
Theorem C45_nearest_partial : forall l rest,
  literal_before l rest -> (Z.abs (exponent_value l) <= 511)%Z -> ~ point_after_zeros l ->
  (moved_after l = [] /\ (length (significant (moved_before l)) <= 15)%nat /\ (0 <= left_exponent l <= 22)%Z) \/
  (number 10 (moved_before l) = 0%N /\ (length (moved_after l) <= 18)%nat /\
   (length (significant (moved_after l)) <= 15)%nat /\ left_exponent l = 0%Z) ->
  exists d, scans_as l rest d /\ is_finite d = true /\ Bsign d = lit_minus l /\
    B2R d = round radix2 (FLT_exp (-1074) 53) ZnearestE (literal_value l).
Proof.
  intros l rest LB E NP H. pose proof (literal_before_at _ _ LB) as (Lx & _).
  destruct (DblValue.value_rounded l Lx NP H) as (d & D & Q).
  exists d. split; [now apply scans_as_double|assumption].
Qed.
Definition ex_3 := Literal false [0] true [3;1;4;1;5;9] None.                                    (* 0.314159 *)
Example C45_nearest_ex : exists d, scans_as ex_3 [] d /\
  B2R d = round radix2 (FLT_exp (-1074) 53) ZnearestE (314159 / 1000000).
Proof.
  destruct (C45_nearest_partial ex_3 []) as (d & D & F & S & V).
  - split; [|split; [|split]].
    + wf.
    + apply ends_before_end.
    + constructor.
    + cbn. lia.
  - vm_compute; first [discriminate | lia].
  - intros [H _]. revert H. vm_compute. lia.
  - right. repeat split; vm_compute; lia.
  - exists d. split; [assumption|]. rewrite V. f_equal.
    unfold literal_value. change (exponent_value ex_3 - Z.of_nat (length (lit_after ex_3)))%Z with (-6)%Z.
    change (number 10 (all_digits ex_3)) with 314159. cbn [lit_minus ex_3 Z.of_N].
    change (bpow radix10 (-6)) with (/ 1000000)%R. lra.
Qed.
Theorem C45_integer_exact : forall l rest,
  literal_before l rest -> lit_exponent l = None -> lit_after l = [] ->
  (length (significant (lit_before l)) <= 15)%nat ->
  exists d, scans_as l rest d /\ is_finite d = true /\ Bsign d = lit_minus l /\ B2R d = literal_value l.
Proof.
  intros l rest LB X A L15.
  assert (PP : point_position l = length (lit_before l)).
  { unfold point_position, exponent_value. rewrite X, DblLex.all_digits_length, A. cbn [length]. lia. }
  assert (MB : moved_before l = lit_before l).
  { unfold moved_before, all_digits. rewrite PP, A, app_nil_r. apply firstn_all. }
  assert (MA : moved_after l = []).
  { unfold moved_after, all_digits. rewrite PP, A, app_nil_r. apply skipn_all. }
  destruct (C45_nearest_partial l rest LB) as (d & D & F & S & V).
  - unfold exponent_value. rewrite X. lia.
  - intros [H _]. lia.
  - left. rewrite MB. split; [assumption|]. split; [assumption|].
    unfold left_exponent, exponent_value. rewrite X, PP. lia.
  - exists d. split; [assumption|]. split; [assumption|]. split; [assumption|]. rewrite V.
    fold (FpProofs.rd (literal_value l)).
    assert (E : literal_value l = IZR ((if lit_minus l then -1 else 1) * Z.of_N (number 10 (lit_before l)))).
    { unfold literal_value, exponent_value, all_digits. rewrite X, A, app_nil_r. cbn [length Z.of_nat Z.sub Z.add Z.opp bpow].
      rewrite mult_IZR. destruct (lit_minus l); ring. }
    rewrite E. apply FpProofs.rd_int. destruct LB as ((Db & _) & _).
    pose proof (DigitsProofs.number_lt 10 _ ltac:(lia) (DblValue.significant_decimal _ Db)) as NL.
    rewrite DblValue.significant_number in NL.
    assert (10 ^ N.of_nat (length (significant (lit_before l))) <= 10 ^ 15) by (apply N.pow_le_mono_r; lia).
    assert (number 10 (lit_before l) < 1000000000000000) by (change 1000000000000000 with (10 ^ 15); lia).
    destruct (lit_minus l); lia.
Qed.
Example C45_integer_ex : exists d, scans_as (Literal true [0;0;9;0;0;7;1;9;9;2;5;4] false [] None) [] d /\ B2R d = (-9007199254)%R.
Proof.
  destruct (C45_integer_exact (Literal true [0;0;9;0;0;7;1;9;9;2;5;4] false [] None) []) as (d & D & F & S & V).
  - split; [|split; [|split]].
    + wf.
    + apply ends_before_end.
    + constructor.
    + cbn. lia.
  - reflexivity.
  - reflexivity.
  - vm_compute; first [discriminate | lia].
  - exists d. split; [assumption|]. rewrite V. unfold literal_value. cbn. lra.
Qed.

(** scan_float: the error is at most 2^-23 of the number, twice that of the nearest float. *)
Theorem C45_float_partial : forall l rest,
  literal_before l rest -> (Z.abs (exponent_value l) <= 511)%Z ->
  ~ point_after_zeros l ->
  (length (significant (moved_before l)) <= 18)%nat -> (length (moved_after l) <= 18)%nat ->
  (bpow radix2 (-125) <= Rabs (literal_value l) <= bpow radix2 126)%R ->
  exists f : float, is_finite f = true /\ Bsign f = lit_minus l /\
    (Rabs (B2R f - literal_value l) <= bpow radix2 (-23) * Rabs (literal_value l))%R /\
    forall old more range, ~ In 0 rest -> Forall is_byte range ->
    scan_float (Some (literal_text l ++ rest ++ 0 :: more)) (Some old) = Some (Conv (length (literal_text l)) OK, Some f) /\
    scan_float_n (literal_text l ++ rest ++ range) (length (literal_text l ++ rest)) (Some old)
      = Some (Conv (length (literal_text l)) OK, Some f).
Proof.
  intros l rest LB E NP Ls La R.
  destruct (C45_value_partial l rest LB E NP Ls La) as (d & D & F & S & V).
  { destruct R as [R1 R2]. split.
    - eapply Rle_trans; [apply bpow_le|exact R1]. lia.
    - eapply Rle_trans; [exact R2|apply bpow_le]. lia. }
  destruct (DblTotal.float_close d _ F V R) as (T1 & T2 & T3).
  exists (to_float d). split; [assumption|]. split; [congruence|]. split; [assumption|].
  intros old more range N0 Fr. destruct (D (of_int 0) more range N0 Fr) as [D1 D2].
  unfold scan_float, scan_float_n. rewrite D1, D2. unfold scan_float_finish. cbn [cv_size cv_ec errc_eqb].
  assert (Ne : (length (literal_text l) =? 0)%nat = false).
  { apply Nat.eqb_neq. rewrite DblLex.literal_text_length.
    pose proof (DblLex.mantissa_nonempty l (proj1 (literal_before_at _ _ LB))). lia. }
  rewrite Ne. split; reflexivity.
Qed.
Example C45_float_ex : exists f : float, (Rabs (B2R f - - (123456 / 10000000000)) <= bpow radix2 (-23) * (123456 / 10000000000))%R /\
  exists r, scan_float (Some (bytes_of "-123.456e-7" ++ [0])) (Some f) = Some (r, Some f).
Proof.
  assert (V : literal_value ex_1 = (- (123456 / 10000000000))%R).
  { unfold literal_value. change (exponent_value ex_1 - Z.of_nat (length (lit_after ex_1)))%Z with (-10)%Z.
    change (number 10 (all_digits ex_1)) with 123456. cbn [lit_minus ex_1 Z.of_N]. change (bpow radix10 (-10)) with (/ 10000000000)%R. lra. }
  assert (A : Rabs (literal_value ex_1) = (123456 / 10000000000)%R) by (rewrite V, Rabs_Ropp; apply Rabs_pos_eq; lra).
  destruct (C45_float_partial ex_1 []) as (f & F & S & Q & D).
  - split; [|split; [|split]].
    + wf.
    + apply ends_before_end.
    + constructor.
    + cbn. lia.
  - vm_compute; first [discriminate | lia].
  - intros [H _]. revert H. vm_compute. lia.
  - vm_compute; first [discriminate | lia].
  - vm_compute; first [discriminate | lia].
  - rewrite A. split.
    + apply Rle_trans with (bpow radix2 (-20)); [apply bpow_le; lia|]. change (bpow radix2 (-20)) with (/ 1048576)%R. lra.
    + apply Rle_trans with (bpow radix2 0); [cbn; lra|apply bpow_le; lia].
  - exists f. rewrite A, V in Q. split; [assumption|].
    destruct (D f [] [] ltac:(cbn; tauto) ltac:(constructor)) as [D1 _]. eexists. exact D1.
Qed.

(** Two ways to write the same number do not always give the same double. *)
Theorem C45_notation_refuted :
  let a := Literal false [7] false [] (Some (ExponentPart false (Some true) [3])) in   (* 7e-3 *)
  let b := Literal false [0] true [0;0;7] None in                                       (* 0.007 *)
  literal_text a = bytes_of "7e-3" /\ literal_text b = bytes_of "0.007" /\
  literal_value a = literal_value b /\
  scanned a = Some (S754_finite false 8070450532247928 (-60)) /\
  scanned b = Some (S754_finite false 8070450532247929 (-60)).
Proof.
  cbv zeta. split; [reflexivity|]. split; [reflexivity|]. split; [unfold literal_value; cbn; lra|].
  split; vm_compute; reflexivity.
Qed.

(** * C95 *)

(** Size and error code, for every literal. *)
Theorem C95_literal : forall l rest more range out, literal_before l rest -> ~ In 0 rest -> Forall is_byte range ->
  let size := length (literal_text l) in
  let zs := Some (literal_text l ++ rest ++ 0 :: more) in
  let mem := literal_text l ++ rest ++ range in
  let len := length (literal_text l ++ rest) in
  ((Z.abs (exponent_value l) <= 511)%Z ->
     scan_double zs None = Some (Conv size OK, None) /\ scan_double_n mem len None = Some (Conv size OK, None) /\
     (forall r, scan_double zs out = Some r -> fst r = Conv size OK) /\
     (forall r, scan_double_n mem len out = Some r -> fst r = Conv size OK)) /\
  ((511 < Z.abs (exponent_value l) <= 2147483647)%Z ->
     scan_double zs out = Some (Conv size EOVERFLOW, out) /\ scan_double_n mem len out = Some (Conv size EOVERFLOW, out)) /\
  ((2147483647 < Z.abs (exponent_value l))%Z ->
     scan_double zs out = Some (Conv size ERANGE, out) /\ scan_double_n mem len out = Some (Conv size ERANGE, out)).
Proof.
  intros l rest more range out LB N0 Fr. cbv zeta. pose proof (literal_before_at _ _ LB) as LA. rewrite app_length.
  rewrite !DblLex.scan_double_literal, !DblLex.scan_double_n_literal by assumption.
  assert (EV : match lit_exponent l with None => exponent_value l = 0%Z | Some e => Z.abs (exponent_value l) = Z.of_N (number 10 (ep_digits e)) end).
  { unfold exponent_value. destruct (lit_exponent l) as [e|]; [|reflexivity]. destruct (ep_sign e) as [[|]|]; lia. }
  unfold DblLex.literal_result, DblLex.exponent_result. destruct (lit_exponent l) as [e|].
  - rewrite EV. split; [|split]; intros H.
    + destruct (N.ltb_spec 2147483647 (number 10 (ep_digits e))); [lia|]. destruct (N.ltb_spec 511 (number 10 (ep_digits e))); [lia|].
      split; [reflexivity|]. split; [reflexivity|].
      split; intros r; (destruct out; [|intros E; injection E as <-; reflexivity]);
        (destruct (DblLex.literal_double l); [|discriminate]); intros E; injection E as <-; reflexivity.
    + destruct (N.ltb_spec 2147483647 (number 10 (ep_digits e))); [lia|]. destruct (N.ltb_spec 511 (number 10 (ep_digits e))); [|lia].
      split; reflexivity.
    + destruct (N.ltb_spec 2147483647 (number 10 (ep_digits e))); [|lia]. split; reflexivity.
  - rewrite EV. split; [|split]; intros H; [|lia|lia].
    split; [reflexivity|]. split; [reflexivity|].
    split; intros r; (destruct out; [|intros E; injection E as <-; reflexivity]);
      (destruct (DblLex.literal_double l); [|discriminate]); intros E; injection E as <-; reflexivity.
Qed.
Example C95_literal_ex :
  scan_double (Some (bytes_of "12.5e600,x" ++ [0])) (Some (of_int 3)) = Some (Conv 8 EOVERFLOW, Some (of_int 3)) /\
  scan_double (Some (bytes_of "12.5e,x" ++ [0])) None = Some (Conv 4 OK, None) /\
  scan_double_n (bytes_of "12.5e6789") 7 None = Some (Conv 7 OK, None).
Proof. repeat split; vm_compute; reflexivity. Qed.

(** A point without digits is taken for the number 0. *)
Theorem C95_refuted : (~ exists l rest, well_formed l /\ bytes_of ".x" = literal_text l ++ rest) /\
  exists d, scan_double (Some (bytes_of ".x" ++ [0])) (Some (of_int 7)) = Some (Conv 1 OK, Some d) /\ B2R d = 0%R.
Proof.
  split.
  - intros (l & rest & (D1 & D2 & Ne & Pt & _) & E). unfold literal_text in E.
    destruct (lit_minus l); [discriminate E|]. destruct (lit_before l) as [|d ds].
    + destruct Ne as [Ne|Ne]; [congruence|]. destruct (lit_point l).
      * destruct (lit_after l) as [|d ds]; [congruence|]. inversion D2; subst. cbn [digits_text map app] in E.
        remember (48 + d) as c eqn:Ec.
        apply (f_equal (fun s => nth 1 s 0)) in E. cbn [nth] in E. change (nth 1 (bytes_of ".x") 0) with 120 in E. lia.
      * now rewrite (Pt eq_refl) in Ne.
    + inversion D1; subst. cbn [digits_text map app] in E. remember (48 + d) as c eqn:Ec.
      apply (f_equal (hd 0)) in E. cbn [hd] in E. change (hd 0 (bytes_of ".x")) with 46 in E. lia.
  - exists (of_int 0). split; [vm_compute; reflexivity|reflexivity].
Qed.

(** Any other text that does not start with a literal is refused and *out is left alone. *)
Theorem C95_no_literal_partial : forall s more range out, Forall is_byte s -> ~ In 0 s ->
  (~ exists l rest, well_formed l /\ s = literal_text l ++ rest) ->
  (forall t, s <> bytes_of "." ++ t) -> (forall t, s <> bytes_of "-." ++ t) ->
  scan_double (Some (s ++ 0 :: more)) out = Some (Conv 0 EINVAL, out) /\
  scan_double_n (s ++ range) (length s) out = Some (Conv 0 EINVAL, out).
Proof.
  intros s more range out F N0 No P1 P2.
  assert (H : ~ DblTotal.starts_mantissa s).
  { intros H. destruct (DblTotal.text_literal s F H) as (l & rest & E & (D1 & D2 & C & D & X) & _).
    destruct (all_digits l) as [|d ds] eqn:A.
    - unfold all_digits in A. apply app_eq_nil in A. destruct A as [A1 A2].
      destruct C as [C|C]; [congruence|]. rewrite E in P1, P2. unfold literal_text in P1, P2. rewrite A1, A2, C in P1, P2.
      cbn [digits_text map app] in P1, P2.
      destruct (lit_minus l); [eapply P2; reflexivity|eapply P1; reflexivity].
    - apply No. exists l, rest. split; [|assumption]. repeat split; [assumption|assumption| |assumption|assumption].
      unfold all_digits in A. destruct (lit_before l); [|left; discriminate]. right. cbn [app] in A. congruence. }
  split; [now apply DblTotal.scan_double_no_literal|now apply DblTotal.scan_double_n_no_literal].
Qed.
Example C95_no_literal_ex : scan_double (Some (bytes_of "-e5" ++ [0])) None = Some (Conv 0 EINVAL, None).
Proof. reflexivity. Qed.

(** The null terminated version and the range version agree on every text. *)
Theorem C95_same : forall s more range out, Forall is_byte s -> ~ In 0 s -> Forall is_byte range ->
  (Z.of_nat (length s) <= 2147483647)%Z ->
  scan_double_n (s ++ range) (length s) out = scan_double (Some (s ++ 0 :: more)) out.
Proof.
  intros s more range out F N0 Fr L.
  destruct s as [|c s'] eqn:Es; [reflexivity|]. rewrite <- Es in *. clear Es c s'.
  assert (Dec : DblTotal.starts_mantissa s \/ ~ DblTotal.starts_mantissa s).
  { unfold DblTotal.starts_mantissa. destruct (DblTotal.unsigned_text s) as [|c t]; cbn [starts_with_digit hd]; unfold is_decimal_char.
    - right. lia.
    - lia. }
  destruct Dec as [H|H].
  - destruct (DblTotal.text_literal s F H) as (l & rest & E & Lx & En & Fr').
    assert (LA : DblLex.literal_at l rest).
    { split; [assumption|]. split; [assumption|]. split; [assumption|].
      rewrite E, app_length, DblLex.literal_text_length in L. lia. }
    rewrite E. rewrite E in N0. rewrite app_length, <- !app_assoc.
    rewrite DblLex.scan_double_literal, DblLex.scan_double_n_literal; [reflexivity|assumption|assumption|assumption|].
    intro I. apply N0, in_app_iff. now right.
  - rewrite DblTotal.scan_double_no_literal, DblTotal.scan_double_n_no_literal by assumption. reflexivity.
Qed.
Example C95_same_ex : scan_double_n (bytes_of "-.5e-2x99") 7 None = Some (Conv 6 OK, None).
Proof. vm_compute. reflexivity. Qed.

(** * C96 *)

Definition tiny := Literal false [0] true (repeat 0 511 ++ [1]) None.
Theorem C96_refuted :
  scan_double (Some (bytes_of "1e511" ++ [0])) (Some (of_int 7)) = None /\
  well_formed tiny /\ scan_double (Some (literal_text tiny ++ [0])) (Some (of_int 7)) = None.
Proof.
  split; [vm_compute; reflexivity|]. split; [|vm_compute; reflexivity].
  repeat split; try (left; discriminate); try discriminate.
  - repeat constructor.
  - apply Forall_app. split; [|repeat constructor]. apply Forall_forall. intros x I. apply repeat_spec in I. subst x. reflexivity.
Qed.

(** Exactly these literals are a problem: more than 511 digits behind the (moved) point, or a power of
    ten of 511 left. *)
Theorem C96_defined_partial : forall l rest more range old, literal_before l rest -> ~ In 0 rest -> Forall is_byte range ->
  let zs := Some (literal_text l ++ rest ++ 0 :: more) in
  let mem := literal_text l ++ rest ++ range in
  let len := length (literal_text l ++ rest) in
  let good := (511 < Z.abs (exponent_value l))%Z \/ ((length (moved_after l) <= 511)%nat /\ (left_exponent l < 511)%Z) in
  (scan_double zs (Some old) <> None <-> good) /\ (scan_double_n mem len (Some old) <> None <-> good) /\
  scan_double zs None <> None /\ scan_double_n mem len None <> None.
Proof.
  intros l rest more range old LB N0 Fr. cbv zeta.
  destruct (C95_literal l rest more range (Some old) LB N0 Fr) as (C1 & C2 & C3).
  destruct (C95_literal l rest more range None LB N0 Fr) as (_ & D2 & D3).
  destruct (Z.le_gt_cases (Z.abs (exponent_value l)) 511) as [H|H].
  - destruct (C1 H) as (N1 & N2 & _). rewrite N1, N2.
    pose proof (literal_before_at _ _ LB) as LA. rewrite app_length.
    rewrite DblLex.scan_double_literal, DblLex.scan_double_n_literal by assumption.
    rewrite DblTotal.literal_result_ok by assumption.
    pose proof (DblTotal.literal_double_defined l (proj1 (DblTotal.left_exponent_ge l H))) as Q.
    assert (X : (v <- DblLex.literal_double l ;; Some (Conv (length (literal_text l)) OK, Some v)) <> None <->
      (511 < Z.abs (exponent_value l))%Z \/ ((length (moved_after l) <= 511)%nat /\ (left_exponent l < 511)%Z)).
    { destruct (DblLex.literal_double l).
      - split; [|discriminate]. intros _. right. apply Q. discriminate.
      - split; [congruence|]. intros [A|A]; [lia|]. exfalso. apply Q; [assumption|reflexivity]. }
    split; [exact X|]. split; [exact X|]. split; discriminate.
  - destruct (Z.le_gt_cases (Z.abs (exponent_value l)) 2147483647) as [H2|H2].
    + destruct (C2 (conj H H2)) as [A1 A2]. destruct (D2 (conj H H2)) as [B1 B2]. rewrite A1, A2, B1, B2.
      split; [|split; [|split]]; try discriminate; split; intros _; (now left) || discriminate.
    + destruct (C3 ltac:(lia)) as [A1 A2]. destruct (D3 ltac:(lia)) as [B1 B2]. rewrite A1, A2, B1, B2.
      split; [|split; [|split]]; try discriminate; split; intros _; (now left) || discriminate.
Qed.
Example C96_defined_ex : scan_double (Some (bytes_of "1.5e510" ++ [0])) (Some (of_int 7)) <> None /\
  scan_double (Some (bytes_of "1.5e511" ++ [0])) (Some (of_int 7)) <> None /\
  scan_double (Some (bytes_of "1e-511" ++ [0])) (Some (of_int 7)) <> None.
Proof. repeat split; vm_compute; discriminate. Qed.

(** Texts that are no literal are never a problem, a missing digit after the point neither unless it has
    an exponent of 511: by [C95_no_literal_partial] and [C95_same]. *)

Print Assumptions C45_refuted.
Print Assumptions C45_value_partial.
Print Assumptions C45_zero_partial.
Print Assumptions C45_nearest_partial.
Print Assumptions C45_integer_exact.
Print Assumptions C45_float_partial.
Print Assumptions C45_notation_refuted.
Print Assumptions C95_literal.
Print Assumptions C95_refuted.
Print Assumptions C95_no_literal_partial.
Print Assumptions C95_same.
Print Assumptions C96_refuted.
Print Assumptions C96_defined_partial.
