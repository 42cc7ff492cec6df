(** scan_double on every text; where it is defined; scan_float. *)
From Coq Require Import Reals ZArith NArith List Bool Lia Lra ZifyBool ZifyNat ZifyN.
From Flocq Require Import Core Relative IEEE754.BinarySingleNaN.
From Verif Require Import Base CTypeModel U128Text DigitsSpec DigitsProofs Fp FpProofs DblModel DblSpec DblScan DblLex DblError DblValue.
Import ListNotations.
Local Open Scope N_scope.

(** * Every text starts with a literal or not *)

Lemma split_digits : forall s, exists ds r, s = digits_text ds ++ r /\ decimal ds /\ ~ starts_with_digit r.
Proof.
  induction s as [|c s (ds & r & E & D & H)].
  - exists [], []. repeat split; [constructor|]. cbn. tauto.
  - destruct (is_digit c) eqn:C.
    + exists ((c - 48) :: ds), r. unfold is_digit in C. split; [|split; [|assumption]].
      * cbn [digits_text map app]. f_equal; [lia|exact E].
      * constructor; [lia|assumption].
    + exists [], (c :: s). repeat split; [constructor|]. cbn. unfold is_decimal_char. unfold is_digit in C. lia.
Qed.

(** What follows the mantissa: an exponent and the rest, or only the rest. *)
Lemma split_exponent : forall s, ~ starts_with_digit s ->
  exists x r, s = exponent_text x ++ r /\ ~ starts_with_digit r /\ (x = None -> ~ starts_exponent r) /\
    match x with None => True | Some e => decimal (ep_digits e) /\ ep_digits e <> [] end.
Proof.
  intros s H.
  assert (Try : (exists up sg t, s = (if up : bool then 69 else 101) ::
      match sg with None => [] | Some true => [45] | Some false => [43] end ++ t /\ starts_with_digit t) \/
    ~ starts_exponent s).
  { destruct s as [|c t].
    { right. intros (e & more & _ & _ & E). discriminate E. }
    assert (Cases : (exists up : bool, c = if up then 69 else 101) \/ (c <> 69 /\ c <> 101)).
    { destruct (N.eq_dec c 69); [left; exists true; assumption|]. destruct (N.eq_dec c 101); [left; exists false; assumption|].
      right. split; assumption. }
    destruct Cases as [[up ->]|[C1 C2]].
    2:{ right. intros (e & more & _ & _ & E). cbn [exponent_text app] in E. injection E as E _. destruct (ep_upper e); congruence. }
    destruct t as [|c1 t1].
    { right. intros ([u0 sg ds] & more & Ne & D & E). cbn [exponent_text ep_upper ep_sign ep_digits app] in *.
      injection E as _ E. destruct sg as [[|]|]; [discriminate E|discriminate E|]. destruct ds; [congruence|discriminate E]. }
    destruct (is_digit c1) eqn:I1.
    { left. exists up, None, (c1 :: t1). split; [reflexivity|]. cbn. unfold is_decimal_char. unfold is_digit in I1. lia. }
    assert (Sg : (exists sg : bool, c1 = if sg then 45 else 43) \/ (c1 <> 45 /\ c1 <> 43)).
    { destruct (N.eq_dec c1 45); [left; exists true; assumption|]. destruct (N.eq_dec c1 43); [left; exists false; assumption|].
      right. split; assumption. }
    assert (NoSign : c1 <> 45 /\ c1 <> 43 \/ ~ starts_with_digit t1 -> ~ starts_exponent ((if up then 69 else 101) :: c1 :: t1)).
    { intros Q ([u0 sg ds] & more & Ne & D & E). cbn [exponent_text ep_upper ep_sign ep_digits app] in *.
      injection E as _ E. destruct ds as [|d ds]; [congruence|]. inversion D; subst.
      destruct sg as [[|]|]; cbn [digits_text map app] in E; remember (48 + d) as dc eqn:Edc; injection E as E1 E2.
      - destruct Q as [[Q _]|Q]; [congruence|]. apply Q. rewrite E2. cbn [starts_with_digit]. unfold is_decimal_char. lia.
      - destruct Q as [[_ Q]|Q]; [congruence|]. apply Q. rewrite E2. cbn [starts_with_digit]. unfold is_decimal_char. lia.
      - subst c1. unfold is_digit in I1. lia. }
    destruct Sg as [[sg ->]|Sg]; [|right; apply NoSign; now left].
    destruct t1 as [|c2 t2]; [right; apply NoSign; right; cbn; tauto|].
    destruct (is_digit c2) eqn:I2.
    - left. exists up, (Some sg), (c2 :: t2). split; [destruct sg; reflexivity|]. cbn. unfold is_decimal_char. unfold is_digit in I2. lia.
    - right. apply NoSign. right. cbn. unfold is_decimal_char. unfold is_digit in I2. lia. }
  destruct Try as [(up & sg & t & E & St)|No].
  - destruct (split_digits t) as (ds & r & Et & D & Hr).
    assert (Ne : ds <> []). { intros ->. cbn [digits_text map app] in Et. subst t. contradiction. }
    exists (Some (ExponentPart up sg ds)), r. cbn [exponent_text ep_upper ep_sign ep_digits].
    split; [rewrite E, Et; cbn [app]; f_equal; now rewrite app_assoc|]. split; [assumption|]. split; [discriminate|now split].
  - exists None, s. cbn [exponent_text app]. repeat split; assumption || auto.
Qed.

(** The text after the sign. *)
Definition unsigned_text (s : list N) : list N := match s with c :: r => if c =? 45 then r else s | [] => [] end.
(** It starts with a digit or a point. *)
Definition starts_mantissa (s : list N) : Prop := starts_with_digit (unsigned_text s) \/ hd 0 (unsigned_text s) = 46.

Lemma text_literal : forall s, Forall is_byte s -> starts_mantissa s ->
  exists l rest, s = literal_text l ++ rest /\ lexical l /\ ends_before l rest /\ Forall is_byte rest.
Proof.
  intros s F H.
  assert (Sg : exists minus : bool, s = (if minus then [45] else []) ++ unsigned_text s).
  { destruct s as [|c r]; [exists false; reflexivity|]. unfold unsigned_text.
    destruct (N.eqb_spec c 45) as [->|]; [exists true|exists false]; reflexivity. }
  destruct Sg as [minus Es]. unfold starts_mantissa in H. set (t := unsigned_text s) in *. clearbody t.
  destruct (split_digits t) as (bs & r1 & Et & Db & H1).
  assert (Pt : exists (point : bool) as_ r2, r1 = (if point then [46] else []) ++ digits_text as_ ++ r2 /\ decimal as_ /\
    ~ starts_with_digit r2 /\ (point = false -> as_ = [] /\ hd 0 r2 <> 46)).
  { destruct r1 as [|c r1]; [exists false, [], []; repeat split; [constructor|cbn; tauto|discriminate]|].
    destruct (N.eq_dec c 46) as [->|Hc].
    - destruct (split_digits r1) as (as_ & r2 & E2 & Da & H2). exists true, as_, r2.
      split; [cbn [app]; now rewrite E2|]. split; [assumption|]. split; [assumption|discriminate].
    - exists false, [], (c :: r1). repeat split; [constructor|assumption|assumption]. }
  destruct Pt as (point & as_ & r2 & E1 & Da & H2 & Hf).
  destruct (split_exponent r2 H2) as (x & r & E2 & H3 & Hx & Wx).
  exists (Literal minus bs point as_ x), r. unfold literal_text, lexical, ends_before. cbn [lit_minus lit_before lit_point lit_after lit_exponent].
  assert (E : s = (if minus then [45] else []) ++ digits_text bs ++ (if point then [46] else []) ++ digits_text as_ ++ exponent_text x ++ r).
  { rewrite Es, Et, E1, E2. reflexivity. }
  split; [rewrite E; now rewrite <- !app_assoc|]. split.
  - repeat split; [assumption|assumption| |intros P; now apply Hf|assumption].
    destruct point; [now right|]. left. intros ->. destruct (Hf eq_refl) as [-> Hd].
    rewrite E1 in Et. cbn [digits_text map app] in Et. subst t. destruct H as [H|H]; contradiction.
  - split.
    + split; [assumption|]. intros ->. split; [now apply Hx|]. intros P. destruct (Hf P) as [_ Hd]. rewrite E2 in Hd. exact Hd.
    + rewrite E in F. rewrite !Forall_app in F. apply F.
Qed.

(** Otherwise nothing is consumed. *)
Lemma scan_double_no_literal : forall s more out, ~ starts_mantissa s -> ~ In 0 s ->
  scan_double (Some (s ++ 0 :: more)) out = Some (Conv 0 EINVAL, out).
Proof.
  intros s more out H N0. unfold scan_double.
  assert (Stop : forall t, ~ starts_with_digit t -> hd 0 t <> 46 -> scan_mantissa_loop (t ++ 0 :: more) 0 None = Some (O, None)).
  { intros t H1 H2. destruct t as [|c t]; [reflexivity|]. cbn [app scan_mantissa_loop]. cbn [hd] in H2.
    destruct (N.eqb_spec c 46); [congruence|]. now rewrite (not_digit _ _ H1). }
  unfold starts_mantissa, unsigned_text in H.
  destruct s as [|c s].
  - reflexivity.
  - cbn [app deref]. destruct (N.eqb_spec c 45) as [->|Hc].
    + unfold advance. cbn [length Nat.leb assert_ skipn]. rewrite Stop by tauto. reflexivity.
    + pose proof (Stop (c :: s)) as E. cbn [app] in E. rewrite E by tauto. reflexivity.
Qed.
Lemma scan_double_n_no_literal : forall s more out, ~ starts_mantissa s ->
  scan_double_n (s ++ more) (length s) out = Some (Conv 0 EINVAL, out).
Proof.
  intros s more out H. unfold scan_double_n.
  assert (Stop : forall t, ~ starts_with_digit t -> hd 0 t <> 46 ->
    exists k, scan_mantissa_n_loop (t ++ more) (length t) 0 None = Some (O, None, k)).
  { intros t H1 H2. destruct t as [|c t]; [exists O; reflexivity|]. cbn [app length scan_mantissa_n_loop]. cbn [hd] in H2.
    destruct (N.eqb_spec c 46); [congruence|]. rewrite (not_digit _ _ H1). eexists. reflexivity. }
  unfold starts_mantissa, unsigned_text in H.
  destruct s as [|c s]; [reflexivity|].
  cbn [app deref length Nat.eqb]. destruct (N.eqb_spec c 45) as [->|Hc].
  - unfold advance. cbn [length Nat.leb assert_ skipn]. replace (S (length s) - 1)%nat with (length s) by lia.
    destruct (Stop s) as [k E]; [tauto|tauto|]. rewrite E. reflexivity.
  - destruct (Stop (c :: s)) as [k E]; [tauto|tauto|]. cbn [app length] in E. rewrite E. reflexivity.
Qed.

(** * Where the arithmetic is defined *)

Lemma pow10_512 : forallb (fun k => match pow10 (N.of_nat k) with Some _ => true | None => false end) (seq 0 512) = true.
Proof. vm_compute. reflexivity. Qed.

Lemma pow10_loop_end : forall bits entry t, (length entry < length bits)%nat -> last bits false = true ->
  pow10_loop bits entry t = None.
Proof.
  induction bits as [|b bits IH]; intros entry t L H; [cbn in L; lia|]. cbn [pow10_loop].
  destruct entry as [|e entry].
  - destruct bits as [|b' bits]; [cbn [last] in H; now rewrite H|]. destruct b; [reflexivity|].
    apply IH; [cbn; lia|exact H].
  - cbn [length] in L. destruct bits as [|b' bits]; [cbn [length] in L; lia|].
    destruct b; cbn [tl]; (apply IH; [cbn [length] in *; lia|exact H]).
Qed.
Lemma pos_bits_last : forall p, last (pos_bits p) false = true.
Proof.
  induction p as [p IH|p IH|]; cbn [pos_bits]; [| |reflexivity].
  - destruct (pos_bits p) eqn:E; [cbn in IH; discriminate|exact IH].
  - destruct (pos_bits p) eqn:E; [cbn in IH; discriminate|exact IH].
Qed.
Lemma pos_bits_length : forall p, (Z.pos p < 2 ^ Z.of_nat (length (pos_bits p)))%Z.
Proof.
  induction p as [p IH|p IH|]; cbn [pos_bits length].
  - rewrite Nat2Z.inj_succ, Z.pow_succ_r by lia. lia.
  - rewrite Nat2Z.inj_succ, Z.pow_succ_r by lia. lia.
  - reflexivity.
Qed.

Lemma pow10_defined : forall k, pow10 k <> None <-> k <= 511.
Proof.
  intros k. split.
  - intros H. destruct (N.le_gt_cases k 511) as [|C]; [assumption|exfalso]. apply H.
    unfold pow10. destruct k as [|p]; [lia|]. cbn [uint_bits]. apply pow10_loop_end; [|apply pos_bits_last].
    pose proof (pos_bits_length p) as L. change (length PowersOfTen) with 9%nat.
    destruct (Nat.le_gt_cases (length (pos_bits p)) 9) as [Q|Q]; [exfalso|assumption].
    assert (2 ^ Z.of_nat (length (pos_bits p)) <= 2 ^ 9)%Z by (apply Z.pow_le_mono_r; lia). lia.
  - intros H. pose proof pow10_512 as F. rewrite forallb_forall in F. specialize (F (N.to_nat k) ltac:(apply in_seq; lia)).
    rewrite N2Nat.id in F. destruct (pow10 k); [discriminate|discriminate F].
Qed.

Lemma str_Pow10_defined : forall d e, str_Pow10 d e <> None <-> (-511 <= e < 511)%Z.
Proof.
  intros d e. unfold str_Pow10, assert_. fold (pow10 (Z.to_N (Z.abs e))).
  pose proof (pow10_defined (Z.to_N (Z.abs e))) as P.
  destruct (Z.ltb_spec e 511); [|split; [congruence|lia]].
  destruct (pow10 (Z.to_N (Z.abs e))).
  - split; [|discriminate]. intros _. assert (Z.to_N (Z.abs e) <= 511) by (apply P; discriminate). lia.
  - split; [congruence|]. intros. exfalso. apply P; [lia|reflexivity].
Qed.

Lemma literal_double_defined : forall l, (-511 <= left_exponent l)%Z ->
  literal_double l <> None <-> (length (moved_after l) <= 511)%nat /\ (left_exponent l < 511)%Z.
Proof.
  intros l Hl. unfold literal_double, computed_value. rewrite <- moved_after_length.
  match goal with |- context [str_Pow10 ?d (- Z.of_nat (length (moved_after l)))] =>
    pose proof (str_Pow10_defined d (- Z.of_nat (length (moved_after l)))) as P; destruct (str_Pow10 d (- Z.of_nat (length (moved_after l)))) as [fp|] end.
  2:{ split; [congruence|]. intros [A _]. exfalso. apply P; [lia|reflexivity]. }
  match goal with |- context [str_Pow10 ?d (left_exponent l)] =>
    pose proof (str_Pow10_defined d (left_exponent l)) as Q; destruct (str_Pow10 d (left_exponent l)) as [v|] end.
  - split; [|discriminate]. intros _. assert (-511 <= - Z.of_nat (length (moved_after l)) < 511)%Z by (apply P; discriminate).
    assert (-511 <= left_exponent l < 511)%Z by (apply Q; discriminate). lia.
  - split; [congruence|]. intros [_ A]. exfalso. apply Q; [lia|reflexivity].
Qed.

Lemma left_exponent_ge : forall l, (Z.abs (exponent_value l) <= 511)%Z -> (-511 <= left_exponent l <= 511)%Z.
Proof. intros l H. unfold left_exponent, point_position. rewrite all_digits_length. lia. Qed.

Lemma exponent_result_ok : forall l, (Z.abs (exponent_value l) <= 511)%Z ->
  match exponent_result (lit_exponent l) with ExponentError _ _ => False | _ => True end.
Proof.
  intros l H. unfold exponent_value in H. destruct (lit_exponent l) as [e|]; [|exact I]. unfold exponent_result.
  assert (number 10 (ep_digits e) <= 511) by (destruct (ep_sign e) as [[|]|]; lia).
  destruct (N.ltb_spec 2147483647 (number 10 (ep_digits e))); [lia|].
  destruct (N.ltb_spec 511 (number 10 (ep_digits e))); [lia|]. exact I.
Qed.

Lemma literal_result_ok : forall l old, (Z.abs (exponent_value l) <= 511)%Z ->
  literal_result l (Some old) = (v <- literal_double l ;; Some (Conv (length (literal_text l)) OK, Some v)).
Proof.
  intros l old H. pose proof (exponent_result_ok l H) as E. unfold literal_result.
  destruct (exponent_result (lit_exponent l)); [reflexivity|reflexivity|destruct E].
Qed.

(** * float *)
Local Open Scope R_scope.

Definition rf (x : R) : R := round radix2 (FLT_exp (-149) 24) ZnearestE x.
#[local] Instance vexpf : Valid_exp (FLT_exp (-149) 24).
Proof. apply FLT_exp_valid. reflexivity. Qed.

Lemma to_float_ok : forall d : double, is_finite d = true -> Rabs (B2R d) <= bpow radix2 127 ->
  is_finite (to_float d) = true /\ Bsign (to_float d) = Bsign d /\ B2R (to_float d) = rf (B2R d).
Proof.
  intros d F B. destruct d as [s|s| |s m e H]; try discriminate.
  - cbn [to_float is_finite Bsign B2R]. repeat split. symmetry. apply round_0. auto with typeclass_instances.
  - unfold to_float.
    pose proof (binary_normalize_correct 24 128 prec24 emax128 mode_NE (SpecFloat.cond_Zopp s (Z.pos m)) e s) as C.
    cbv zeta in C. change (F2R (Float radix2 (SpecFloat.cond_Zopp s (Z.pos m)) e)) with (B2R (B754_finite s m e H)) in C.
    set (x := B2R (B754_finite s m e H)) in *.
    change (round radix2 (SpecFloat.fexp 24 128) (round_mode mode_NE) x) with (rf x) in C.
    assert (Lt : Rabs (rf x) < bpow radix2 128).
    { apply Rle_lt_trans with (bpow radix2 127); [|apply bpow_lt; lia].
      apply abs_round_le_generic; [apply vexpf|apply valid_rnd_N| |assumption].
      apply generic_format_bpow. unfold FLT_exp. lia. }
    rewrite Rlt_bool_true in C by assumption. destruct C as (C1 & C2 & C3). repeat split; [assumption| |assumption].
    rewrite C3. cbn [Bsign]. unfold x. cbn [B2R]. destruct s; cbn [SpecFloat.cond_Zopp].
    + rewrite Rcompare_Lt; [reflexivity|]. apply F2R_lt_0. reflexivity.
    + rewrite Rcompare_Gt; [reflexivity|]. apply F2R_gt_0. reflexivity.
Qed.

Lemma rf_err : forall x, bpow radix2 (-126) <= Rabs x -> Rabs (rf x - x) <= bpow radix2 (-24) * Rabs x.
Proof.
  intros x H. pose proof (relative_error_N_FLT radix2 (-149) 24 eq_refl (fun z => negb (Z.even z)) x H) as E.
  replace (/ 2 * bpow radix2 (- (24) + 1)) with (bpow radix2 (-24)) in E; [exact E|].
  change (- (24) + 1)%Z with (-24 + 1)%Z. rewrite bpow_plus. change (bpow radix2 1) with 2. field.
Qed.

Lemma float_close : forall (d : double) x, is_finite d = true ->
  Rabs (B2R d - x) <= bpow radix2 (-50) * Rabs x ->
  bpow radix2 (-125) <= Rabs x <= bpow radix2 126 ->
  is_finite (to_float d) = true /\ Bsign (to_float d) = Bsign d /\
  Rabs (B2R (to_float d) - x) <= bpow radix2 (-23) * Rabs x.
Proof.
  intros d x F E [L U].
  assert (P50 : 0 < bpow radix2 (-50) <= / 1000).
  { split; [apply bpow_gt_0|]. apply Rle_trans with (bpow radix2 (-10)); [apply bpow_le; lia|].
    change (bpow radix2 (-10)) with (/ 1024). lra. }
  assert (X0 : 0 < Rabs x) by (eapply Rlt_le_trans; [apply bpow_gt_0|exact L]).
  assert (D : (1 - bpow radix2 (-50)) * Rabs x <= Rabs (B2R d) <= (1 + bpow radix2 (-50)) * Rabs x).
  { pose proof (Rabs_triang_inv (B2R d) x). pose proof (Rabs_triang_inv x (B2R d)).
    rewrite (Rabs_minus_sym x) in *. lra. }
  assert (E1 : bpow radix2 (-125) = 2 * bpow radix2 (-126)).
  { change (-125)%Z with (1 + -126)%Z. rewrite bpow_plus. reflexivity. }
  assert (E2 : bpow radix2 127 = 2 * bpow radix2 126).
  { change 127%Z with (1 + 126)%Z. rewrite bpow_plus. reflexivity. }
  pose proof (bpow_gt_0 radix2 (-126)). pose proof (bpow_gt_0 radix2 126).
  assert (B1 : Rabs (B2R d) <= bpow radix2 127) by (rewrite E2; nra).
  assert (B2 : bpow radix2 (-126) <= Rabs (B2R d)) by nra.
  destruct (to_float_ok d F B1) as (T1 & T2 & T3). repeat split; [assumption|assumption|]. rewrite T3.
  pose proof (rf_err (B2R d) B2) as R1.
  replace (rf (B2R d) - x) with ((rf (B2R d) - B2R d) + (B2R d - x)) by ring.
  eapply Rle_trans; [apply Rabs_triang|].
  assert (E3 : bpow radix2 (-23) = 2 * bpow radix2 (-24)).
  { change (-23)%Z with (1 + -24)%Z. rewrite bpow_plus. reflexivity. }
  assert (E4 : bpow radix2 (-50) <= / 4 * bpow radix2 (-24)).
  { apply Rle_trans with (bpow radix2 (-26)); [apply bpow_le; lia|]. change (-26)%Z with (-2 + -24)%Z. rewrite bpow_plus.
    change (bpow radix2 (-2)) with (/ 4). lra. }
  pose proof (bpow_gt_0 radix2 (-24)) as P24. rewrite E3.
  set (b := bpow radix2 (-24)) in *. set (a := Rabs x) in *.
  assert (R2 : b * Rabs (B2R d) <= b * (5 / 4 * a)) by (apply Rmult_le_compat_l; [lra|nra]).
  assert (R3 : bpow radix2 (-50) * a <= / 4 * b * a) by (apply Rmult_le_compat_r; lra).
  assert (0 < b * a) by (apply Rmult_lt_0_compat; assumption). lra.
Qed.
