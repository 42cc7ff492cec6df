(** print_double put together. *)
From Coq Require Import Reals ZArith NArith List Bool Lia Lra Psatz ZifyBool ZifyNat ZifyN.
From Flocq Require Import Core IEEE754.BinarySingleNaN.
From Verif Require Import Base DigitsSpec DigitsProofs ConvModel ConvSpec ConvPrint ConvBool Fp FpProofs DblModel DblSpec DblError PdModel PdSpec PdText PdMag PdInt PdLoop PdNum.
Import ListNotations.
Local Open Scope R_scope.

Lemma used_range : forall flags precision, (0 <= used_precision flags precision <= 14)%Z.
Proof. intros. unfold used_precision, shortest. destruct (Z.ltb_spec precision 0); cbn [orb]; [lia|]. destruct (N.testbit flags 3); lia. Qed.
Lemma used_eq : forall flags precision,
  (if (precision <? 0)%Z || N.testbit flags PF_SHORTEST then TMC_MAX_PRECISION
   else if (TMC_MAX_PRECISION <? precision)%Z then TMC_MAX_PRECISION else precision) = used_precision flags precision.
Proof.
  intros. unfold used_precision, shortest, PF_SHORTEST, TMC_MAX_PRECISION. destruct ((precision <? 0)%Z || N.testbit flags 3); [reflexivity|].
  destruct (Z.ltb_spec 14 precision); lia.
Qed.

(** What is known about the number [x'] whose digits are written for [x]. *)
Definition adjusted (x x' : R) (p : Z) : Prop :=
  0 <= x' < IZR (2 ^ 56) /\ (carry_free x p -> x' = x) /\ (IZR (2 ^ 53) <= x -> x' = x) /\ ((1 <= p)%Z -> x = IZR (Zfloor x) -> x' = x) /\
  (p = 0%Z -> is_double (x + / 2) -> is_double (x + 1) -> Zfloor x' = Zfloor (x + / 2)).

Section PrintDouble.
  Variables dbg cw : bool.

  Definition finite_tail (start : nat) (buf : list N) (pos maxlen : nat) (value : double) (flags : N) (precision : Z) :=
    magnitude <- print_magnitude value ;;
    let magnitude := if (511 <=? magnitude)%Z then 510%Z else magnitude in
    o <- integer_loop dbg cw 40 start buf pos maxlen value magnitude 0 ;;
    print_tail dbg cw start o (shows_zeros flags precision) (shortest flags precision) (used_precision flags precision).
  Lemma print_finite_eq : forall start buf pos maxlen value flags precision,
    print_finite dbg cw start buf pos maxlen value flags precision =
    (h <- str_Pow10 half (- used_precision flags precision) ;;
     rollover <- to_u64 (dadd value h) ;;
     integer <- to_u64 value ;;
     finite_tail start buf pos maxlen (if (integer <? rollover)%N then dadd value (of_int 1) else value) flags precision).
  Proof using.
    intros. unfold print_finite. cbv zeta. rewrite used_eq. unfold finite_tail, half.
    change PF_SHORTEST with 3%N. change PF_TRAILING_ZEROES with 4%N.
    fold (shortest flags precision). fold (shows_zeros flags precision).
    destruct (str_Pow10 (ddiv (of_int 1) (of_int 2)) (- used_precision flags precision)) as [h|]; [|exact eq_refl].
    destruct (to_u64 (dadd value h)) as [r|]; [|exact eq_refl]. destruct (to_u64 value) as [i|]; [|exact eq_refl].
    destruct (i <? r)%N; cbv beta iota.
    - destruct (print_magnitude (dadd value (of_int 1))) as [m|]; [|exact eq_refl].
      destruct (integer_loop dbg cw 40 start buf pos maxlen (dadd value (of_int 1)) (if (511 <=? m)%Z then 510%Z else m) 0) as [[r0|[[[[? ?] ?] ?] ?]]|]; exact eq_refl.
    - destruct (print_magnitude value) as [m|]; [|exact eq_refl].
      destruct (integer_loop dbg cw 40 start buf pos maxlen value (if (511 <=? m)%Z then 510%Z else m) 0) as [[r0|[[[[? ?] ?] ?] ?]]|]; exact eq_refl.
  Qed.

  Lemma finite_ok : forall v x flags precision, pos v x -> x < IZR (2 ^ 56) ->
    exists x' ds point fs, adjusted x x' (used_precision flags precision) /\
      canonical 10 (Z.to_N (Zfloor x')) ds /\
      fraction_digits (shows_zeros flags precision) (shortest flags precision) (Z.to_nat (used_precision flags precision))
        (Z.to_N (unit_count (x' - IZR (Zfloor x')) (used_precision flags precision))) point fs /\
      (0 <= unit_count (x' - IZR (Zfloor x')) (used_precision flags precision) <= 10 ^ used_precision flags precision)%Z /\
      forall pre rest maxlen start, start = (length pre + maxlen)%nat -> (start <= length (pre ++ rest))%nat -> (0 < maxlen)%nat ->
      exists r, print_finite dbg cw start (pre ++ rest) (length pre) maxlen v flags precision = Some r /\
        report_print (pre ++ digits_text ds ++ fraction_text point fs) (pre ++ rest) start r.
  Proof using.
    intros v x flags precision P U. pose proof (used_range flags precision) as Hp. pose proof (pos_ge _ _ P) as G.
    destruct (half_unit _ Hp) as (h & y & Eh & Ph & Yn & Y & Y0).
    destruct (rollover_ok v x h y P U Ph Y) as (r & i & Er & Ei & x' & P' & U' & Ex').
    set (v' := if (i <? r)%N then dadd v (of_int 1) else v) in *.
    destruct (magnitude_ok v' x' P' ltac:(lra)) as (m & Em & Hm & M1 & M2).
    destruct (integer_then dbg cw v' x' m P' U' Hm M1 M2) as (ds & f & C & Pf & K).
    pose proof (floor_bounds x') as [B1 B2].
    destruct (unit_count_ok f _ (used_precision flags precision) Pf ltac:(lra) Hp) as (Ed & Ld).
    destruct (print_fraction_ok dbg cw f (shows_zeros flags precision) (shortest flags precision) _ _ _ Hp (nth_powers _ Hp) Ed) as (point & fs & Fd & KF).
    { replace (10 ^ Z.to_N (used_precision flags precision))%N with (Z.to_N (10 ^ used_precision flags precision)); [lia|].
      rewrite Z2N.inj_pow by lia. reflexivity. }
    exists x', ds, point, fs. split; [|split; [exact C|split; [exact Fd|split; [exact Ld|]]]].
    - split; [pose proof (pos_ge _ _ P'); lra|]. split; [|split; [|split]].
      + intros Cf. rewrite (no_carry x y _ G Hp Cf Yn) in Ex'. exact Ex'.
      + intros B. rewrite (add_half_big v x y P B ltac:(lra)) in Ex'. rewrite Z.ltb_irrefl in Ex'. exact Ex'.
      + intros Q I. rewrite (integer_no_carry v x y P I) in Ex'; [exact Ex'|]. pose proof (half_unit_less _ y ltac:(split; [exact Q|lia]) Yn). lra.
      + intros Q D1 D2. rewrite (Y0 Q) in Ex'. rewrite Ex'. apply exact_rounding; [assumption| |].
        * unfold rd. apply round_generic; [apply valid_rnd_N|exact D1].
        * unfold rd. apply round_generic; [apply valid_rnd_N|exact D2].
    - intros pre rest maxlen start Es L Ml. rewrite print_finite_eq, Eh. cbv beta iota. rewrite Er. cbv beta iota. rewrite Ei. cbv beta iota.
      fold v'. unfold finite_tail. rewrite Em. cbv beta iota zeta. destruct (Z.leb_spec 511 m) as [Q|_]; [lia|].
      apply K; [|assumption|assumption|assumption]. intros pre2 rest2 maxlen2 Es2 L2. exact (KF pre2 rest2 maxlen2 start Es2 L2).
  Qed.

  (** -0 is printed like 0 if its sign is not asked for. *)
  Lemma dadd_zero : forall s h y, pos h y -> 0 < y -> dadd (B754_zero s) h = h.
  Proof using. intros s h y (F & S & E) Y. destruct h as [sh|sh| |sh mh eh Bh]; try discriminate; [cbn in E; lra|reflexivity]. Qed.
  Lemma dmul_zero : forall s h y, pos h y -> 0 < y -> dmul (B754_zero s) h = B754_zero s.
  Proof using. intros s h y (F & S & E) Y. destruct h as [sh|sh| |sh mh eh Bh]; try discriminate; [cbn in E; lra|]. cbn in S. subst sh. destruct s; reflexivity. Qed.
  Lemma print_fraction_zero : forall start buf pos maxlen tr kp p, (0 <= p <= 14)%Z ->
    print_fraction dbg cw start buf pos maxlen (B754_zero true) tr kp p = print_fraction dbg cw start buf pos maxlen (B754_zero false) tr kp p.
  Proof using.
    intros start buf ps maxlen tr kp p Hp. unfold print_fraction. destruct (0 <? p)%Z; [|reflexivity]. rewrite (nth_powers p Hp).
    cbv beta iota. pose proof (ten_int p ltac:(lia)) as Pt. pose proof (ten_range p Hp) as [T1 T2].
    rewrite !(dmul_zero _ _ _ Pt) by lra. change (ddiv (of_int 1) (of_int 2)) with half.
    rewrite !(dadd_zero _ _ _ half_pos) by lra. exact eq_refl.
  Qed.
  Lemma finite_tail_zero : forall start buf pos maxlen flags precision,
    finite_tail start buf pos maxlen (B754_zero true) flags precision = finite_tail start buf pos maxlen (B754_zero false) flags precision.
  Proof using.
    intros start buf ps maxlen flags precision. unfold finite_tail.
    assert (E1 : print_magnitude (B754_zero true) = Some 1%Z) by (vm_compute; reflexivity).
    assert (E0 : print_magnitude (B754_zero false) = Some 1%Z) by (vm_compute; reflexivity).
    rewrite E1, E0. cbv beta iota zeta. change (511 <=? 1)%Z with false. cbv iota. change 40%nat with (S (S 38)).
    rewrite !integer_loop_eq. change (0 <? 1)%Z with true. cbn [andb]. destruct (Nat.ltb_spec 0 maxlen) as [A|A].
    - unfold loop_body. change (TMC_MAX_PRECISION <? 1)%Z with false. cbv beta iota.
      change (to_u64 (B754_zero true)) with (Some 0%N). change (to_u64 (B754_zero false)) with (Some 0%N). cbv beta iota.
      change (to_u64 (B754_zero true)) with (Some 0%N). change (to_u64 (B754_zero false)) with (Some 0%N). cbv beta iota zeta.
      assert (D1 : dsub (B754_zero true) (of_int (Z.of_N 0)) = B754_zero true) by (vm_compute; reflexivity).
      assert (D0 : dsub (B754_zero false) (of_int (Z.of_N 0)) = B754_zero false) by (vm_compute; reflexivity).
      rewrite D1, D0. destruct (at_dest buf ps _) as [[c b]|]; [|exact eq_refl]. unfold assert_. destruct (cv_size c <=? maxlen)%nat; [|exact eq_refl].
      destruct (errc_eqb (cv_ec c) OK); [|exact eq_refl]. rewrite !integer_loop_eq. change (0 <? 1 - TMC_MAX_PRECISION)%Z with false. cbn [andb print_tail].
      change (0 <? 1 - TMC_MAX_PRECISION)%Z with false. cbn [andb]. apply print_fraction_zero. apply used_range.
    - cbn [print_tail]. change (0 <? 1)%Z with true. destruct (Nat.eqb_spec maxlen 0); [|lia]. exact eq_refl.
  Qed.
  Lemma print_finite_zero : forall start buf pos maxlen flags precision,
    print_finite dbg cw start buf pos maxlen (B754_zero true) flags precision = print_finite dbg cw start buf pos maxlen (B754_zero false) flags precision.
  Proof using.
    intros. rewrite !print_finite_eq. destruct (half_unit _ (used_range flags precision)) as (h & y & Eh & Ph & _ & Y & _). rewrite Eh. cbv beta iota.
    rewrite !(dadd_zero _ _ _ Ph) by lra. change (to_u64 (B754_zero true)) with (Some 0%N). change (to_u64 (B754_zero false)) with (Some 0%N).
    assert (F : Zfloor y = 0%Z) by (apply Zfloor_imp; cbn; lra).
    rewrite (to_u64_pos _ _ Ph), F by (apply Rle_lt_trans with 1; [lra|apply IZR_lt; vm_compute; reflexivity]).
    cbv beta iota. change (0 <? Z.to_N 0)%N with false. cbv iota. apply finite_tail_zero.
  Qed.

  Definition shown_minus (v : double) (nan_sign : bool) (flags : N) : bool :=
    (N.testbit flags 7 && (if is_nan v then nan_sign else Bsign v)) || dlt v (of_int 0).
  Lemma dlt_zero : forall v : double, dlt v (of_int 0) = match v with B754_finite s _ _ _ => s | B754_infinity s => s | _ => false end.
  Proof using. intros v. assert (Z : of_int 0 = B754_zero false) by (vm_compute; reflexivity). rewrite Z. destruct v as [[]|[]| |[] m e B]; reflexivity. Qed.

  (** The part before the digits. *)
  Lemma signed_ok : forall v nan_sign flags precision text, text <> [] ->
    let minus := shown_minus v nan_sign flags in
    let v' := if minus then dneg v else v in
    (forall pre rest maxlen start, start = (length pre + maxlen)%nat -> (start <= length (pre ++ rest))%nat -> (0 < maxlen)%nat ->
      exists r, (let special text :=
          ' (r, b) <- at_dest (pre ++ rest) (length pre) (fun dest => tmc_print_string dest maxlen text) ;;
          Some (combine_conv (Conv (start - maxlen) OK) r, b) in
        if is_nan v' then
          special (if N.testbit flags PF_LOWERCASE then [110; 97; 110] else [78; 65; 78])%N
        else if negb (is_finite v') then
          special (if N.testbit flags PF_LOWERCASE then [105; 110; 102] else [73; 78; 70])%N
        else print_finite dbg cw start (pre ++ rest) (length pre) maxlen v' flags precision) = Some r /\
      report_print (pre ++ text) (pre ++ rest) start r) ->
    forall buf maxlen, (maxlen <= length buf)%nat ->
    exists r, print_double dbg cw buf maxlen v nan_sign flags precision = Some r /\
      report_print ((if minus then [45%N] else []) ++ text) buf maxlen r.
  Proof using.
    intros v nan_sign flags precision text Ht minus v' K buf maxlen L. unfold print_double. change PF_SIGNBIT with 7%N.
    cbv zeta. fold (shown_minus v nan_sign flags). fold minus.
    assert (Lt : (0 < length text)%nat) by (destruct text; [congruence|cbn [length]; lia]).
    destruct (Nat.eqb_spec maxlen 0) as [->|Mn].
    - eexists. split; [reflexivity|]. apply report_too_long; [rewrite app_length; lia|reflexivity|reflexivity].
    - destruct buf as [|c buf]; [cbn [length] in L; lia|]. destruct minus eqn:Em.
      + cbn [write app andb]. destruct (Nat.eqb_spec (maxlen - 1) 0) as [M1|M1].
        * eexists. split; [reflexivity|]. replace (maxlen - (maxlen - 1))%nat with maxlen by lia.
          apply report_too_long; [cbn [length]; lia|reflexivity|]. replace maxlen with 1%nat by lia. reflexivity.
        * destruct (K [45%N] buf (maxlen - 1)%nat maxlen) as (r & Er & Rr); [cbn [length]; lia|cbn [length app] in *; lia|lia|].
          exists r. split; [exact Er|].
          apply (report_next [] [45%N] text (c :: buf)); [cbn [length]; lia|exact L|]. exact Rr.
      + cbn [app andb]. destruct (K [] (c :: buf) maxlen maxlen) as (r & Er & Rr); [reflexivity|exact L|lia|]. exists r. split; [exact Er|exact Rr].
  Qed.

  Definition printed (minus : bool) (ds : list N) (point : bool) (fs : list N) : literal := Literal minus ds point fs None.
  Lemma printed_text : forall minus ds point fs, (point = false -> fs = []) ->
    literal_text (printed minus ds point fs) = (if minus then [45%N] else []) ++ digits_text ds ++ fraction_text point fs.
  Proof using.
    intros minus ds point fs H. unfold literal_text, printed. cbn [lit_minus lit_before lit_point lit_after lit_exponent exponent_text].
    rewrite app_nil_r. destruct point; [reflexivity|]. rewrite (H eq_refl). reflexivity.
  Qed.

  Lemma finite_shown : forall v, is_finite v = true -> forall ns flags,
    (pos (if shown_minus v ns flags then dneg v else v) (Rabs (B2R v)) /\
     (shown_minus v ns flags = true -> Bsign v = true)) \/
    ((if shown_minus v ns flags then dneg v else v) = B754_zero true /\ B2R v = 0 /\ shown_minus v ns flags = false).
  Proof using.
    intros v F ns flags. unfold shown_minus. rewrite (finite_not_nan v F), dlt_zero.
    destruct v as [s|s| |s m e B]; try discriminate; cbn [Bsign B2R].
    - destruct s, (N.testbit flags 7); cbn [andb orb].
      + left. split; [|reflexivity]. repeat split. cbn. now rewrite Rabs_R0.
      + right. auto.
      + left. split; [|discriminate]. repeat split. cbn. now rewrite Rabs_R0.
      + left. split; [|discriminate]. repeat split. cbn. now rewrite Rabs_R0.
    - left. assert (A : Rabs (F2R (Float radix2 (SpecFloat.cond_Zopp s (Z.pos m)) e)) = F2R (Float radix2 (Z.pos m) e)).
      { rewrite <- F2R_Zabs. f_equal. f_equal. destruct s; reflexivity. }
      destruct s.
      + rewrite orb_true_r. split; [|reflexivity]. split; [reflexivity|]. split; [reflexivity|]. cbn [dneg Bopp B2R negb]. rewrite A. reflexivity.
      + rewrite andb_false_r. cbn [orb]. split; [|discriminate]. split; [reflexivity|]. split; [reflexivity|]. cbn [B2R]. rewrite A. reflexivity.
  Qed.

  Lemma double_ok : forall v ns flags precision, is_finite v = true -> Rabs (B2R v) < IZR (2 ^ 56) ->
    exists x' ds point fs, adjusted (Rabs (B2R v)) x' (used_precision flags precision) /\
      canonical 10 (Z.to_N (Zfloor x')) ds /\
      fraction_digits (shows_zeros flags precision) (shortest flags precision) (Z.to_nat (used_precision flags precision))
        (Z.to_N (unit_count (x' - IZR (Zfloor x')) (used_precision flags precision))) point fs /\
      (0 <= unit_count (x' - IZR (Zfloor x')) (used_precision flags precision) <= 10 ^ used_precision flags precision)%Z /\
      forall buf maxlen, (maxlen <= length buf)%nat ->
      exists r, print_double dbg cw buf maxlen v ns flags precision = Some r /\
        report_print (literal_text (printed (shown_minus v ns flags) ds point fs)) buf maxlen r.
  Proof using.
    intros v ns flags precision F U. set (v' := if shown_minus v ns flags then dneg v else v).
    assert (K : exists w, pos w (Rabs (B2R v)) /\ is_nan v' = false /\ is_finite v' = true /\ forall start buf ps maxlen,
        print_finite dbg cw start buf ps maxlen v' flags precision = print_finite dbg cw start buf ps maxlen w flags precision).
    { destruct (finite_shown v F ns flags) as [[P _]|(E & Z & _)].
      - exists v'. fold v' in P. split; [exact P|]. destruct P as (Fv & _). split; [now apply finite_not_nan|]. split; [exact Fv|]. intros. exact eq_refl.
      - exists (B754_zero false). rewrite Z, Rabs_R0. split; [repeat split|]. fold v' in E. rewrite E. split; [reflexivity|]. split; [reflexivity|].
        intros. apply print_finite_zero. }
    destruct K as (w & Pw & Nn & Ff & Eq).
    destruct (finite_ok w _ flags precision Pw U) as (x' & ds & point & fs & A & C & Fd & Ld & K).
    exists x', ds, point, fs. split; [exact A|]. split; [exact C|]. split; [exact Fd|]. split; [exact Ld|].
    intros buf maxlen L. rewrite printed_text by apply Fd.
    apply signed_ok; [destruct C as (_ & _ & Ne & _); destruct ds; [congruence|discriminate]| |assumption].
    fold v'. intros pre rest ml start Es Lb Ml. cbv zeta. rewrite Nn, Ff. cbn [negb]. rewrite Eq. now apply K.
  Qed.

  (** nan and inf *)
  Lemma special_ok : forall text pre rest maxlen start, start = (length pre + maxlen)%nat -> (start <= length (pre ++ rest))%nat ->
    (0 < maxlen)%nat -> (0 < length text)%nat ->
    exists r, (' (r, b) <- at_dest (pre ++ rest) (length pre) (fun dest => tmc_print_string dest maxlen text) ;;
          Some (combine_conv (Conv (start - maxlen) OK) r, b)) = Some r /\ report_print (pre ++ text) (pre ++ rest) start r.
  Proof using.
    intros text pre rest maxlen start Es L Ml Lt. rewrite at_dest_app.
    assert (Lr : (maxlen <= length rest)%nat) by (rewrite app_length in L; lia).
    destruct (print_string_correct rest maxlen text) as ([c b] & E & R); [assumption|assumption|destruct text; [cbn in Lt; lia|discriminate]|]. rewrite E.
    destruct (report_at pre _ _ _ _ _ Lr R) as (Ls & [(E1 & E2 & E3)|(E1 & E2 & E3 & E4 & E5)]); eexists; (split; [reflexivity|]);
      unfold combine_conv; cbn [cv_size cv_ec]; rewrite E1, E2.
    - subst b. replace (start - maxlen + length text)%nat with (length pre + length text)%nat by lia. apply report_ok. lia.
    - replace (start - maxlen + maxlen)%nat with start by lia. subst start.
      apply report_too_long; [rewrite app_length; lia|assumption|assumption].
  Qed.
  Lemma nan_ok : forall v ns flags precision, is_nan v = true -> forall buf maxlen, (maxlen <= length buf)%nat ->
      exists r, print_double dbg cw buf maxlen v ns flags precision = Some r /\
        report_print ((if N.testbit flags 7 && ns then [45] else []) ++ (if N.testbit flags 6 then [110; 97; 110] else [78; 65; 78]))%N buf maxlen r.
  Proof using.
    intros v ns flags precision Hn buf maxlen L. destruct v; try discriminate.
    assert (M : shown_minus B754_nan ns flags = N.testbit flags 7 && ns) by (unfold shown_minus; rewrite dlt_zero; cbn [is_nan]; apply orb_false_r).
    rewrite <- M. apply signed_ok; [destruct (N.testbit flags 6); discriminate| |assumption].
    intros pre rest ml start Es Lb Ml. cbv zeta.
    destruct (shown_minus B754_nan ns flags); cbn [dneg Bopp is_nan];
    cbv beta; (apply special_ok; [assumption|assumption|assumption|]; change PF_LOWERCASE with 6%N; destruct (N.testbit flags 6); cbn; lia).
  Qed.
  Lemma inf_ok : forall s ns flags precision buf maxlen, (maxlen <= length buf)%nat ->
      exists r, print_double dbg cw buf maxlen (B754_infinity s) ns flags precision = Some r /\
        report_print ((if s then [45] else []) ++ (if N.testbit flags 6 then [105; 110; 102] else [73; 78; 70]))%N buf maxlen r.
  Proof using.
    intros s ns flags precision buf maxlen L.
    assert (M : shown_minus (B754_infinity s) ns flags = s) by (unfold shown_minus; rewrite dlt_zero; cbn [is_nan Bsign]; destruct s, (N.testbit flags 7); reflexivity).
    replace (if s then [45%N] else []) with (if shown_minus (B754_infinity s) ns flags then [45%N] else []) by (rewrite M; reflexivity).
    apply signed_ok; [destruct (N.testbit flags 6); discriminate| |assumption].
    intros pre rest ml start Es Lb Ml. cbv zeta. rewrite M.
    destruct s; cbn [dneg Bopp is_nan is_finite negb];
    (apply special_ok; [assumption|assumption|assumption|]; change PF_LOWERCASE with 6%N; destruct (N.testbit flags 6); cbn; lia).
  Qed.
End PrintDouble.
