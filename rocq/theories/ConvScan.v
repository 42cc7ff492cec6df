(** Integer scanning (tm_conversion.h 832-1371). *)
From Coq Require Import NArith ZArith List Bool Lia ZifyBool ZifyNat ZifyN.
From Verif Require Import Base CTypeModel U128Text DigitsSpec DigitsProofs ConvModel ConvSpec.
Import ListNotations.
Local Open Scope N_scope.

(** State of the loop after the digits [ds]; [M] is the largest magnitude accepted. *)
Definition scanned_int (M b : N) (ds : list N) (st : N * bool) : Prop :=
  snd st = (M <? number b ds) /\ (snd st = false -> fst st = number b ds).

Section Loop.
  Variables (W M b : N).
  Hypotheses (Hb1 : 2 <= b) (Hb2 : b <= 36) (HM : M < W).

  Lemma scan_int_step : forall ds st d, d < b -> scanned_int M b ds st ->
    scanned_int M b (ds ++ [d]) (scan_int_digit W b (M / b) (M mod b) st d).
  Proof using All.
    intros ds [v re] d Hd [S1 S2]. cbn [fst snd] in *.
    assert (Mono : number b ds <= number b (ds ++ [d])) by (apply number_app_le; lia).
    unfold scan_int_digit. destruct re.
    - cbn [orb]. split; cbn [fst snd]; [|discriminate].
      symmetry in S1 |- *. apply N.ltb_lt in S1. apply N.ltb_lt. lia.
    - cbn [orb]. specialize (S2 eq_refl). rewrite range_check by lia.
      unfold scanned_int. rewrite number_snoc, <- S2.
      destruct (N.ltb_spec M (v * b + d)) as [H|H]; cbn [fst snd].
      + split; [reflexivity|discriminate].
      + split; [reflexivity|]. intros _.
        rewrite N.add_mod_idemp_l by lia. apply N.mod_small. lia.
  Qed.

  Lemma scan_int_loop_correct : forall s ds st dist rest,
    Forall is_byte s -> ~ In 0 s -> scanned_int M b ds st ->
    exists st', scan_int_loop W b (M / b) (M mod b) st dist (s ++ 0 :: rest)
      = Some (st', (dist + length (digit_run b s))%nat) /\ scanned_int M b (ds ++ digit_run b s) st'.
  Proof using All.
    induction s as [|c s IH]; intros ds st dist rest F N0 Sc.
    - exists st. cbn [app scan_int_loop digit_run length N.eqb]. rewrite Nat.add_0_r, app_nil_r. auto.
    - inversion F as [|? ? Hc F']; subst. cbn [app scan_int_loop digit_run].
      destruct (N.eqb_spec c 0) as [->|_]; [exfalso; apply N0; now left|].
      rewrite scan_digit_spec by assumption.
      destruct (digit_value c) as [d|].
      2:{ exists st. cbn [length]. rewrite Nat.add_0_r, app_nil_r. auto. }
      destruct (N.leb_spec b d) as [H|H].
      + destruct (N.ltb_spec d b); [lia|]. exists st. cbn [length]. rewrite Nat.add_0_r, app_nil_r. auto.
      + destruct (N.ltb_spec d b); [|lia].
        destruct (IH (ds ++ [d]) (scan_int_digit W b (M / b) (M mod b) st d) (S dist) rest F')
          as (st' & E & S'); [intro; apply N0; now right|now apply scan_int_step|].
        exists st'. rewrite E. cbn [length]. rewrite Nat.add_succ_r.
        rewrite <- app_assoc in S'. auto.
  Qed.

  Lemma scan_int_n_loop_correct : forall len s ds st dist,
    Forall is_byte s -> (len <= length s)%nat -> scanned_int M b ds st ->
    exists st', scan_int_n_loop W b (M / b) (M mod b) st dist s len
      = Some (st', (dist + length (digit_run b (firstn len s)))%nat) /\
      scanned_int M b (ds ++ digit_run b (firstn len s)) st'.
  Proof using All.
    induction len as [|len IH]; intros s ds st dist F L Sc.
    - exists st. cbn [firstn scan_int_n_loop digit_run length]. rewrite Nat.add_0_r, app_nil_r. auto.
    - destruct s as [|c s]; [cbn in L; lia|].
      inversion F as [|? ? Hc F']; subst. cbn [firstn scan_int_n_loop digit_run].
      rewrite scan_digit_spec by assumption.
      destruct (digit_value c) as [d|].
      2:{ exists st. cbn [length]. rewrite Nat.add_0_r, app_nil_r. auto. }
      destruct (N.leb_spec b d) as [H|H].
      + destruct (N.ltb_spec d b); [lia|]. exists st. cbn [length]. rewrite Nat.add_0_r, app_nil_r. auto.
      + destruct (N.ltb_spec d b); [|lia].
        destruct (IH s (ds ++ [d]) (scan_int_digit W b (M / b) (M mod b) st d) (S dist) F')
          as (st' & E & S'); [cbn in L; lia|now apply scan_int_step|].
        exists st'. rewrite E. cbn [length]. rewrite Nat.add_succ_r.
        rewrite <- app_assoc in S'. auto.
  Qed.
End Loop.

Lemma scanned_int_nil : forall M b, scanned_int M b [] (0, false).
Proof. intros. split; [|reflexivity]. cbn. symmetry. apply N.ltb_ge. lia. Qed.

Lemma unsigned_finish_correct : forall M b s st out, scanned_int M b (digit_run b s) st ->
  scan_unsigned_finish out (st, length (digit_run b s)) = report_unsigned (scan_spec M b s) out.
Proof.
  intros M b s [v re] out [S1 S2]. cbn [fst snd] in *. unfold scan_spec, scan_unsigned_finish.
  destruct (digit_run b s) as [|d ds] eqn:E; [reflexivity|]. cbn [length Nat.eqb].
  destruct re.
  - symmetry in S1. apply N.ltb_lt in S1.
    destruct (N.leb_spec (number b (d :: ds)) M); [lia|]. destruct out; reflexivity.
  - symmetry in S1. apply N.ltb_ge in S1.
    destruct (N.leb_spec (number b (d :: ds)) M); [|lia]. rewrite S2 by reflexivity.
    destruct out; reflexivity.
Qed.

Lemma base_ok : forall A b (k : option A), 2 <= b -> b <= 36 -> assert_ ((2 <=? b) && (b <=? 36)) k = k.
Proof.
  intros. unfold assert_. destruct (N.leb_spec 2 b); [|lia]. destruct (N.leb_spec b 36); [|lia]. reflexivity.
Qed.

Lemma scan_unsigned_correct : forall W s rest out b, 0 < W -> 2 <= b -> b <= 36 ->
  Forall is_byte s -> ~ In 0 s ->
  scan_unsigned W (Some (s ++ 0 :: rest)) out b = Some (report_unsigned (scan_spec (W - 1) b s) out).
Proof.
  intros W s rest out b HW H1 H2 F N0. unfold scan_unsigned. rewrite base_ok by assumption.
  destruct (scan_int_loop_correct W (W - 1) b H1 H2 ltac:(lia) s [] (0, false) 0 rest F N0
    (scanned_int_nil _ _)) as (st & E & Sc).
  rewrite E. cbn [plus app] in *. f_equal. now apply unsigned_finish_correct.
Qed.
Lemma scan_unsigned_n_correct : forall W s len out b, 0 < W -> 2 <= b -> b <= 36 ->
  Forall is_byte s -> (len <= length s)%nat ->
  scan_unsigned_n W s len out b = Some (report_unsigned (scan_spec (W - 1) b (firstn len s)) out).
Proof.
  intros W s len out b HW H1 H2 F L. unfold scan_unsigned_n. rewrite base_ok by assumption.
  destruct (Nat.eqb_spec len 0) as [->|Hl]; [reflexivity|].
  destruct (scan_int_n_loop_correct W (W - 1) b H1 H2 ltac:(lia) len s [] (0, false) 0 F L
    (scanned_int_nil _ _)) as (st & E & Sc).
  rewrite E. cbn [plus app] in *. f_equal. now apply unsigned_finish_correct.
Qed.

(** * Signed *)

(** The sign and the rest of the text. *)
Definition unsigned_part (s : list N) : bool * list N :=
  match s with
  | c :: t => if c =? 45 then (true, t) else (false, s)
  | [] => (false, [])
  end.

Lemma spec_unsigned_part : forall lo hi b s, scan_signed_spec lo hi b s =
  let (neg, t) := unsigned_part s in
  match digit_run b t with
  | [] => NoInteger
  | ds =>
    let value := ((if neg then (-1) else 1) * Z.of_N (number b ds))%Z in
    let chars := ((if neg : bool then 1 else 0) + length ds)%nat in
    if ((lo <=? value) && (value <=? hi))%Z then Integer chars value else OutOfRange chars
  end.
Proof.
  intros lo hi b s. unfold scan_signed_spec, unsigned_part.
  destruct s as [|c t]; [reflexivity|].
  destruct (N.eqb_spec c 45) as [->|H].
  - replace (length (45%N :: t) - length t)%nat with 1%nat by (cbn [length]; lia). reflexivity.
  - assert (E : (let (sign, t0) := match c with 45 => ((-1)%Z, t) | _ => (1%Z, c :: t) end in (sign, t0))
      = (1%Z, c :: t)).
    { destruct c as [|p]; [reflexivity|]. do 6 (destruct p as [p|p|]; try reflexivity). contradiction. }
    destruct (match c with 45 => ((-1)%Z, t) | _ => (1%Z, c :: t) end) as [sg t0].
    injection E as -> ->. rewrite Nat.sub_diag. reflexivity.
Qed.

(** The one outcome for which the code is undefined: the minimum, with a place to store it. *)
Definition stores_minimum (W : N) (o : signed_outcome) (out : option Z) : bool :=
  match o, out with
  | Integer _ v, Some _ => Z.eqb v (- Z.of_N (W / 2))
  | _, _ => false
  end.

Section Signed.
  Variables (W : N).
  Hypotheses (HW : W mod 2 = 0) (HW0 : 2 <= W).

  Let half_pos : W = 2 * (W / 2) /\ 1 <= W / 2.
  Proof using All.
    pose proof (N.div_mod W 2) as D. set (h := W / 2) in *. clearbody h. lia.
  Qed.

  Lemma signed_finish_correct : forall b s st out,
    let (neg, t) := unsigned_part s in
    scanned_int (if neg then W / 2 else W / 2 - 1) b (digit_run b t) st ->
    let o := scan_signed_spec (- Z.of_N (W / 2)) (Z.of_N (W / 2) - 1) b s in
    scan_signed_finish W neg out (st, ((if neg : bool then 1 else 0) + length (digit_run b t))%nat) =
      if stores_minimum W o out then None else Some (report_signed o out).
  Proof using All.
    intros b s [v re] out. pose proof (spec_unsigned_part (- Z.of_N (W / 2)) (Z.of_N (W / 2) - 1) b s) as E.
    destruct (unsigned_part s) as [neg t]. intros [S1 S2]. cbn [fst snd] in *. cbv zeta. rewrite E. clear E.
    destruct half_pos as [HW1 HW2].
    destruct (digit_run b t) as [|d ds] eqn:Ed.
    { cbn [length stores_minimum]. destruct neg; reflexivity. }
    set (n := number b (d :: ds)) in *.
    assert (Hs : forall x, x < W / 2 -> to_signed W x = Z.of_N x).
    { intros x Hx. unfold to_signed. destruct (N.ltb_spec x (W / 2)); [reflexivity|lia]. }
    unfold scan_signed_finish.
    replace (((if neg then 1 else 0) + length (d :: ds) =? 0)%nat
      || (neg && ((if neg then 1 else 0) + length (d :: ds) =? 1)%nat))%bool with false
      by (destruct neg; cbn [length]; reflexivity).
    destruct re.
    - symmetry in S1. apply N.ltb_lt in S1.
      replace ((- Z.of_N (W / 2) <=? (if neg then -1 else 1) * Z.of_N n) &&
        ((if neg then -1 else 1) * Z.of_N n <=? Z.of_N (W / 2) - 1))%Z with false
        by (symmetry; apply andb_false_iff; destruct neg; lia).
      cbn [stores_minimum report_signed]. destruct out; reflexivity.
    - symmetry in S1. apply N.ltb_ge in S1. specialize (S2 eq_refl). subst v.
      replace ((- Z.of_N (W / 2) <=? (if neg then -1 else 1) * Z.of_N n) &&
        ((if neg then -1 else 1) * Z.of_N n <=? Z.of_N (W / 2) - 1))%Z with true
        by (symmetry; apply andb_true_iff; destruct neg; lia).
      cbn [stores_minimum report_signed]. destruct out as [o|]; [|reflexivity]. cbn [option_map].
      destruct neg.
      + unfold neg_signed, int_min, assert_.
        destruct (N.lt_ge_cases n (W / 2)) as [Hn|Hn].
        * rewrite Hs by assumption.
          destruct (Z.eqb_spec (Z.of_N n) (- Z.of_N (W / 2))); [lia|]. cbn [negb].
          destruct (Z.eqb_spec (-1 * Z.of_N n) (- Z.of_N (W / 2))); [lia|].
          replace (-1 * Z.of_N n)%Z with (- Z.of_N n)%Z by lia. reflexivity.
        * unfold to_signed. destruct (N.ltb_spec n (W / 2)); [lia|].
          destruct (Z.eqb_spec (Z.of_N n - Z.of_N W) (- Z.of_N (W / 2))); [|lia]. cbn [negb].
          destruct (Z.eqb_spec (-1 * Z.of_N n) (- Z.of_N (W / 2))); [reflexivity|lia].
      + rewrite Hs by lia. destruct (Z.eqb_spec (1 * Z.of_N n) (- Z.of_N (W / 2))); [lia|].
        rewrite Z.mul_1_l. reflexivity.
  Qed.

  Lemma scan_signed_correct : forall s rest out b, 2 <= b -> b <= 36 -> Forall is_byte s -> ~ In 0 s ->
    let o := scan_signed_spec (- Z.of_N (W / 2)) (Z.of_N (W / 2) - 1) b s in
    scan_signed W (Some (s ++ 0 :: rest)) out b =
      if stores_minimum W o out then None else Some (report_signed o out).
  Proof using All.
    intros s rest out b H1 H2 F N0. destruct half_pos as [HW1 HW2].
    unfold scan_signed. rewrite base_ok by assumption.
    destruct (s ++ 0 :: rest) as [|c r] eqn:Es; [destruct s; discriminate|].
    pose proof (signed_finish_correct b s) as SF. unfold unsigned_part in SF.
    destruct s as [|c' t].
    { cbn [app] in Es. injection Es as <- <-. change (0 =? 45) with false. cbn [scan_int_loop N.eqb].
      apply (SF (0, false) out). apply scanned_int_nil. }
    cbn [app] in Es. injection Es as -> <-. destruct (N.eqb_spec c 45) as [->|Hc].
    - inversion F as [|? ? _ F']; subst.
      destruct (scan_int_loop_correct W (W / 2) b H1 H2 ltac:(lia) t [] (0, false) 1 rest F'
        (fun I => N0 (or_intror I)) (scanned_int_nil _ _)) as (st & E & Sc).
      rewrite E. apply SF. exact Sc.
    - change (c :: t ++ 0 :: rest) with ((c :: t) ++ 0 :: rest).
      destruct (scan_int_loop_correct W (W / 2 - 1) b H1 H2 ltac:(lia) (c :: t) [] (0, false) 0 rest F N0
         (scanned_int_nil _ _)) as (st & E & Sc).
      rewrite E. apply SF. exact Sc.
  Qed.

  Lemma scan_signed_n_correct : forall s len out b, 2 <= b -> b <= 36 -> Forall is_byte s ->
    (len <= length s)%nat ->
    let o := scan_signed_spec (- Z.of_N (W / 2)) (Z.of_N (W / 2) - 1) b (firstn len s) in
    scan_signed_n W s len out b =
      if stores_minimum W o out then None else Some (report_signed o out).
  Proof using All.
    intros s len out b H1 H2 F L. destruct half_pos as [HW1 HW2].
    unfold scan_signed_n. rewrite base_ok by assumption.
    destruct (Nat.eqb_spec len 0) as [->|Hl]; [reflexivity|].
    destruct s as [|c t]; [cbn in L; lia|]. destruct len as [|len]; [lia|].
    pose proof (signed_finish_correct b (firstn (S len) (c :: t))) as SF. unfold unsigned_part in SF.
    cbn [firstn] in *. cbn [length] in L.
    destruct (N.eqb_spec c 45) as [->|Hc].
    - inversion F as [|? ? _ F']; subst. rewrite Nat.sub_succ, Nat.sub_0_r.
      destruct (scan_int_n_loop_correct W (W / 2) b H1 H2 ltac:(lia) len t [] (0, false) 1 F'
        ltac:(lia) (scanned_int_nil _ _)) as (st & E & Sc).
      rewrite E. apply SF. exact Sc.
    - destruct (scan_int_n_loop_correct W (W / 2 - 1) b H1 H2 ltac:(lia) (S len) (c :: t) [] (0, false) 0 F
         ltac:(cbn [length]; lia) (scanned_int_nil _ _)) as (st & E & Sc).
      rewrite E. apply SF. exact Sc.
  Qed.
End Signed.
