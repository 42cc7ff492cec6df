(** scan_double and scan_double_n on a literal: lengths, error codes, and the value in terms of the
    digits. *)
From Coq Require Import ZArith NArith List Bool Lia ZifyBool ZifyNat ZifyN.
From Verif Require Import Base CTypeModel U128Text DigitsSpec DigitsProofs ConvModel ConvSpec ConvScan Fp DblModel DblSpec DblScan.
Import ListNotations.
Local Open Scope N_scope.

Definition mantissa_text (l : literal) : list N :=
  digits_text (lit_before l) ++ (if lit_point l then [46] else []) ++ digits_text (lit_after l).

(** As [well_formed], but the digits may be missing if there is a point. *)
Definition lexical (l : literal) : Prop :=
  decimal (lit_before l) /\ decimal (lit_after l) /\
  (lit_before l <> [] \/ lit_point l = true) /\
  (lit_point l = false -> lit_after l = []) /\
  match lit_exponent l with None => True | Some e => decimal (ep_digits e) /\ ep_digits e <> [] end.

Lemma well_formed_lexical : forall l, well_formed l -> lexical l.
Proof.
  intros l (A & B & C & D & E). repeat split; try assumption.
  destruct (lit_point l); [now right|]. rewrite (D eq_refl) in C. destruct C as [C|C]; [now left|congruence].
Qed.

Lemma digit_chars : forall ds, decimal ds -> Forall (fun c => is_digit c = true) (digits_text ds).
Proof.
  intros ds F. induction F as [|d ds H F IH]; [constructor|]. cbn [digits_text map]. constructor; [|assumption].
  unfold is_digit. lia.
Qed.
Lemma digits_text_length : forall ds, length (digits_text ds) = length ds.
Proof. intros. apply map_length. Qed.
Lemma digs_digits_text : forall ds, decimal ds -> digs (digits_text ds) = ds.
Proof.
  intros ds F. induction F as [|d ds H F IH]; [reflexivity|]. cbn [digits_text map].
  rewrite digs_digit by (unfold is_digit; lia). f_equal; [lia|exact IH].
Qed.
Lemma points_digits_text : forall ds, decimal ds -> points (digits_text ds) = 0%nat.
Proof.
  intros ds F. induction F as [|d ds H F IH]; [reflexivity|]. cbn [digits_text map].
  rewrite points_digit by (unfold is_digit; lia). exact IH.
Qed.
Lemma points_mantissa : forall l, lexical l -> points (mantissa_text l) = if lit_point l then 1%nat else 0%nat.
Proof.
  intros l (A & B & _). unfold mantissa_text. rewrite !points_app, !points_digits_text by assumption.
  destruct (lit_point l); reflexivity.
Qed.
Lemma dot_ok_mantissa : forall l, lexical l -> dot_ok (mantissa_text l).
Proof.
  intros l L. split; [|rewrite points_mantissa by assumption; destruct (lit_point l); lia].
  destruct L as (A & B & _). unfold mantissa_text. rewrite !Forall_app.
  pose proof (digit_chars _ A) as A'. pose proof (digit_chars _ B) as B'.
  repeat split; [|destruct (lit_point l); repeat constructor; now right|].
  - eapply Forall_impl; [|exact A']. cbn. auto.
  - eapply Forall_impl; [|exact B']. cbn. auto.
Qed.
Lemma digs_mantissa : forall l, lexical l -> digs (mantissa_text l) = all_digits l.
Proof.
  intros l (A & B & _). unfold mantissa_text, all_digits.
  rewrite !digs_app, !digs_digits_text by assumption. destruct (lit_point l); reflexivity.
Qed.
Lemma mantissa_length : forall l, lexical l ->
  length (mantissa_text l) = (length (lit_before l) + (if lit_point l then 1 else 0) + length (lit_after l))%nat.
Proof.
  intros l L. unfold mantissa_text. rewrite !app_length, !digits_text_length.
  destruct (lit_point l); cbn [length]; lia.
Qed.

(** * The mantissa loop *)

Lemma loop_digits : forall ds s n dot, decimal ds ->
  scan_mantissa_loop (digits_text ds ++ s) n dot = scan_mantissa_loop s (n + length ds) dot.
Proof.
  intros ds s n dot F. revert n. induction F as [|d ds H F IH]; intros n; [cbn [digits_text map app length]; now rewrite Nat.add_0_r|].
  cbn [digits_text map app scan_mantissa_loop length].
  destruct (N.eqb_spec (48 + d) 46); [lia|]. assert (E : is_digit (48 + d) = true) by (unfold is_digit; lia).
  rewrite E. fold (digits_text ds). rewrite IH. f_equal. lia.
Qed.
Lemma loop_digits_n : forall ds s len n dot, decimal ds ->
  scan_mantissa_n_loop (digits_text ds ++ s) (length ds + len) n dot = scan_mantissa_n_loop s len (n + length ds) dot.
Proof.
  intros ds s len n dot F. revert n. induction F as [|d ds H F IH]; intros n; [cbn [digits_text map app length plus]; now rewrite Nat.add_0_r|].
  cbn [digits_text map app scan_mantissa_n_loop length plus].
  destruct (N.eqb_spec (48 + d) 46); [lia|]. assert (E : is_digit (48 + d) = true) by (unfold is_digit; lia).
  rewrite E. fold (digits_text ds). rewrite IH. f_equal. lia.
Qed.

Definition dot_of (l : literal) : option nat := if lit_point l then Some (length (lit_before l)) else None.
(** [tl] does not continue the mantissa. *)
Definition stops (l : literal) (tl : list N) : Prop :=
  ~ starts_with_digit tl /\ (lit_point l = false -> hd 0 tl <> 46).

Lemma not_digit : forall c r, ~ starts_with_digit (c :: r) -> is_digit c = false.
Proof. intros c r H. cbn in H. unfold is_decimal_char in H. unfold is_digit. lia. Qed.

Lemma mantissa_loop_literal : forall l tl, lexical l -> stops l tl -> tl <> [] ->
  scan_mantissa_loop (mantissa_text l ++ tl) 0 None = Some (length (mantissa_text l), dot_of l).
Proof.
  intros l tl L [S1 S2] Ne. rewrite mantissa_length by assumption. destruct L as (A & B & C & D & _).
  unfold mantissa_text, dot_of. rewrite <- !app_assoc, loop_digits by assumption.
  destruct tl as [|c r]; [congruence|]. apply not_digit in S1.
  destruct (lit_point l) eqn:P.
  - cbn [app scan_mantissa_loop N.eqb Pos.eqb]. rewrite loop_digits by assumption.
    cbn [app scan_mantissa_loop]. rewrite S1. destruct (c =? 46); f_equal; f_equal; lia.
  - rewrite (D eq_refl). cbn [digits_text map app scan_mantissa_loop length].
    specialize (S2 eq_refl). cbn [hd] in S2. destruct (N.eqb_spec c 46); [congruence|]. rewrite S1.
    do 2 f_equal. lia.
Qed.

Lemma mantissa_n_loop_literal : forall l tl more, lexical l -> stops l tl ->
  scan_mantissa_n_loop (mantissa_text l ++ tl ++ more) (length (mantissa_text l) + length tl) 0 None
    = Some (length (mantissa_text l), dot_of l, length tl).
Proof.
  intros l tl more L [S1 S2]. rewrite mantissa_length by assumption. destruct L as (A & B & C & D & _).
  unfold mantissa_text, dot_of. rewrite <- !app_assoc, <- !Nat.add_assoc, loop_digits_n by assumption.
  assert (Stop : forall n dot, (lit_point l = true -> dot <> None) ->
    scan_mantissa_n_loop (tl ++ more) (length tl) n dot = Some (n, dot, length tl)).
  { intros n dot Hd. destruct tl as [|c r]; [reflexivity|]. apply not_digit in S1.
    cbn [app length scan_mantissa_n_loop]. rewrite S1.
    destruct (N.eqb_spec c 46) as [E|E]; [|reflexivity].
    destruct dot; [reflexivity|]. destruct (lit_point l); [now destruct (Hd eq_refl)|now destruct (S2 eq_refl)]. }
  destruct (lit_point l) eqn:P.
  - cbn [app plus scan_mantissa_n_loop N.eqb Pos.eqb]. rewrite loop_digits_n by assumption.
    rewrite Stop by discriminate. do 3 f_equal. lia.
  - rewrite (D eq_refl). cbn [digits_text map app length plus].
    rewrite Stop by discriminate. do 3 f_equal. lia.
Qed.

(** * The exponent *)

Definition exponent_result (x : option exponent_part) : exponent_scan :=
  match x with
  | None => NoExponent
  | Some e =>
    let k := number 10 (ep_digits e) in
    let chars := length (exponent_text x) in
    if 2147483647 <? k then ExponentError ERANGE chars
    else if 511 <? k then ExponentError EOVERFLOW chars
    else Exponent (match ep_sign e with Some true => true | _ => false end) (Z.of_N k) chars
  end.

Lemma digits_text_char : forall ds, decimal ds -> digits_text ds = map (digit_char false) ds.
Proof.
  intros ds F. induction F as [|d ds H F IH]; [reflexivity|]. cbn [digits_text map]. f_equal; [|exact IH].
  assert (In d [0;1;2;3;4;5;6;7;8;9]) as I by (cbn; lia). clear -I.
  repeat (destruct I as [<-|I]; [reflexivity|]). destruct I.
Qed.

Lemma digit_run_stop : forall s, Forall is_byte s -> ~ starts_with_digit s -> digit_run 10 s = [].
Proof.
  intros s F H. destruct s as [|c r]; [reflexivity|]. inversion F; subst. cbn [digit_run].
  rewrite <- scan_digit_spec by assumption. apply not_digit in H. unfold scan_digit. rewrite H.
  destruct (is_upper c) eqn:U; [|destruct (is_lower c) eqn:Lo; [|reflexivity]].
  - unfold is_upper in U. destruct (N.ltb_spec (c - 65 + 10) 10); [lia|reflexivity].
  - unfold is_lower in Lo. destruct (N.ltb_spec (c - 97 + 10) 10); [lia|reflexivity].
Qed.

Lemma digit_run_text : forall ds rest, decimal ds -> Forall is_byte rest -> ~ starts_with_digit rest ->
  digit_run 10 (digits_text ds ++ rest) = ds.
Proof.
  intros ds rest D F H. rewrite digits_text_char by assumption.
  apply digit_run_chars; [lia|assumption|now apply digit_run_stop].
Qed.

Lemma digits_text_bytes : forall ds, decimal ds -> Forall is_byte (digits_text ds).
Proof.
  intros ds F. induction F as [|d ds H F IH]; [constructor|]. cbn [digits_text map]. constructor; [|assumption].
  unfold is_byte. lia.
Qed.
Lemma digits_text_nonzero : forall ds, ~ In 0 (digits_text ds).
Proof. intros ds I. apply in_map_iff in I. destruct I as (d & E & _). lia. Qed.

Lemma signed_finish_digits : forall ds st, ds <> [] ->
  scanned_int 2147483647 10 ds st ->
  scan_signed_finish W32 false (Some 0%Z) (st, length ds) =
    Some (if 2147483647 <? number 10 ds then (Conv (length ds) ERANGE, Some 0%Z)
          else (Conv (length ds) OK, Some (Z.of_N (number 10 ds)))).
Proof.
  intros ds [v re] Ne [S1 S2]. cbn [fst snd] in *. unfold scan_signed_finish.
  destruct ds as [|d ds]; [congruence|]. cbn [length Nat.eqb orb andb]. rewrite <- S1.
  destruct re; [reflexivity|]. rewrite S2 by reflexivity. do 3 f_equal.
  unfold to_signed. symmetry in S1. apply N.ltb_ge in S1.
  change (W32 / 2) with 2147483648. destruct (N.ltb_spec (number 10 (d :: ds)) 2147483648); [reflexivity|lia].
Qed.

Lemma scan_i32_digits : forall ds rest more, decimal ds -> ds <> [] -> Forall is_byte rest -> ~ In 0 rest ->
  ~ starts_with_digit rest ->
  scan_i32 (Some (digits_text ds ++ rest ++ 0 :: more)) (Some 0%Z) 10 =
    Some (if 2147483647 <? number 10 ds then (Conv (length ds) ERANGE, Some 0%Z)
          else (Conv (length ds) OK, Some (Z.of_N (number 10 ds)))).
Proof.
  intros ds rest more D Ne F N0 Hr. unfold scan_i32, scan_signed. rewrite base_ok by lia.
  pose proof (digit_run_text ds rest D F Hr) as DR.
  destruct (scan_int_loop_correct W32 2147483647 10 ltac:(lia) ltac:(lia) ltac:(lia) (digits_text ds ++ rest) []
    (0, false) 0 more) as (st & E & Sc).
  - apply Forall_app. split; [now apply digits_text_bytes|assumption].
  - rewrite in_app_iff. pose proof (digits_text_nonzero ds). tauto.
  - apply scanned_int_nil.
  - rewrite DR, <- app_assoc in E. rewrite DR in Sc. cbn [app plus] in E, Sc.
    destruct ds as [|d ds]; [congruence|]. inversion D; subst.
    cbn [digits_text map app] in *. destruct (N.eqb_spec (48 + d) 45); [lia|].
    change (W32 / 2 - 1) with 2147483647. rewrite E.
    exact (signed_finish_digits (d :: ds) st Ne Sc).
Qed.

Lemma scan_i32_n_digits : forall ds rest more, decimal ds -> ds <> [] -> Forall is_byte rest -> Forall is_byte more ->
  ~ starts_with_digit rest ->
  scan_i32_n (digits_text ds ++ rest ++ more) (length ds + length rest) (Some 0%Z) 10 =
    Some (if 2147483647 <? number 10 ds then (Conv (length ds) ERANGE, Some 0%Z)
          else (Conv (length ds) OK, Some (Z.of_N (number 10 ds)))).
Proof.
  intros ds rest more D Ne F Fm Hr. unfold scan_i32_n, scan_signed_n. rewrite base_ok by lia.
  pose proof (digit_run_text ds rest D F Hr) as DR.
  destruct (scan_int_n_loop_correct W32 2147483647 10 ltac:(lia) ltac:(lia) ltac:(lia) (length ds + length rest)
    (digits_text ds ++ rest ++ more) [] (0, false) 0) as (st & E & Sc).
  - rewrite !Forall_app. split; [now apply digits_text_bytes|now split].
  - rewrite !app_length, digits_text_length. lia.
  - apply scanned_int_nil.
  - replace (firstn (length ds + length rest) (digits_text ds ++ rest ++ more)) with (digits_text ds ++ rest) in E, Sc.
    2:{ rewrite app_assoc, firstn_app. rewrite app_length, digits_text_length, Nat.sub_diag, firstn_O, app_nil_r.
        rewrite firstn_all2; [reflexivity|]. rewrite app_length, digits_text_length. lia. }
    rewrite DR in E, Sc. cbn [app plus] in E, Sc.
    destruct ds as [|d ds]; [congruence|]. inversion D; subst.
    cbn [length plus Nat.eqb digits_text map app] in *. destruct (N.eqb_spec (48 + d) 45); [lia|].
    change (W32 / 2 - 1) with 2147483647. rewrite E.
    exact (signed_finish_digits (d :: ds) st Ne Sc).
Qed.

Lemma exponent_finish : forall neg skipped ds,
  scan_exponent_finish neg skipped (if 2147483647 <? number 10 ds then (Conv (length ds) ERANGE, Some 0%Z)
          else (Conv (length ds) OK, Some (Z.of_N (number 10 ds)))) =
  Some (if 2147483647 <? number 10 ds then ExponentError ERANGE (skipped + length ds)
    else if 511 <? number 10 ds then ExponentError EOVERFLOW (skipped + length ds)
    else Exponent neg (Z.of_N (number 10 ds)) (skipped + length ds)).
Proof.
  intros neg skipped ds. unfold scan_exponent_finish.
  destruct (2147483647 <? number 10 ds); [reflexivity|]. cbn [cv_ec errc_eqb negb cv_size].
  destruct (N.ltb_spec 511 (number 10 ds)); destruct (Z.ltb_spec 511 (Z.of_N (number 10 ds))); try lia; reflexivity.
Qed.

Lemma digits_text_first : forall ds, decimal ds -> ds <> [] ->
  exists c r, digits_text ds = c :: r /\ is_digit c = true /\ c <> 45 /\ c <> 43.
Proof.
  intros ds D Ne. destruct ds as [|d ds]; [congruence|]. inversion D; subst.
  exists (48 + d), (digits_text ds). split; [reflexivity|]. unfold is_digit. lia.
Qed.

Ltac deref_step := cbn [app deref advance length Nat.leb assert_ skipn N.eqb Pos.eqb orb].

Lemma exponent_present : forall e rest more, decimal (ep_digits e) -> ep_digits e <> [] ->
  Forall is_byte rest -> ~ In 0 rest -> ~ starts_with_digit rest ->
  scan_exponent (exponent_text (Some e) ++ rest ++ 0 :: more) = Some (exponent_result (Some e)).
Proof.
  intros [up sg ds] rest more D Ne F N0 Hr. cbn [ep_upper ep_sign ep_digits exponent_text exponent_result] in *.
  destruct (digits_text_first ds D Ne) as (c & r & E & Hc & H45 & H43).
  pose proof (scan_i32_digits ds rest more D Ne F N0 Hr) as R.
  unfold scan_exponent. cbn [app deref].
  replace (((if up then 69 else 101) =? 101) || ((if up then 69 else 101) =? 69)) with true by (destruct up; reflexivity).
  unfold advance at 1. cbn [length Nat.leb assert_ skipn].
  destruct sg as [[|]|]; cbn [app deref N.eqb Pos.eqb].
  - unfold advance. cbn [length Nat.leb assert_ skipn]. rewrite E in *. cbn [app deref] in *. rewrite Hc, R.
    rewrite exponent_finish. cbn [length]. rewrite <- (digits_text_length ds), E. reflexivity.
  - unfold advance. cbn [length Nat.leb assert_ skipn]. rewrite E in *. cbn [app deref] in *. rewrite Hc, R.
    rewrite exponent_finish. cbn [length]. rewrite <- (digits_text_length ds), E. reflexivity.
  - rewrite E in *. cbn [app deref] in *.
    destruct (N.eqb_spec c 45); [congruence|]. destruct (N.eqb_spec c 43); [congruence|].
    cbn [deref]. rewrite Hc, R.
    rewrite exponent_finish. cbn [length]. rewrite <- (digits_text_length ds), E. reflexivity.
Qed.

Lemma exponent_present_n : forall e rest more, decimal (ep_digits e) -> ep_digits e <> [] ->
  Forall is_byte rest -> Forall is_byte more -> ~ starts_with_digit rest ->
  scan_exponent_n (exponent_text (Some e) ++ rest ++ more) (length (exponent_text (Some e)) + length rest)
    = Some (exponent_result (Some e)).
Proof.
  intros [up sg ds] rest more D Ne F Fm Hr. cbn [ep_upper ep_sign ep_digits exponent_text exponent_result] in *.
  destruct (digits_text_first ds D Ne) as (c & r & E & Hc & H45 & H43).
  pose proof (scan_i32_n_digits ds rest more D Ne F Fm Hr) as R.
  pose proof (digits_text_length ds) as DL.
  unfold scan_exponent_n. cbn [app deref length plus].
  replace (((if up then 69 else 101) =? 101) || ((if up then 69 else 101) =? 69)) with true by (destruct up; reflexivity).
  unfold advance at 1. cbn [length Nat.leb assert_ skipn].
  destruct sg as [[|]|]; cbn [app deref N.eqb Pos.eqb length plus].
  - unfold advance. cbn [length Nat.leb assert_ skipn]. rewrite <- DL in R. rewrite E in *. cbn [app deref length plus] in *.
    rewrite Hc, R. rewrite DL. rewrite exponent_finish. reflexivity.
  - unfold advance. cbn [length Nat.leb assert_ skipn]. rewrite <- DL in R. rewrite E in *. cbn [app deref length plus] in *.
    rewrite Hc, R. rewrite DL. rewrite exponent_finish. reflexivity.
  - rewrite <- DL in R. rewrite E in *. cbn [app deref length plus] in *.
    destruct (N.eqb_spec c 45); [congruence|]. destruct (N.eqb_spec c 43); [congruence|].
    cbn [deref]. rewrite Hc, R. rewrite DL. rewrite exponent_finish. reflexivity.
Qed.

Lemma no_digit_there : forall s, ~ In 0 s -> ~ starts_with_digit s -> forall c r more, s ++ 0 :: more = c :: r -> is_digit c = false.
Proof.
  intros s N0 H c r more E. destruct s as [|x s]; cbn [app] in E; injection E as <- <-; [reflexivity|].
  eapply not_digit, H.
Qed.

(** A digit after e and an optional sign would be an exponent. *)
Lemma exponent_starts : forall up sg d s, is_digit d = true ->
  starts_exponent ((if up : bool then 69 else 101) :: match sg with None => [] | Some true => [45] | Some false => [43] end ++ d :: s).
Proof.
  intros up sg d s H. exists (ExponentPart up sg [d - 48]), s. cbn [ep_digits ep_upper ep_sign exponent_text digits_text map].
  split; [discriminate|]. unfold is_digit in H. split; [repeat constructor; lia|].
  replace (48 + (d - 48)) with d by lia. cbn [app]. f_equal. rewrite <- app_assoc. reflexivity.
Qed.

Lemma exponent_absent : forall rest more, ~ starts_exponent rest -> scan_exponent (rest ++ 0 :: more) = Some NoExponent.
Proof.
  intros rest more H. unfold scan_exponent.
  destruct rest as [|c rest]; [reflexivity|]. cbn [app deref].
  destruct ((c =? 101) || (c =? 69)) eqn:E; [|reflexivity].
  assert (Hup : exists up : bool, c = if up then 69 else 101).
  { apply orb_true_iff in E. destruct E as [E|E]; apply N.eqb_eq in E; [exists false|exists true]; assumption. }
  destruct Hup as [up ->]. unfold advance. cbn [length Nat.leb assert_ skipn].
  destruct rest as [|c1 rest]; [reflexivity|]. cbn [app deref].
  assert (Two : forall sg, c1 = (if sg : bool then 45 else 43) -> forall k,
    (c2 <- deref (rest ++ 0 :: more) ;; if is_digit c2 then k c2 else Some NoExponent) = Some NoExponent).
  { intros sg -> k. destruct rest as [|c2 rest]; [reflexivity|]. cbn [app deref].
    destruct (is_digit c2) eqn:D; [|reflexivity]. exfalso. apply H.
    pose proof (exponent_starts up (Some sg) c2 rest D) as X. destruct sg; exact X. }
  destruct (N.eqb_spec c1 45) as [E1|E1].
  { apply (Two true E1 (fun _ => r <- scan_i32 (Some (rest ++ 0 :: more)) (Some 0%Z) 10 ;; scan_exponent_finish true 2 r)). }
  destruct (N.eqb_spec c1 43) as [E2|E2].
  { apply (Two false E2 (fun _ => r <- scan_i32 (Some (rest ++ 0 :: more)) (Some 0%Z) 10 ;; scan_exponent_finish false 2 r)). }
  cbn [deref]. destruct (is_digit c1) eqn:D; [|reflexivity]. exfalso. apply H.
  exact (exponent_starts up None c1 rest D).
Qed.

Lemma exponent_absent_n : forall rest more, ~ starts_exponent rest ->
  scan_exponent_n (rest ++ more) (length rest) = Some NoExponent.
Proof.
  intros rest more H. unfold scan_exponent_n.
  destruct rest as [|c rest]; [reflexivity|]. cbn [app deref length].
  destruct ((c =? 101) || (c =? 69)) eqn:E; [|reflexivity].
  assert (Hup : exists up : bool, c = if up then 69 else 101).
  { apply orb_true_iff in E. destruct E as [E|E]; apply N.eqb_eq in E; [exists false|exists true]; assumption. }
  destruct Hup as [up ->]. unfold advance. cbn [length Nat.leb assert_ skipn].
  destruct rest as [|c1 rest]; [reflexivity|]. cbn [app deref length].
  assert (Two : forall sg, c1 = (if sg : bool then 45 else 43) -> forall k,
    match length rest with O => Some NoExponent | S _ =>
    (c2 <- deref (rest ++ more) ;; if is_digit c2 then k c2 else Some NoExponent) end = Some NoExponent).
  { intros sg -> k. destruct rest as [|c2 rest]; [reflexivity|]. cbn [app deref length].
    destruct (is_digit c2) eqn:D; [|reflexivity]. exfalso. apply H.
    pose proof (exponent_starts up (Some sg) c2 rest D) as X. destruct sg; exact X. }
  destruct (N.eqb_spec c1 45) as [E1|E1].
  { apply (Two true E1 (fun _ => r <- scan_i32_n (rest ++ more) (length rest) (Some 0%Z) 10 ;; scan_exponent_finish true 2 r)). }
  destruct (N.eqb_spec c1 43) as [E2|E2].
  { apply (Two false E2 (fun _ => r <- scan_i32_n (rest ++ more) (length rest) (Some 0%Z) 10 ;; scan_exponent_finish false 2 r)). }
  cbn [deref]. destruct (is_digit c1) eqn:D; [|reflexivity]. exfalso. apply H.
  exact (exponent_starts up None c1 rest D).
Qed.

(** * The whole function on a literal *)

(** The double computed from the digits; see [computed_value]. *)
Definition literal_double (l : literal) : option double :=
  computed_value (mantissa_text l) (lit_minus l) (point_position l) (length (all_digits l) - point_position l) (left_exponent l).

Definition literal_result (l : literal) (out : option double) : option (conv * option double) :=
  let size := length (literal_text l) in
  match exponent_result (lit_exponent l) with
  | ExponentError ec _ => Some (Conv size ec, out)
  | _ =>
    match out with
    | None => Some (Conv size OK, None)
    | Some _ => v <- literal_double l ;; Some (Conv size OK, Some v)
    end
  end.

Lemma all_digits_length : forall l, length (all_digits l) = (length (lit_before l) + length (lit_after l))%nat.
Proof. intros. apply app_length. Qed.

Lemma point_position_le : forall l, (point_position l <= length (all_digits l))%nat.
Proof. intros l. unfold point_position. lia. Qed.

Lemma move_point_literal : forall l, lexical l ->
  (match exponent_result (lit_exponent l) with ExponentError _ _ => False | _ => True end) ->
  let '(neg, e, _) := match exponent_result (lit_exponent l) with Exponent n e c => (n, e, c) | _ => (false, 0%Z, O) end in
  move_point (length (lit_before l)) (length (lit_after l)) neg e =
    (point_position l, (length (all_digits l) - point_position l)%nat, left_exponent l).
Proof.
  intros l L Ok. unfold left_exponent, point_position. rewrite all_digits_length. unfold exponent_value.
  destruct (lit_exponent l) as [[up sg ds]|]; cbn [exponent_result ep_digits ep_sign] in *.
  2:{ unfold move_point. destruct (Z.ltb_spec 0 (Z.of_nat (length (lit_after l)))); (apply (f_equal2 pair); [apply (f_equal2 pair)|]); lia. }
  destruct (2147483647 <? number 10 ds); [destruct Ok|]. destruct (511 <? number 10 ds); [destruct Ok|].
  unfold move_point. destruct sg as [[|]|].
  - destruct (Z.ltb_spec (Z.of_N (number 10 ds)) (Z.of_nat (length (lit_before l)))); (apply (f_equal2 pair); [apply (f_equal2 pair)|]); lia.
  - destruct (Z.ltb_spec (Z.of_N (number 10 ds)) (Z.of_nat (length (lit_after l)))); (apply (f_equal2 pair); [apply (f_equal2 pair)|]); lia.
  - destruct (Z.ltb_spec (Z.of_N (number 10 ds)) (Z.of_nat (length (lit_after l)))); (apply (f_equal2 pair); [apply (f_equal2 pair)|]); lia.
Qed.

Lemma exponent_result_chars : forall x, match exponent_result x with
  | NoExponent => x = None
  | Exponent _ _ c => c = length (exponent_text x)
  | ExponentError _ c => c = length (exponent_text x)
  end.
Proof.
  intros [e|]; [|reflexivity]. unfold exponent_result.
  destruct (2147483647 <? number 10 (ep_digits e)); [reflexivity|].
  destruct (511 <? number 10 (ep_digits e)); reflexivity.
Qed.

Lemma literal_text_length : forall l, length (literal_text l) =
  ((if lit_minus l then 1 else 0) + length (mantissa_text l) + length (exponent_text (lit_exponent l)))%nat.
Proof.
  intros l. unfold literal_text, mantissa_text. rewrite !app_length. destruct (lit_minus l); cbn [length]; lia.
Qed.

Lemma finish_literal : forall l tl out, lexical l -> (Z.of_nat (length (mantissa_text l)) <= 2147483647)%Z ->
  scan_double_finish (mantissa_text l ++ tl) (lit_minus l) (length (mantissa_text l)) (dot_of l)
    (exponent_result (lit_exponent l)) out = literal_result l out.
Proof.
  intros l tl out L B. unfold scan_double_finish, literal_result, assert_.
  destruct (Z.leb_spec (Z.of_nat (length (mantissa_text l))) 2147483647); [|lia].
  rewrite literal_text_length. pose proof (exponent_result_chars (lit_exponent l)) as EC.
  pose proof (move_point_literal l L) as MP.
  replace (match dot_of l with
     | None => (length (mantissa_text l), 0%nat)
     | Some i => (i, (length (mantissa_text l) - (i + 1))%nat)
     end) with (length (lit_before l), length (lit_after l)).
  2:{ unfold dot_of. rewrite mantissa_length by assumption. destruct L as (_ & _ & _ & D & _).
      destruct (lit_point l); [f_equal; lia|]. rewrite (D eq_refl). cbn [length]. f_equal. lia. }
  assert (Fin : forall n e c, c = length (exponent_text (lit_exponent l)) ->
    move_point (length (lit_before l)) (length (lit_after l)) n e =
      (point_position l, (length (all_digits l) - point_position l)%nat, left_exponent l) ->
    (let '(il, fl, e0) := move_point (length (lit_before l)) (length (lit_after l)) n e in
     out' <- match out with None => Some None
        | Some _ => v <- scan_value (mantissa_text l ++ tl) (lit_minus l) il fl e0 ;; Some (Some v) end ;;
     Some (Conv ((if lit_minus l then 1 else 0) + length (mantissa_text l) + c) OK, out')) =
    match out with
    | None => Some (Conv ((if lit_minus l then 1 else 0) + length (mantissa_text l) + length (exponent_text (lit_exponent l))) OK, None)
    | Some _ => v <- literal_double l ;; Some (Conv ((if lit_minus l then 1 else 0) + length (mantissa_text l) + length (exponent_text (lit_exponent l))) OK, Some v)
    end).
  { intros n e c -> ->. destruct out; [|reflexivity].
    rewrite scan_value_text; [|now apply dot_ok_mantissa|].
    2:{ rewrite digs_mantissa by assumption. pose proof (point_position_le l). lia. }
    unfold literal_double. destruct (computed_value _ _ _ _ _); reflexivity. }
  destruct (exponent_result (lit_exponent l)) as [|n e c|ec c].
  - apply Fin; [rewrite EC; reflexivity|apply MP, I].
  - apply Fin; [assumption|apply MP, I].
  - subst c. reflexivity.
Qed.

(** Something that starts with a literal. *)
Definition literal_at (l : literal) (rest : list N) : Prop :=
  lexical l /\ ends_before l rest /\ Forall is_byte rest /\
  (Z.of_nat (length (mantissa_text l)) <= 2147483647)%Z.

Lemma literal_text_split : forall l, literal_text l =
  (if lit_minus l then [45] else []) ++ mantissa_text l ++ exponent_text (lit_exponent l).
Proof. intros. unfold literal_text, mantissa_text. now rewrite <- !app_assoc. Qed.

Lemma stops_literal : forall l rest more, lexical l -> ends_before l rest ->
  stops l (exponent_text (lit_exponent l) ++ rest ++ 0 :: more) /\ stops l (exponent_text (lit_exponent l) ++ rest).
Proof.
  intros l rest more L [E1 E2]. unfold stops.
  destruct (lit_exponent l) as [e|] eqn:X.
  - cbn [exponent_text app starts_with_digit hd]. unfold is_decimal_char.
    destruct (ep_upper e); repeat split; intros; lia.
  - destruct (E2 eq_refl) as [_ E3]. cbn [exponent_text app].
    destruct rest as [|c r]; cbn [app starts_with_digit hd] in *; unfold is_decimal_char in *;
      repeat split; intros; try lia; auto.
Qed.

Lemma mantissa_nonempty : forall l, lexical l -> length (mantissa_text l) <> 0%nat.
Proof.
  intros l L. rewrite mantissa_length by assumption. destruct L as (_ & _ & [C|C] & _).
  - destruct (lit_before l); [congruence|]. cbn [length]. lia.
  - rewrite C. lia.
Qed.

Lemma mantissa_first : forall l tl, lexical l -> exists c r, mantissa_text l ++ tl = c :: r /\ c <> 45.
Proof.
  intros l tl L. pose proof (mantissa_nonempty l L) as Ne. destruct (dot_ok_mantissa l L) as [F _].
  destruct (mantissa_text l) as [|c r]; [cbn in Ne; lia|]. exists c, (r ++ tl). split; [reflexivity|].
  inversion F as [|? ? [H|H] _]; subst; [unfold is_digit in H; lia|lia].
Qed.

Lemma sign_read : forall l tl, lexical l ->
  exists c, deref ((if lit_minus l then [45] else []) ++ mantissa_text l ++ tl) = Some c /\
    (c =? 45) = lit_minus l /\
    (if lit_minus l then advance ((if lit_minus l then [45] else []) ++ mantissa_text l ++ tl) 1
     else Some ((if lit_minus l then [45] else []) ++ mantissa_text l ++ tl)) = Some (mantissa_text l ++ tl).
Proof.
  intros l tl L. destruct (lit_minus l).
  - exists 45. repeat split.
  - destruct (mantissa_first l tl L) as (c & r & E & H). exists c. cbn [app]. rewrite E. cbn [deref].
    split; [reflexivity|]. split; [now apply N.eqb_neq|reflexivity].
Qed.

Lemma scan_double_literal : forall l rest more out, literal_at l rest -> ~ In 0 rest ->
  scan_double (Some (literal_text l ++ rest ++ 0 :: more)) out = literal_result l out.
Proof.
  intros l rest more out (L & En & F & B) N0. rewrite literal_text_split, <- !app_assoc.
  destruct (stops_literal l rest more L En) as [St _].
  set (tl := exponent_text (lit_exponent l) ++ rest ++ 0 :: more) in *.
  destruct (sign_read l tl L) as (c & D & C & P). unfold scan_double. rewrite D, C, P.
  rewrite mantissa_loop_literal; [|assumption|assumption|].
  2:{ subst tl. destruct (exponent_text (lit_exponent l)), rest; discriminate. }
  rewrite advance_text by lia. rewrite skipn_all. cbn [app].
  assert (X : scan_exponent tl = Some (exponent_result (lit_exponent l))).
  { subst tl. destruct En as [E1 E2]. destruct L as (_ & _ & _ & _ & LE). destruct (lit_exponent l) as [e|].
    - destruct LE. now apply exponent_present.
    - destruct (E2 eq_refl). now apply exponent_absent. }
  rewrite X. pose proof (mantissa_nonempty l L) as Ne.
  rewrite <- (finish_literal l tl) by assumption.
  destruct (dot_of l); [reflexivity|]. destruct (length (mantissa_text l)); [congruence|reflexivity].
Qed.

Lemma scan_double_n_literal : forall l rest more out, literal_at l rest -> Forall is_byte more ->
  scan_double_n (literal_text l ++ rest ++ more) (length (literal_text l) + length rest) out = literal_result l out.
Proof.
  intros l rest more out (L & En & F & B) Fm. rewrite literal_text_length.
  rewrite literal_text_split, <- !app_assoc.
  destruct (stops_literal l rest more L En) as [_ St].
  pose proof (mantissa_nonempty l L) as Ne.
  destruct (sign_read l (exponent_text (lit_exponent l) ++ rest ++ more) L) as (c & D & C & P).
  unfold scan_double_n. rewrite D, C, P.
  match goal with |- context [(?n =? 0)%nat] => destruct (Nat.eqb_spec n 0); [lia|] end.
  match goal with |- context [scan_mantissa_n_loop _ ?n] =>
    replace n with (length (mantissa_text l) + length (exponent_text (lit_exponent l) ++ rest))%nat
      by (rewrite app_length; destruct (lit_minus l); lia) end.
  pose proof (mantissa_n_loop_literal l (exponent_text (lit_exponent l) ++ rest) more L St) as ML.
  rewrite <- app_assoc in ML. rewrite ML.
  rewrite advance_text by lia. rewrite skipn_all. cbn [app].
  assert (X : scan_exponent_n (exponent_text (lit_exponent l) ++ rest ++ more)
     (length (exponent_text (lit_exponent l) ++ rest)) = Some (exponent_result (lit_exponent l))).
  { destruct En as [E1 E2]. destruct L as (_ & _ & _ & _ & LE). rewrite app_length. destruct (lit_exponent l) as [e|].
    - destruct LE. now apply exponent_present_n.
    - destruct (E2 eq_refl). cbn [exponent_text app length plus]. now apply exponent_absent_n. }
  rewrite X. rewrite <- (finish_literal l (exponent_text (lit_exponent l) ++ rest ++ more)) by assumption.
  destruct (dot_of l); [reflexivity|]. destruct (length (mantissa_text l)); [congruence|reflexivity].
Qed.
