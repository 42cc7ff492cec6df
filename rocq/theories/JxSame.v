(** The extended reader agrees with the plain one. *)
From Coq Require Import Arith NArith List Bool Lia ZifyBool ZifyNat ZifyN.
From Verif Require Import Base JsonModel JsonSpec JsonLex JsonTok JsonTotal JxModel.
Import ListNotations.
Local Open Scope N_scope.

(** [fl] are flags of the plain reader, [fl'] ask for the same or for more extensions. *)
Record extends (fl fl' : N) : Prop := {
  x_plain : plain_flags fl;
  x_hex : N.testbit fl' 7 = N.testbit fl 7;
  x_trailing : N.testbit fl 3 = true -> N.testbit fl' 3 = true;
  x_equal : N.testbit fl 13 = true -> N.testbit fl' 13 = true;
  x_plus : N.testbit fl 14 = true -> N.testbit fl' 14 = true;
  x_multi : N.testbit fl' 8 = false;
  x_concat : N.testbit fl' 11 = false;
  x_concat_arrays : N.testbit fl' 12 = false }.

Lemma skip_loop_same s : forall o l c, skip_loop_ex is_ws s o l c = skip_ws_loop s o l c.
Proof.
  induction s as [|x t IH]; intros o l c; [reflexivity|]. cbn [skip_loop_ex skip_ws_loop].
  destruct (is_ws x); [|reflexivity]. destruct (x =? 10); apply IH.
Qed.

Lemma is_ws_ws5 x : is_ws x = true -> is_ws5 x = true.
Proof. unfold is_ws, is_ws5. lia. Qed.

Lemma skip_loop_ws5 s : forall o l c,
  (match fst (fst (fst (skip_ws_loop s o l c))) with x :: _ => is_ws5 x = false | [] => True end) ->
  skip_loop_ex is_ws5 s o l c = skip_ws_loop s o l c.
Proof.
  induction s as [|x t IH]; intros o l c; [reflexivity|]. cbn [skip_loop_ex skip_ws_loop].
  destruct (is_ws x) eqn:W.
  - rewrite (is_ws_ws5 x W). destruct (x =? 10); apply IH.
  - cbn [fst]. intros ->. reflexivity.
Qed.

Lemma skip_same_plain fl r : N.testbit fl 17 = false -> skip_ws_ex fl r = skip_ws r.
Proof.
  intro H. unfold skip_ws_ex, skip_ws, bExtendedWhitespace. rewrite H. now rewrite skip_loop_same.
Qed.

Lemma skip_same fl r : (match rest (skip_ws r) with x :: _ => is_ws5 x = false | [] => True end) ->
  skip_ws_ex fl r = skip_ws r.
Proof.
  unfold skip_ws_ex, skip_ws. destruct (N.testbit fl bExtendedWhitespace).
  - intro H. rewrite skip_loop_ws5; [reflexivity|].
    destruct (skip_ws_loop _ _ _ _) as [[[s o] l] c]. exact H.
  - intros _. now rewrite skip_loop_same.
Qed.

Lemma valid_string_same ex ex' fuel : forall s q, valid_string fuel s q false ex = valid_string fuel s q false ex'.
Proof.
  induction fuel as [|fuel IH]; intros s q; [reflexivity|]. cbn [valid_string].
  destruct s as [|c s]; [reflexivity|].
  repeat (match goal with |- context [match ?x with _ => _ end] =>
    lazymatch x with context [valid_string] => fail | _ => destruct x; try reflexivity; try apply IH end end).
Qed.

Lemma read_quoted_same fl fl' r : N.testbit fl 8 = false -> N.testbit fl' 8 = false ->
  read_quoted fl' r = read_quoted fl r.
Proof.
  intros A B. unfold read_quoted, bEscapedMultiline. rewrite A, B.
  destruct (rest r) as [|q s]; [reflexivity|]. destruct ((q =? 34) || (q =? 39)); [|reflexivity].
  cbv zeta. destruct (find_char_unescaped s q) as [[body after]|]; [|reflexivity].
  now rewrite (valid_string_same (N.testbit fl' bExtendedWhitespace) (N.testbit fl bExtendedWhitespace)).
Qed.

Lemma parse_quoted_same fl fl' c r : N.testbit fl 8 = false -> N.testbit fl' 8 = false ->
  parse_quoted fl' c r = parse_quoted fl c r.
Proof. intros A B. unfold parse_quoted. now rewrite (read_quoted_same fl fl'). Qed.

Lemma parse_quoted_ex_same fl c r q s : rest r = q :: s -> N.testbit fl 11 = false -> N.testbit fl 12 = false ->
  parse_quoted_ex fl c r = parse_quoted fl c r.
Proof.
  intros R A B. unfold parse_quoted_ex, peek, bConcatenated, bConcatenatedInArrays. rewrite R, A, B.
  destruct (parse_quoted fl c r) as [[t r']|]; [|reflexivity]. cbn [andb orb]. now rewrite andb_false_r.
Qed.

(** ** Numbers *)
Section number.
Variables fl fl' : N.
Hypothesis X : extends fl fl'.

Lemma no_point : N.testbit fl bLeadTrailPoint = false.
Proof. apply (x_plain _ _ X). Qed.

Lemma number_frac_mono lead r r' : number_frac fl lead r = Some (true, r') ->
  number_frac fl' lead r = Some (true, r').
Proof.
  unfold number_frac. rewrite no_point. destruct (rest r) as [|c s]; [trivial|].
  destruct (c =? 46); [|trivial]. cbv zeta. destruct (rest (advance (set_vt r YFloat))) as [|d t]; [discriminate|].
  destruct (isdigit d); [trivial|discriminate].
Qed.

Definition number_head (s : list N) : Prop :=
  exists c t, s = c :: t /\ (isdigit c = true
    \/ ((c = 45 \/ (c = 43 /\ N.testbit fl bPlusSign = true)) /\ exists d u, t = d :: u /\ isdigit d = true)).

Lemma read_number_mono r r' : read_number fl r = Some (true, r') ->
  read_number fl' r = Some (true, r') /\ number_head (rest r).
Proof.
  unfold read_number. destruct (rest r) as [|c0 s] eqn:R; [discriminate|]. cbv zeta.
  set (r0 := set_cur _ _ _).
  assert (P : N.testbit fl bPlusSign && (c0 =? 43) = true -> N.testbit fl' bPlusSign && (c0 =? 43) = true).
  { intro H. apply andb_true_iff in H. destruct H as [H ->]. unfold bPlusSign in *. now rewrite (x_plus _ _ X H). }
  assert (RR : rest r0 = c0 :: s) by exact R.
  assert (G : forall r2, (match rest r2 with
    | [] => Some (false, set_error r2 JUnexpectedEof)
    | c :: _ =>
          if c =? 48 then
            match rest (advance r2) with
            | [] => Some (true, cur_end (advance r2))
            | x :: _ =>
                if ((x =? 120) || (x =? 88)) && N.testbit fl bHexadecimal then
                  match rest (advance (advance r2)) with
                  | [] => Some (false, set_error (advance (advance r2)) JUnexpectedEof)
                  | h :: _ =>
                      if negb (isxdigit h) then Some (false, set_error (advance (advance r2)) JUnexpectedToken)
                      else Some (true, cur_end (adv_while isxdigit (advance (advance r2))))
                  end
                else number_frac fl true (advance r2)
            end
          else if isdigit c then
            match rest (adv_while isdigit r2) with
            | [] => Some (true, adv_while isdigit r2)
            | _ => number_frac fl true (adv_while isdigit r2)
            end
          else if negb (N.testbit fl bLeadTrailPoint) || negb (c =? 46) then
            Some (false, set_error r2 JUnexpectedToken)
          else number_frac fl false r2
    end = Some (true, r')) ->
    (match rest r2 with
    | [] => Some (false, set_error r2 JUnexpectedEof)
    | c :: _ =>
          if c =? 48 then
            match rest (advance r2) with
            | [] => Some (true, cur_end (advance r2))
            | x :: _ =>
                if ((x =? 120) || (x =? 88)) && N.testbit fl' bHexadecimal then
                  match rest (advance (advance r2)) with
                  | [] => Some (false, set_error (advance (advance r2)) JUnexpectedEof)
                  | h :: _ =>
                      if negb (isxdigit h) then Some (false, set_error (advance (advance r2)) JUnexpectedToken)
                      else Some (true, cur_end (adv_while isxdigit (advance (advance r2))))
                  end
                else number_frac fl' true (advance r2)
            end
          else if isdigit c then
            match rest (adv_while isdigit r2) with
            | [] => Some (true, adv_while isdigit r2)
            | _ => number_frac fl' true (adv_while isdigit r2)
            end
          else if negb (N.testbit fl' bLeadTrailPoint) || negb (c =? 46) then
            Some (false, set_error r2 JUnexpectedToken)
          else number_frac fl' false r2
    end = Some (true, r') /\ exists d u, rest r2 = d :: u /\ isdigit d = true)).
  { intros r2. destruct (rest r2) as [|c t] eqn:R2; [discriminate|].
    unfold bHexadecimal. rewrite (x_hex _ _ X).
    destruct (N.eqb_spec c 48) as [->|_].
    - intro H. split; [|now exists 48, t].
      destruct (rest (advance r2)) as [|x u]; [exact H|].
      destruct (((x =? 120) || (x =? 88)) && N.testbit fl 7); [exact H|]. now apply number_frac_mono.
    - destruct (isdigit c) eqn:D.
      + intro H. split; [|now exists c, t]. destruct (rest (adv_while isdigit r2)); [exact H|].
        now apply number_frac_mono.
      + rewrite no_point. cbn [negb orb]. discriminate. }
  destruct (N.eqb_spec c0 45) as [->|N45].
  - intro H. apply G in H. destruct H as [H (d & u & E & D)]. split; [exact H|].
    exists 45, s. split; [reflexivity|]. right. split; [now left|]. exists d, u. split; [|exact D].
    cbn in E. rewrite R in E. exact E.
  - destruct (N.testbit fl bPlusSign && (c0 =? 43)) eqn:PL.
    + rewrite (P eq_refl). intro H. apply G in H. destruct H as [H (d & u & E & D)]. split; [exact H|].
      apply andb_true_iff in PL. destruct PL as [PL ->%N.eqb_eq].
      exists 43, s. split; [reflexivity|]. right. split; [now right|]. exists d, u. split; [|exact D].
      cbn in E. rewrite R in E. exact E.
    + intro H. apply G in H. destruct H as [H (d & u & E & D)].
      assert (EC : d = c0) by congruence. subst d.
      assert (PL' : N.testbit fl' bPlusSign && (c0 =? 43) = false).
      { assert (E43 : c0 =? 43 = false) by (clear - D; unfold isdigit in D; lia). rewrite E43. apply andb_false_r. }
      rewrite PL'. split; [exact H|]. exists c0, s. split; [reflexivity|]. now left.
Qed.

Lemma sw_ne d u p x : d <> x -> starts_with (d :: u) (x :: p) = false.
Proof. intros D. cbn [starts_with]. now rewrite (proj2 (N.eqb_neq x d)) by congruence. Qed.
Lemma ic_ne d u p x : d < 65 -> 65 <= x -> starts_with_ic (d :: u) (x :: p) = false.
Proof.
  intros D Y. cbn [starts_with_ic]. assert (E : to_lower d = d).
  { unfold to_lower. rewrite (proj2 (N.leb_gt 65 d) D). reflexivity. }
  rewrite E, (proj2 (N.eqb_neq x d)) by lia. reflexivity.
Qed.

Lemma sw_ic p : forall s, Forall (fun c => to_lower c = c) p -> starts_with s p = true -> starts_with_ic s p = true.
Proof.
  induction p as [|x p IH]; intros s F H; [destruct s; reflexivity|]. destruct s as [|y s]; [discriminate|].
  cbn [starts_with starts_with_ic] in *. apply Forall_cons_iff in F. destruct F as [E F].
  apply andb_true_iff in H. destruct H as [H1%N.eqb_eq H2]. subst y. rewrite E, N.eqb_refl. now apply IH.
Qed.

Lemma read_number_ex_mono r r' : read_number fl r = Some (true, r') -> read_number_ex fl' r = Some (true, r').
Proof.
  intro H. apply read_number_mono in H. destruct H as [H (c & t & R & D)].
  unfold read_number_ex. rewrite R. destruct (N.testbit fl' bExtendedFloats); [|exact H].
  assert (K : forall d u, isdigit d = true ->
    starts_with_ic (d :: u) str_infinity = false /\ starts_with_ic (d :: u) str_nan = false
    /\ starts_with (d :: u) str_Infinity = false /\ starts_with (d :: u) str_NaN = false).
  { intros d u E. unfold isdigit in E.
    repeat split; first [apply ic_ne; lia | apply sw_ne; lia]. }
  assert (GO : forall (s : list N) (k : nat), (starts_with_ic s str_infinity = false /\ starts_with_ic s str_nan = false
    /\ starts_with s str_Infinity = false /\ starts_with s str_NaN = false) ->
    (if N.testbit fl' bIgnoreCase then
          if starts_with_ic s str_infinity then Some (true, advance_value (set_vt r YFloat) (8 + k))
          else if starts_with_ic s str_nan then Some (true, advance_value (set_vt r YFloat) (3 + k))
          else read_number fl' r
        else
          if starts_with s str_Infinity then Some (true, advance_value (set_vt r YFloat) (8 + k))
          else if starts_with s str_NaN then Some (true, advance_value (set_vt r YFloat) (3 + k))
          else read_number fl' r) = Some (true, r')).
  { intros s k (-> & -> & -> & ->). destruct (N.testbit fl' bIgnoreCase); exact H. }
  destruct D as [D|[S (d & u & -> & D)]].
  - assert (E45 : c =? 45 = false) by (unfold isdigit in D; lia).
    assert (E43 : c =? 43 = false) by (unfold isdigit in D; lia).
    rewrite E45, E43. cbn [andb]. apply GO. now apply K.
  - destruct S as [->|[-> S]].
    + cbn [N.eqb Pos.eqb]. apply GO. now apply K.
    + cbn [N.eqb Pos.eqb]. unfold bPlusSign. rewrite (x_plus _ _ X S). cbn [andb]. apply GO. now apply K.
Qed.

Lemma read_value_mono r t r' : read_value fl r = Some (t, r') -> t <> TError ->
  read_value_ex fl' r = Some (t, r').
Proof.
  intros H NE. unfold read_value in H. unfold read_value_ex. cbv zeta.
  destruct (starts_with (rest r) str_true) eqn:ST.
  { destruct (N.testbit fl' bIgnoreCase); [rewrite sw_ic|rewrite ST]; auto. repeat constructor. }
  destruct (starts_with (rest r) str_false) eqn:SF.
  { assert (T : starts_with_ic (rest r) str_true = false).
    { apply starts_with_spec in SF. destruct SF as (z & ->). reflexivity. }
    destruct (N.testbit fl' bIgnoreCase); [rewrite T, sw_ic|rewrite ST, SF]; auto. repeat constructor. }
  destruct (starts_with (rest r) str_null) eqn:SN.
  { assert (T : starts_with_ic (rest r) str_true = false /\ starts_with_ic (rest r) str_false = false).
    { apply starts_with_spec in SN. destruct SN as (z & ->). split; reflexivity. }
    destruct T as [T1 T2].
    destruct (N.testbit fl' bIgnoreCase); [rewrite T1, T2, sw_ic|rewrite ST, SF, SN]; auto. repeat constructor. }
  destruct (read_number fl r) as [[[] r1]|] eqn:RN; try discriminate.
  2:{ injection H as <- _. congruence. }
  pose proof (read_number_mono _ _ RN) as [_ (c & u & R & D)].
  assert (C : c < 65). { unfold isdigit in D. destruct D as [D|[[->|[-> _]] _]]; lia. }
  rewrite (read_number_ex_mono _ _ RN).
  assert (T : starts_with_ic (rest r) str_true = false /\ starts_with_ic (rest r) str_false = false
    /\ starts_with_ic (rest r) str_null = false).
  { rewrite R. repeat split; apply ic_ne; lia. }
  destruct T as (T1 & T2 & T3).
  destruct (N.testbit fl' bIgnoreCase); [rewrite T1, T2, T3|rewrite ST, SF, SN]; exact H.
Qed.

(** ** Tokens *)
Lemma can_end_mono r c e : can_end_follow fl r c e = true -> can_end_follow fl' r c e = true.
Proof.
  unfold can_end_follow. destruct (_ || _); [trivial|]. destruct (last r); trivial. apply (x_trailing _ _ X).
Qed.

Lemma read_value_head r c u t r' : rest r = c :: u ->
  read_value fl r = Some (t, r') -> t <> TError -> is_ws5 c = false /\ c <> 114 /\ c <> 82 /\ c <> 35 /\ c <> 39.
Proof.
  intros R H NE. unfold read_value in H.
  assert (K : c = 116 \/ c = 102 \/ c = 110 \/ isdigit c = true \/ c = 45 \/ c = 43).
  { destruct (starts_with (rest r) str_true) eqn:ST.
    { apply starts_with_spec in ST. destruct ST as (z & E). rewrite R in E. injection E as -> _. auto. }
    destruct (starts_with (rest r) str_false) eqn:SF.
    { apply starts_with_spec in SF. destruct SF as (z & E). rewrite R in E. injection E as -> _. auto. }
    destruct (starts_with (rest r) str_null) eqn:SN.
    { apply starts_with_spec in SN. destruct SN as (z & E). rewrite R in E. injection E as -> _. auto. }
    destruct (read_number fl r) as [[[] r1]|] eqn:RN; try discriminate.
    2:{ injection H as <- _. congruence. }
    pose proof (read_number_mono _ _ RN) as [_ (c' & u' & R' & D)].
    assert (c' = c) by congruence. subst c'. destruct D as [D|[[->|[-> _]] _]]; auto 9. }
  unfold is_ws5, isdigit in *. lia.
Qed.

Definition fine (x : option (tok * reader + reader)) : Prop :=
  match x with Some (inl (TError, _)) | None => False | _ => True end.

Definition punctuation (x : N) : bool :=
  (x =? 47) || (x =? 39) || (x =? 34) || (x =? 123) || (x =? 91) || (x =? 125) || (x =? 93)
  || (x =? 58) || (x =? 61) || (x =? 44).

Lemma next_step_value c r x s : rest (skip_ws r) = x :: s -> punctuation x = false -> fine (next_step fl c r) ->
  can_value_follow (skip_ws r) c = true
  /\ exists t r1, read_value fl (set_root (skip_ws r)) = Some (t, r1) /\ t <> TError
       /\ next_step fl c r = Some (inl (t, r1)).
Proof.
  intros R P. unfold next_step. cbv zeta. rewrite R. unfold punctuation in P.
  destruct (x =? 47); [discriminate|]. destruct (x =? 39); [discriminate|]. destruct (x =? 34); [discriminate|].
  destruct (x =? 123); [discriminate|]. destruct (x =? 91); [discriminate|]. destruct (x =? 125); [discriminate|].
  destruct (x =? 93); [discriminate|]. destruct (x =? 58); [discriminate|]. destruct (x =? 61); [discriminate|].
  destruct (x =? 44); [discriminate|]. cbn [orb].
  destruct (can_value_follow (skip_ws r) c); [|intros []].
  destruct (read_value fl (set_root (skip_ws r))) as [[t r1]|] eqn:RV; [|intros []].
  intro F. split; [reflexivity|]. exists t, r1. split; [reflexivity|]. split; [|reflexivity].
  intros ->. exact F.
Qed.

Lemma parse_unquoted_off c r x : peek r = Some x -> can_value_follow r c = true ->
  parse_unquoted fl' c r = Some (false, r).
Proof.
  intros P C. unfold parse_unquoted. destruct c; cbn [ctx_eqb andb]; try reflexivity.
  cbn [can_value_follow] in C. rewrite C. cbn [negb]. now rewrite andb_false_r.
Qed.

Lemma next_step_mono c r : err r = JOk -> fine (next_step fl c r) -> next_step_ex fl' c r = next_step fl c r.
Proof.
  intros OK F.
  assert (SC : N.testbit fl bSingleLineComments = false) by apply (x_plain _ _ X).
  assert (SQ : N.testbit fl bSingleQuoted = false) by apply (x_plain _ _ X).
  assert (ML : N.testbit fl 8 = false) by apply (x_plain _ _ X).
  assert (SK : skip_ws_ex fl' r = skip_ws r).
  { apply skip_same. destruct (rest (skip_ws r)) as [|x s] eqn:R; [exact I|].
    destruct (is_ws5 x) eqn:W; [exfalso|reflexivity].
    assert (P : punctuation x = false) by (unfold punctuation, is_ws5 in *; lia).
    destruct (next_step_value c r x s R P F) as (_ & t & r1 & RV & NE & _).
    apply (read_value_head (set_root (skip_ws r)) x s) in RV; auto. destruct RV. congruence. }
  assert (OK' : err (skip_ws r) = JOk).
  { destruct (skip_ws_spec r) as (w & _ & (_ & _ & E) & _). rewrite <- OK. apply E. }
  unfold next_step_ex. rewrite SK. cbv zeta. destruct (rest (skip_ws r)) as [|x s] eqn:R.
  { unfold next_step. rewrite R. reflexivity. }
  destruct (punctuation x) eqn:P.
  2:{ destruct (next_step_value c r x s R P F) as (CV & t & r1 & RV & NE & ->).
      assert (H : is_ws5 x = false /\ x <> 114 /\ x <> 82 /\ x <> 35 /\ x <> 39)
        by (apply (read_value_head (set_root (skip_ws r)) x s t r1); auto).
      destruct H as (_ & N1 & N2 & N3 & N4).
      apply N.eqb_neq in N1, N2, N3. unfold punctuation in P.
      destruct (x =? 47); [discriminate|]. destruct (x =? 39); [discriminate|]. destruct (x =? 34); [discriminate|].
      destruct (x =? 123); [discriminate|]. destruct (x =? 91); [discriminate|]. destruct (x =? 125); [discriminate|].
      destruct (x =? 93); [discriminate|]. destruct (x =? 58); [discriminate|]. destruct (x =? 61); [discriminate|].
      destruct (x =? 44); [discriminate|]. cbn [orb]. rewrite N3.
      unfold parse_other. rewrite (parse_unquoted_off c _ x); auto.
      2:{ unfold peek. now rewrite R. }
      rewrite N1, N2. cbn [orb]. rewrite OK'. cbn [err_ok negb]. rewrite CV.
      now rewrite (read_value_mono _ _ _ RV NE). }
  assert (N35 : x =? 35 = false) by (unfold punctuation in P; lia). rewrite N35.
  unfold next_step in F |- *. cbv zeta in F |- *. rewrite R in F |- *.
  destruct (x =? 47) eqn:E1. { unfold parse_comment in F. rewrite SC in F. contradiction. }
  destruct (x =? 39) eqn:E2. { rewrite SQ in F. contradiction. }
  destruct (x =? 34) eqn:E3.
  { rewrite (parse_quoted_ex_same fl' c _ x s R); [|apply X|apply X].
    rewrite (parse_quoted_same fl fl'); auto. apply X. }
  destruct ((x =? 123) || (x =? 91)) eqn:E4; [reflexivity|].
  destruct ((x =? 125) || (x =? 93)) eqn:E5.
  { unfold parse_end in *. destruct (can_end_follow fl (skip_ws r) c _) eqn:CE; [|contradiction].
    now rewrite (can_end_mono _ _ _ CE). }
  destruct ((x =? 58) || (x =? 61)) eqn:E6.
  { destruct (negb (ctx_eqb c CObject) || negb (tok_eqb (last (skip_ws r)) TPropertyName)) eqn:CO; cbn [orb] in *; [contradiction|].
    destruct (x =? 61); cbn [andb] in *; [|reflexivity].
    unfold bAllowEqual in *. destruct (N.testbit fl 13) eqn:B; cbn [negb] in *; [|contradiction].
    now rewrite (x_equal _ _ X B). }
  destruct (x =? 44) eqn:E7; [reflexivity|].
  exfalso. clear - P E1 E2 E3 E4 E5 E6 E7. unfold punctuation in P. lia.
Qed.

Lemma next_step_err c r r1 : next_step fl c r = Some (inr r1) -> err r1 = err r.
Proof.
  assert (E : err (skip_ws r) = err r) by (destruct (skip_ws_spec r) as (w & _ & T & _); apply T).
  unfold next_step. cbv zeta. destruct (rest (skip_ws r)) as [|x s]; [destruct c; discriminate|].
  destruct (x =? 47); [discriminate|].
  destruct (x =? 39). { destruct (N.testbit fl bSingleQuoted); [|discriminate]. destruct (parse_quoted fl c (skip_ws r)); discriminate. }
  destruct (x =? 34). { destruct (parse_quoted fl c (skip_ws r)); discriminate. }
  destruct ((x =? 123) || (x =? 91)); [discriminate|]. destruct ((x =? 125) || (x =? 93)); [discriminate|].
  destruct ((x =? 58) || (x =? 61)).
  { destruct (_ || _); [discriminate|]. intro H. injection H as <-. exact E. }
  destruct (x =? 44).
  { destruct c; [discriminate| |]; (destruct (last (skip_ws r)); try discriminate; intro H; injection H as <-; exact E). }
  destruct (can_value_follow (skip_ws r) c); [|discriminate].
  destruct (read_value fl (set_root (skip_ws r))); discriminate.
Qed.

Lemma next_token_mono c r t r' : err r = JOk -> next_token fl c r = Some (t, r') -> t <> TError ->
  next_token_ex fl' c r = Some (t, r').
Proof.
  unfold next_token, next_token_ex. generalize (S (length (rest r))). intro n. revert r.
  induction n as [|n IH]; intros r OK H NE; [discriminate|]. cbn [next_loop next_loop_ex] in *.
  destruct (next_step fl c r) as [[[t1 r1]|r1]|] eqn:ST; [| |discriminate].
  - assert (F : fine (next_step fl c r)).
    { rewrite ST. injection H as -> ->. destruct t; try exact I. congruence. }
    rewrite (next_step_mono c r OK F), ST. exact H.
  - assert (F : fine (next_step fl c r)) by (rewrite ST; exact I).
    rewrite (next_step_mono c r OK F), ST. apply IH; auto. apply next_step_err in ST. congruence.
Qed.

(** ** Skipping *)
Lemma skip_ws_loop_stop s : forall o l c y t o' l' c',
  skip_ws_loop s o l c = (y :: t, o', l', c') -> is_ws5 y = true ->
  y <> 10 /\ skip_loop_ex is_ws5 s o l c = skip_loop_ex is_ws5 t (S o') l' (S c').
Proof.
  induction s as [|x s IH]; intros o l c y t o' l' c' H W; [discriminate|].
  cbn [skip_ws_loop skip_loop_ex] in *. destruct (is_ws x) eqn:WX.
  - rewrite (is_ws_ws5 x WX). destruct (x =? 10); eapply IH; eauto.
  - injection H as -> -> -> -> ->. rewrite W.
    assert (y <> 10) by (intros ->; discriminate). split; [assumption|].
    destruct (N.eqb_spec y 10); [contradiction|reflexivity].
Qed.

Lemma skip_ws_ex_stop r y t : rest (skip_ws r) = y :: t -> skip_ws_ex fl' r = skip_ws r
  \/ (is_ws5 y = true /\ skip_ws_ex fl' r = skip_ws_ex fl' (advance (skip_ws r))).
Proof.
  intro R. destruct (N.testbit fl' 17) eqn:B; [|left; now apply skip_same_plain].
  destruct (is_ws5 y) eqn:W; [right|left].
  2:{ apply skip_same. now rewrite R. }
  split; [reflexivity|].
  unfold skip_ws_ex, bExtendedWhitespace. rewrite B. unfold skip_ws in *.
  destruct (skip_ws_loop (rest r) (off r) (line r) (col r)) as [[[s o] l] c] eqn:E.
  cbn in R. subst s. destruct (skip_ws_loop_stop _ _ _ _ _ _ _ _ _ E W) as [_ ->].
  cbn [advance set_pos rest off line col tl]. destruct (skip_loop_ex is_ws5 t (S o) l (S c)) as [[[s' o'] l'] c'].
  reflexivity.
Qed.

Lemma skip_ws_shorter r : (length (rest (skip_ws r)) <= length (rest r))%nat.
Proof.
  destruct (skip_ws_spec r) as (w & _ & (E & _) & _). rewrite E, app_length. lia.
Qed.

Lemma skip_brackets_mono obj n : forall d r r' m, skip_brackets n fl obj d r = Some (true, r') ->
  (length (rest r) < m)%nat -> skip_brackets_ex m fl' obj d r = Some (true, r').
Proof.
  induction n as [|n IH]; intros d r r' m H LM; [discriminate|]. cbn [skip_brackets] in H.
  destruct m as [|m]; [lia|]. cbn [skip_brackets_ex].
  destruct (rest r) as [|x0 s0] eqn:R0; [discriminate|]. cbv zeta in *.
  pose proof (skip_ws_shorter r) as LE. rewrite R0 in LE.
  destruct (rest (skip_ws r)) as [|x s] eqn:R; [discriminate|].
  destruct (skip_ws_ex_stop r x s R) as [E|[W E]].
  - rewrite E, R.
    assert (LA : (length (rest (advance (skip_ws r))) < m)%nat).
    { unfold advance. cbn. rewrite R. cbn [tl]. cbn [length] in *. lia. }
    destruct (x =? (if obj then 123 else 91)); [now apply IH|].
    destruct (x =? (if obj then 125 else 93)).
    { destruct d as [|[|d]]; [discriminate|exact H|now apply IH]. }
    destruct (N.eqb_spec x 34) as [->|]; [|now apply IH].
    rewrite (read_quoted_same fl fl'); [|apply (x_plain _ _ X)|apply X].
    destruct (read_quoted fl _) as [[[] r1]|] eqn:RQ; try discriminate.
    apply IH; auto.
    apply (read_quoted_suf _ _ s) in RQ; [|apply (x_plain _ _ X)|reflexivity].
    destruct RQ as [_ RQ]. cbn [rest set_pos] in RQ. cbn [length] in *. lia.
  - assert (C : x <> 123 /\ x <> 91 /\ x <> 125 /\ x <> 93 /\ x <> 34).
    { repeat split; intros ->; discriminate W. }
    assert (S1 : (x =? (if obj then 123 else 91)) = false) by (apply N.eqb_neq; destruct obj; intuition).
    assert (S2 : (x =? (if obj then 125 else 93)) = false) by (apply N.eqb_neq; destruct obj; intuition).
    assert (S3 : (x =? 34) = false) by (apply N.eqb_neq; intuition).
    rewrite S1, S2, S3 in H. apply (IH _ _ _ (S m)) in H.
    2:{ unfold advance. cbn. rewrite R. cbn [tl]. cbn [length] in *. lia. }
    cbn [skip_brackets_ex] in H. destruct (rest (advance (skip_ws r))) as [|x1 s1] eqn:R1; [discriminate|].
    rewrite E. exact H.
Qed.
End number.
