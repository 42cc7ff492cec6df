(** The extended reader stays inside of the buffer. *)
From Coq Require Import Arith NArith List Bool Lia ZifyBool ZifyNat ZifyN.
From Verif Require Import Base UniSpec JsonModel JsonSpec JsonString JsonLex JsonTok JsonSkip JsonCopy JsonTotal JsonBuild JsonStream
  JxModel JxSame JxSpec JxTok JxStream.
Import ListNotations.
Local Open Scope N_scope.

(** Without escaped line breaks, C++ raw strings, concatenated strings and numbers without digits in
    front of or behind the point. *)
Definition safe_flags (fl : N) : Prop :=
  N.testbit fl 8 = false /\ N.testbit fl 9 = false /\ N.testbit fl 11 = false /\ N.testbit fl 12 = false
  /\ N.testbit fl 16 = false.

(** A token other than the end or an error takes at least one byte. *)
Definition step (r : reader) (t : tok) (r' : reader) : Prop :=
  suf r r' /\ (t = TError \/ t = TEof \/ (length (rest r') < length (rest r))%nat).
Definition stays (r : reader) (p : option (tok * reader)) : Prop :=
  match p with Some (t, r') => step r t r' | None => open_exponent (rest r) end.

Lemma step_error r x : suf r x -> step r TError x.
Proof. split; auto. Qed.
Lemma step_less r t x y : suf r x -> suf x y -> (length (rest y) < length (rest x))%nat -> step r t y.
Proof.
  intros A B L. apply suf_length in A as A'. split; [now apply suf_trans with x|]. right. right. lia.
Qed.
Lemma advance_less x y s : rest x = y :: s -> (length (rest (advance x)) < length (rest x))%nat.
Proof. intro R. unfold advance. cbn [rest set_pos]. rewrite R. cbn [tl length]. lia. Qed.
Local Hint Resolve step_error : suf.

Lemma valid_string_any q ex fuel : forall s, (length s < fuel)%nat -> est false s = false ->
  noquote q false s -> exists b, valid_string fuel s q false ex = Some b.
Proof.
  induction fuel as [|fuel IH]; intros s L F Q; [lia|].
  cbn [valid_string]. destruct s as [|c t]; [eauto|].
  destruct (c <? 32); [eauto|]. cbn [length] in L.
  cbn [est] in F. cbn [noquote] in Q. destruct Q as [_ Q]. unfold est_step in F, Q.
  destruct (c =? 92) eqn:B.
  - cbn [negb andb] in F, Q. destruct t as [|n u]; [discriminate|].
    cbn [est] in F. cbn [noquote] in Q. destruct Q as [_ Q]. unfold est_step in F, Q.
    rewrite andb_false_r in F, Q. cbn [length] in L.
    fold (two_char n). destruct (two_char n); [apply IH; auto; lia|].
    destruct (n =? 117) eqn:N1.
    + destruct (get_codepoint u) as [[k cp]|] eqn:G; [|eauto].
      apply get_codepoint_sound in G. destruct G as (us & tt & Et & UE & U16 & Sc & K & _).
      destruct (get_codepoint_complete cp us tt [] U16 UE) as (u0 & k0 & E0 & K0 & _ & NQ & ES).
      subst tt. cbn [app] in Et. assert (Eu : u = u0 ++ skipn k u) by congruence.
      cbn [est est_step N.eqb Pos.eqb negb andb] in ES.
      apply IH.
      * rewrite skipn_length. lia.
      * rewrite Eu, est_app, ES in F. exact F.
      * rewrite Eu, noquote_app, ES in Q. tauto.
    + destruct (n =? 34); [destruct (q =? 34); [apply IH; auto; lia|eauto]|].
      destruct (n =? 39); [destruct (q =? 39); [apply IH; auto; lia|eauto]|].
      destruct (n =? 10); [eauto|]. destruct (n =? 13); cbn [andb]; eauto.
  - apply IH; auto; lia.
Qed.

Lemma read_quoted_any fl r q s : N.testbit fl 8 = false -> rest r = q :: s -> q = 34 \/ q = 39 ->
  exists ok r', read_quoted fl r = Some (ok, r') /\ suf r r' /\ (length (rest r') < length (rest r))%nat.
Proof.
  intros M R Q. unfold read_quoted. rewrite R.
  assert (QQ : (q =? 34) || (q =? 39) = true) by (destruct Q as [->| ->]; reflexivity). rewrite QQ.
  destruct (find_char_unescaped s q) as [[body after]|] eqn:F.
  - apply find_sound in F. destruct F as (z & -> & -> & ES & NQ). unfold bEscapedMultiline. rewrite M.
    destruct (valid_string_any q (N.testbit fl bExtendedWhitespace) (S (length body)) body) as [b VS]; auto.
    cbv zeta. rewrite VS. destruct b; eexists _, _; (split; [reflexivity|]); unfold suf; cbn; rewrite R;
      (split; [|cbn [length]; rewrite app_length; cbn [length]; lia]);
      exists (q :: body ++ [q]); cbn [app]; now rewrite <- app_assoc.
  - eexists _, _. split; [reflexivity|]. unfold suf. cbn. split; [eexists; now rewrite app_nil_r|].
    cbn. lia.
Qed.

Lemma parse_quoted_stays fl c r x q s : safe_flags fl -> rest x = q :: s -> q = 34 \/ q = 39 -> suf r x ->
  exists t r', parse_quoted_ex fl c x = Some (t, r') /\ step r t r'.
Proof.
  intros (M & _ & C1 & C2 & _) R Q S. unfold parse_quoted_ex, peek. rewrite R.
  destruct (read_quoted_any fl x q s M R Q) as (ok & y & RQ & SY & LY).
  assert (S2 : suf r y) by (now apply suf_trans with x).
  assert (ST : forall t z, suf x z -> rest z = rest y -> step r t z)
    by (intros; apply step_less with x; auto; congruence).
  unfold bConcatenated, bConcatenatedInArrays. rewrite C1, C2. cbn [andb orb]. 
  unfold parse_quoted. rewrite RQ. destruct ok; [|eexists _, _; split; [rewrite andb_false_r; reflexivity|auto with suf]].
  cbv zeta. destruct c; cbn [ctx_eqb andb];
    try destruct (_ || _); try destruct (can_value_follow _ _); rewrite andb_false_r;
    (eexists _, _; split; [reflexivity|first [apply step_error; now auto with suf|apply ST; [auto with suf|reflexivity]]]).
Qed.

Lemma advance_value_suf r x n : suf r x -> suf r (advance_value x n).
Proof.
  intros [u U]. unfold suf. cbn. exists (u ++ firstn n (rest x)). now rewrite <- app_assoc, firstn_skipn.
Qed.

Definition number_stays (r : reader) (p : option (bool * reader)) : Prop :=
  match p with
  | Some (ok, r') => suf r r' /\ (ok = true -> (length (rest r') < length (rest r))%nat)
  | None => open_exponent (rest r)
  end.

Lemma read_number_stays fl x : N.testbit fl 16 = false -> number_stays x (read_number fl x).
Proof.
  intros P. pose proof (suf_read_number fl x x P (suf_refl x)) as H. pose proof (read_number_cases fl x P) as C.
  destruct (read_number fl x) as [[ok y]|]; [|exact C]. split; [exact H|]. intros ->.
  destruct C as (u & tk & ty & NU & (R & _) & _). rewrite R, app_length.
  pose proof (value_nonempty _ _ _ (V_number _ _ _ _ NU)). lia.
Qed.

Lemma starts_length s k : starts_with s k = true -> (length k <= length s)%nat.
Proof.
  revert k. induction s as [|c s IH]; intros [|d k] H; cbn [length]; try lia; [discriminate|].
  cbn [starts_with] in H. apply andb_prop in H. destruct H as [_ H]. apply IH in H. lia.
Qed.
Lemma starts_ic_length s k : starts_with_ic s k = true -> (length k <= length s)%nat.
Proof.
  revert k. induction s as [|c s IH]; intros [|d k] H; cbn [length]; try lia; [discriminate|].
  cbn [starts_with_ic] in H. apply andb_prop in H. destruct H as [_ H]. apply IH in H. lia.
Qed.

Lemma advance_value_less x t n : rest x <> [] -> (length (rest (advance_value (set_vt x t) (S n))) < length (rest x))%nat.
Proof.
  intro NE. unfold advance_value. cbv zeta. cbn [rest set_last set_cur set_pos set_vt]. rewrite skipn_length.
  destruct (rest x); [congruence|]. cbn [length]. lia.
Qed.

Lemma read_value_stays fl r x : N.testbit fl 16 = false -> rest x <> [] -> suf r x -> stays r (read_value_ex fl x).
Proof.
  intros P NE SX. unfold read_value_ex. cbv zeta.
  assert (AS : forall t n, suf x (advance_value (set_vt x t) n)) by (intros; apply advance_value_suf; auto with suf).
  assert (AV : forall t n, stays r (Some (TValue, advance_value (set_vt x t) (S n))))
    by (intros; apply step_less with x; auto using advance_value_less).
  destruct ((if N.testbit fl bIgnoreCase then _ else _) str_true); [apply AV|].
  destruct ((if N.testbit fl bIgnoreCase then _ else _) str_false); [apply AV|].
  destruct ((if N.testbit fl bIgnoreCase then _ else _) str_null); [apply AV|].
  assert (RN : number_stays x (read_number_ex fl x)).
  { pose proof (read_number_stays fl x P) as RN. unfold read_number_ex. destruct (rest x) as [|c t] eqn:R; [exact RN|].
    destruct (N.testbit fl bExtendedFloats); [|exact RN].
    match goal with |- number_stays x (let '(_, _) := ?p in _) => destruct p as [s k] end.
    destruct (N.testbit fl bIgnoreCase); repeat match goal with |- number_stays _ (if ?b then _ else _) => destruct b end;
      try exact RN; (split; [apply AS|]; intros _; apply advance_value_less; congruence). }
  destruct (read_number_ex fl x) as [[ok y]|]; [|now apply suf_open with x]. destruct RN as [SY LY].
  assert (S2 : suf r y) by (now apply suf_trans with x).
  destruct ok; [|now apply step_error]. apply step_less with x; auto.
Qed.

Lemma read_comment_line_suf fl r x : suf r x -> suf r (read_comment_line fl x).
Proof.
  intros [u U]. unfold read_comment_line. cbv zeta. unfold suf.
  assert (E : exists a, rest x = a ++ snd (match memchr 10 (rest x) with
    | Some (a, b) => (a, b)
    | None => if N.testbit fl bExtendedWhitespace then
          match memchr 13 (rest x) with Some (a, b) => (a, b) | None => (rest x, []) end
        else (rest x, []) end)).
  { destruct (memchr 10 (rest x)) as [[a b]|] eqn:M1.
    - apply memchr_some in M1. destruct M1 as [-> _]. exists (a ++ [10]). cbn [snd]. now rewrite <- app_assoc.
    - destruct (N.testbit fl bExtendedWhitespace).
      + destruct (memchr 13 (rest x)) as [[a b]|] eqn:M2.
        * apply memchr_some in M2. destruct M2 as [-> _]. exists (a ++ [13]). cbn [snd]. now rewrite <- app_assoc.
        * exists (rest x). cbn [snd]. now rewrite app_nil_r.
      + exists (rest x). cbn [snd]. now rewrite app_nil_r. }
  destruct E as (a & E). revert E.
  match goal with |- context [snd ?p] => destruct p as [body after] end. cbn [snd rest set_pos set_cur]. intro E.
  exists (u ++ a). rewrite U, E. now rewrite <- app_assoc.
Qed.

Lemma block_loop_stays n : forall r x acc, (length (rest x) < n)%nat -> suf r x ->
  exists t r', block_loop n x acc = Some (t, r') /\ suf r r'.
Proof.
  induction n as [|n IH]; intros r x acc L S; [lia|]. cbn [block_loop]. cbv zeta.
  assert (AN : forall s y, suf r y -> suf r (add_newlines s y)).
  { intros s y [u U]. unfold suf. destruct (add_newlines_keeps s y) as (-> & _). eauto. }
  assert (SP : forall y l k, suf r y -> suf r (set_pos y (rest y) (off y) l k)) by (intros y l k H; exact H).
  destruct (memchr 42 (rest x)) as [[a b]|] eqn:M.
  2:{ eexists _, _. split; [reflexivity|]. apply SP. apply AN. exact S. }
  apply memchr_some in M. destruct M as [E _].
  assert (SB : forall o l k, suf r (set_pos x b o l k)).
  { intros. destruct S as [u U]. exists (u ++ a ++ [42]). rewrite U, E. cbn [rest set_pos].
    rewrite <- !app_assoc. reflexivity. }
  destruct b as [|y b']; [eexists _, _; split; [reflexivity|]; apply (SB (off x + length a + 1)%nat (line x) (col x))|].
  destruct (y =? 47).
  - eexists _, _. split; [reflexivity|]. apply SP, AN. 
    destruct S as [u U]. exists (u ++ a ++ [42; y]). rewrite U, E. cbn [rest set_cur set_pos].
    rewrite <- !app_assoc. reflexivity.
  - apply IH; [|apply SB]. cbn [rest set_pos]. rewrite E, app_length in L. cbn [length] in *. lia.
Qed.

Lemma parse_comment_stays fl r x : rest x <> [] -> suf r x -> exists t r', parse_comment_ex fl x = Some (t, r') /\ step r t r'.
Proof.
  intros NE S. unfold parse_comment_ex.
  assert (AL : forall t z, suf (advance x) z -> step r t z).
  { intros t z H. destruct (rest x) as [|y s] eqn:R; [congruence|].
    pose proof (advance_less _ _ _ R). apply suf_length in H as H'. apply step_less with x; auto; [|lia].
    apply suf_trans with (advance x); auto with suf. }
  destruct (_ || _); [|eexists _, _; split; [reflexivity|auto with suf]].
  destruct (rest x) as [|y0 [|y s]] eqn:R; [eexists _, _; split; [reflexivity|auto with suf]..|].
  destruct (y =? 47).
  { unfold parse_comment. destruct (N.testbit fl bSingleLineComments); [|eexists _, _; split; [reflexivity|auto with suf]].
    cbv zeta. destruct (rest (advance x)) as [|c t]; [eexists _, _; split; [reflexivity|auto with suf]|].
    destruct (c =? 47); eexists _, _; (split; [reflexivity|auto with suf]).
    apply AL. apply read_comment_line_suf; auto with suf. }
  destruct (y =? 42); [|eexists _, _; split; [reflexivity|auto with suf]].
  unfold parse_block. destruct (N.testbit fl bBlockComments); [|eexists _, _; split; [reflexivity|auto with suf]].
  cbv zeta. destruct (rest (advance x)) as [|c t]; [eexists _, _; split; [reflexivity|auto with suf]|].
  destruct (c =? 42); [|eexists _, _; split; [reflexivity|auto with suf]].
  destruct (rest (advance (advance x))) as [|c' t'] eqn:R2; [eexists _, _; split; [reflexivity|auto with suf]|].
  match goal with |- exists t r', block_loop ?n ?z ?acc = _ /\ _ =>
    destruct (block_loop_stays n (advance x) z acc) as (tt & r' & -> & S') end.
  - cbn [rest set_cur]. rewrite R2. lia.
  - auto with suf.
  - eauto.
Qed.

Lemma parse_other_stays fl c r x y s : safe_flags fl -> rest x = y :: s -> suf r x -> stays r (parse_other fl c y x).
Proof.
  intros SF R S. pose proof SF as (M & B9 & _ & _ & B16). unfold parse_other.
  pose proof (advance_less _ _ _ R) as LA.
  assert (AL : forall t z, suf (advance x) z -> step r t z).
  { intros t z H. apply suf_length in H as H'. apply step_less with x; auto; [|lia].
    apply suf_trans with (advance x); auto with suf. }
  assert (PU : exists ok x', parse_unquoted fl c x = Some (ok, x')
    /\ if ok then step r TPropertyName x' else suf r x' /\ rest x' = rest x).
  { unfold parse_unquoted. destruct (_ && _ && _); [|eexists _, _; split; [reflexivity|split; auto]].
    destruct (_ || _); [|eexists _, _; split; [reflexivity|split; auto with suf]].
    unfold peek. rewrite R. cbv zeta. destruct (_ || _); eexists _, _; (split; [reflexivity|]).
    2:{ apply AL. change (advance (set_cur x (Some (off x)) 0)) with (set_cur (advance x) (Some (off x)) 0). auto 9 with suf. }
    split; [auto with suf|exact R]. }
  destruct PU as (ok & x' & -> & PU). destruct ok; [exact PU|]. destruct PU as [S' RX].
  assert (FIN : forall z, suf r z -> rest z = rest x -> stays r (if negb (err_ok (err z)) then Some (TError, z)
        else if can_value_follow z c then read_value_ex fl (set_root z)
        else Some (TError, set_error z JUnexpectedToken))).
  { intros z SZ RZ. destruct (negb _); [now apply step_error|].
    destruct (can_value_follow z c); [|apply step_error; auto with suf].
    apply read_value_stays; auto with suf. cbn [rest set_root]. congruence. }
  destruct ((y =? 114) || (y =? 82)); [|now apply FIN].
  assert (PC : parse_cpp_raw fl c x' = Some (false, x')).
  { unfold parse_cpp_raw, bCppRaw. now rewrite B9, andb_false_r. }
  rewrite PC. destruct (negb (err_ok (err x'))) eqn:E; [now apply step_error|].
  assert (PP : exists ok x2, parse_python_raw fl c x' = Some (ok, x2) /\ suf r x2
    /\ if ok then (length (rest x2) < length (rest x))%nat else err x2 <> JOk \/ x2 = x').
  { unfold parse_python_raw. destruct (_ && _); [|eexists _, _; split; [reflexivity|auto]]. cbv zeta.
    assert (SE : forall z, err (set_error z JUnexpectedToken) <> JOk /\ err (set_error z JUnexpectedEof) <> JOk)
      by (split; discriminate).
    destruct (rest (advance x')) as [|q t] eqn:RA.
    { eexists _, _; split; [reflexivity|]. split; [auto with suf|left; apply SE]. }
    destruct ((q =? 34) || (q =? 39)) eqn:QQ.
    2:{ eexists _, _; split; [reflexivity|]. split; [auto with suf|left; apply SE]. }
    assert (Q : q = 34 \/ q = 39) by lia.
    destruct (read_quoted_any fl (advance x') q t M RA Q) as (ok & x2 & -> & S2 & L2).
    assert (S3 : suf r x2) by (eapply suf_trans; [|exact S2]; auto with suf).
    assert (L3 : (length (rest x2) < length (rest x))%nat).
    { rewrite R in RX. pose proof (advance_less _ _ _ RX) as K. rewrite RX, <- R in K. rewrite RA in L2, K. lia. }
    destruct ok; eexists _, _; (split; [reflexivity|]); (split; [auto with suf|]); [exact L3|left; apply SE]. }
  destruct PP as (ok & x2 & -> & S2 & PP). destruct ok.
  { split; [exact S2|]. right. right. apply suf_length in S. lia. }
  destruct (negb (err_ok (err x2))) eqn:E2; [now apply step_error|].
  cbv iota. destruct PP as [PP| ->]; [|now apply FIN].
  rewrite E2. destruct (err x2); try discriminate; congruence.
Qed.

Lemma skip_ws_ex_suf fl r : suf r (skip_ws_ex fl r).
Proof.
  unfold skip_ws_ex. destruct (skip_loop_ex _ (rest r) (off r) (line r) (col r)) as [[[s o] l] c] eqn:E.
  unfold suf. cbn [rest set_pos]. revert E. generalize (off r), (line r), (col r).
  generalize (if N.testbit fl bExtendedWhitespace then is_ws5 else is_ws). intro p.
  induction (rest r) as [|x t IH]; intros o0 l0 c0 E; cbn [skip_loop_ex] in E.
  - injection E as <- _ _ _. now exists [].
  - destruct (p x).
    + destruct (x =? 10); apply IH in E; destruct E as (u & ->); now exists (x :: u).
    + injection E as <- _ _ _. now exists [].
Qed.

Lemma next_step_stays fl c r : safe_flags fl ->
  match next_step_ex fl c r with
  | Some (inl (t, r')) => step r t r'
  | Some (inr r') => suf r r' /\ (length (rest r') < length (rest r))%nat
  | None => open_exponent (rest r)
  end.
Proof.
  intro SF. unfold next_step_ex. cbv zeta. pose proof (skip_ws_ex_suf fl r) as S.
  set (x := skip_ws_ex fl r) in *. clearbody x.
  destruct (rest x) as [|y s] eqn:R.
  { destruct c; [split; auto with suf|apply step_error; auto with suf..]. }
  assert (LA : (length (rest (advance x)) < length (rest r))%nat).
  { pose proof (advance_less _ _ _ R). apply suf_length in S. lia. }
  assert (AL : forall t z, suf (advance x) z -> step r t z).
  { intros t z H. apply suf_length in H as H'. split; [|right; right; lia].
    apply suf_trans with (advance x); auto with suf. }
  destruct (y =? 47).
  { destruct (parse_comment_stays fl r x) as (t & r' & -> & S'); auto. rewrite R. discriminate. }
  destruct (y =? 35).
  { unfold parse_python_comment. destruct (N.testbit fl bPythonComments); [|apply step_error; auto with suf].
    apply AL. apply read_comment_line_suf. auto with suf. }
  destruct (N.eqb_spec y 39) as [->|_].
  { destruct (N.testbit fl bSingleQuoted); [|apply step_error; auto with suf].
    destruct (parse_quoted_stays fl c r x 39 s) as (t & r' & -> & S'); auto. }
  destruct (N.eqb_spec y 34) as [->|_].
  { destruct (parse_quoted_stays fl c r x 34 s) as (t & r' & -> & S'); auto. }
  destruct ((y =? 123) || (y =? 91)).
  { unfold parse_start. cbv zeta.
    destruct c; [destruct (root x)| |]; try destruct (can_value_follow x _);
      first [apply step_error; now auto with suf|apply AL; unfold suf; exists []; reflexivity]. }
  destruct ((y =? 125) || (y =? 93)).
  { unfold parse_end. cbv zeta. destruct (can_end_follow _ _ _ _);
      first [apply step_error; now auto with suf|apply AL; auto with suf]. }
  destruct ((y =? 58) || (y =? 61)).
  { destruct (_ || _); [apply step_error; auto with suf|]. split; [auto with suf|exact LA]. }
  destruct (y =? 44).
  { destruct c; [apply step_error; auto with suf| |]; destruct (last x);
      first [apply step_error; now auto with suf|split; [auto with suf|exact LA]]. }
  pose proof (parse_other_stays fl c r x y s SF R S) as H.
  destruct (parse_other fl c y x) as [[t r']|]; auto.
Qed.

Lemma next_token_stays fl c r : safe_flags fl -> stays r (next_token_ex fl c r).
Proof.
  intro SF. unfold next_token_ex.
  assert (G : forall n r, (length (rest r) < n)%nat -> stays r (next_loop_ex n fl c r)).
  { clear r. induction n as [|n IH]; intros r L; [lia|]. cbn [next_loop_ex].
    pose proof (next_step_stays fl c r SF) as H.
    destruct (next_step_ex fl c r) as [[[t r']|r']|]; [exact H| |exact H].
    destruct H as [S L']. specialize (IH r' ltac:(lia)).
    destruct (next_loop_ex n fl c r') as [[t r2]|]; cbn in *.
    - destruct IH as [S2 C]. split; [now apply suf_trans with r'|]. intuition lia.
    - eapply suf_open; eauto. }
  apply G. lia.
Qed.

Lemma pop_total st c : JsonStream.wf st -> pop_context st c <> None.
Proof.
  intros [F _]. unfold pop_context. destruct (cs_entries st) as [|[c' n] es]; [discriminate|].
  inversion F as [|? ? H _]; subst. cbn [snd] in H. destruct (negb _); [discriminate|].
  destruct (1 <? n) eqn:E; [discriminate|]. replace n with 1 by lia. discriminate.
Qed.

Lemma pop_wf st c st' : JsonStream.wf st -> pop_context st c = Some (Some st') -> JsonStream.wf st'.
Proof.
  intros [F L]. unfold pop_context. destruct (cs_entries st) as [|[c' n] es]; [discriminate|].
  inversion F as [|? ? H F']; subst. cbn [snd length] in *. destruct (negb _); [discriminate|].
  destruct (1 <? n) eqn:E.
  - intros [= <-]. split; cbn [cs_entries cs_cap length]; [constructor; [cbn [snd]; lia|exact F']|exact L].
  - unfold assert_. destruct (n =? 1); [|discriminate]. intros [= <-]. split; cbn [cs_entries cs_cap]; [exact F'|lia].
Qed.

Lemma push_wf st c st' : JsonStream.wf st -> push_context st c = Some st' -> JsonStream.wf st'.
Proof.
  destruct st as [es cap]. intros [F L]. unfold push_context. cbn [cs_entries cs_cap] in *.
  destruct es as [|[c' n] es].
  - destruct (Nat.ltb_spec 0 cap); [|discriminate]. intros [= <-]. split; cbn [cs_entries cs_cap length]; [|lia].
    constructor; [cbn [snd]; lia|constructor].
  - inversion F as [|? ? H F']; subst. cbn [snd] in H. destruct (ctx_eqb c' c && (n <? 255)) eqn:E.
    + intros [= <-]. split; cbn [cs_entries cs_cap length] in *; [|exact L]. constructor; [cbn [snd]; lia|exact F'].
    + destruct (Nat.ltb_spec (length ((c', n) :: es)) cap); [|discriminate]. intros [= <-].
      split; cbn [cs_entries cs_cap length] in *; [|lia]. constructor; [cbn [snd]; lia|exact F].
Qed.

Lemma explicit_stays fl r st : safe_flags fl -> JsonStream.wf st ->
  match next_token_explicit_ex fl r st with
  | Some (t, r', st') => step r t r' /\ JsonStream.wf st'
  | None => open_exponent (rest r)
  end.
Proof.
  intros SF W. unfold next_token_explicit_ex. pose proof (next_token_stays fl (top_context st) r SF) as H.
  destruct (next_token_ex fl (top_context st) r) as [[t r']|]; [|exact H]. cbn in H.
  assert (PU : forall c, match (match push_context st c with Some st => Some (t, r', st)
      | None => Some (TError, set_error r' JOutOfContextStack, st) end) with
    | Some (t, r', st') => step r t r' /\ JsonStream.wf st' | None => open_exponent (rest r) end).
  { intro c. destruct (push_context st c) eqn:P.
    - split; [exact H|now apply push_wf with st c].
    - split; [|exact W]. apply step_error. destruct H; auto with suf. }
  assert (PO : forall c, match (p <- pop_context st c;; match p with Some st => Some (t, r', st)
      | None => Some (TError, set_error r' JMismatchedBrackets, st) end) with
    | Some (t, r', st') => step r t r' /\ JsonStream.wf st' | None => open_exponent (rest r) end).
  { intro c. pose proof (pop_total st c W) as T. destruct (pop_context st c) as [[st'|]|] eqn:P; [| |congruence].
    - split; [exact H|now apply pop_wf with st c].
    - split; [|exact W]. apply step_error. destruct H; auto with suf. }
  destruct t; try (split; assumption);
    [apply (PU CObject)|apply (PU CArray)|apply (PO CObject)|apply (PO CArray)].
Qed.

(** All the tokens of a text, until the end or an error. *)
Lemma tokens_total fl buf : safe_flags fl -> forall n r st, JsonStream.wf st ->
  ~ open_exponent (rest r) -> (length (rest r) < n)%nat -> exists es e,
  tokens_ex n fl buf r st = Some (es ++ [e]) /\ (fst e = TEof \/ fst e = TError)
  /\ (length es <= length (rest r))%nat.
Proof.
  intro SF. induction n as [|n IH]; intros r st W NO L; [lia|]. cbn [tokens_ex].
  pose proof (explicit_stays fl r st SF W) as H.
  destruct (next_token_explicit_ex fl r st) as [[[t r'] st']|]; [|contradiction].
  destruct H as [[S C] W'].
  assert (ENDS : t = TEof \/ t = TError -> exists es e,
    Some [observe buf t r'] = Some (es ++ [e]) /\ (fst e = TEof \/ fst e = TError)
    /\ (length es <= length (rest r))%nat).
  { intro T. exists [], (observe buf t r'). repeat split; [exact T|cbn; lia]. }
  assert (MORE : (length (rest r') < length (rest r))%nat -> exists es e,
    (es <- tokens_ex n fl buf r' st';; Some (observe buf t r' :: es)) = Some (es ++ [e])
    /\ (fst e = TEof \/ fst e = TError) /\ (length es <= length (rest r))%nat).
  { intro L'. destruct (IH r' st' W') as (es & e & -> & T & LE).
    - intro O. apply NO. now apply suf_open with r'.
    - lia.
    - exists (observe buf t r' :: es), e. cbn [app length]. repeat split; [exact T|lia]. }
  destruct t; try (apply ENDS; tauto); apply MORE; destruct C as [C|[C|C]]; congruence.
Qed.
