(** Documents: reading stays inside the buffer and inside the memory that was counted, unless the
    buffer ends in the middle of an exponent. *)
From Coq Require Import Arith NArith List Bool Lia ZifyBool ZifyNat ZifyN.
From Verif Require Import Base UniSpec JsonModel JsonSpec JsonString JsonLex JsonTok JsonSkip JsonCopy JsonDom.
Import ListNotations.
Local Open Scope N_scope.

(** What is left of the buffer is a suffix of what was left before. *)
Definition suf (r r' : reader) : Prop := exists u, rest r = u ++ rest r'.

Lemma suf_refl r : suf r r.
Proof. exists []. reflexivity. Qed.
Lemma suf_trans a b c : suf a b -> suf b c -> suf a c.
Proof. intros [u U] [v V]. exists (u ++ v). rewrite U, V. apply app_assoc. Qed.
Lemma suf_length a b : suf a b -> (length (rest b) <= length (rest a))%nat.
Proof. intros [u ->]. rewrite app_length. lia. Qed.
Lemma suf_open a b : suf a b -> open_exponent (rest b) -> open_exponent (rest a).
Proof. intros [u ->]. apply open_exponent_app. Qed.
Lemma moved_suf r u r' : moved r u r' -> suf r r'.
Proof. intros (M & _). now exists u. Qed.

Lemma skip_ws_suf r : suf r (skip_ws r).
Proof. destruct (skip_ws_spec r) as (w & _ & (T & _) & _). now exists w. Qed.

Lemma suf_advance r x : suf r x -> suf r (advance x).
Proof.
  intros [u U]. unfold suf, advance. cbn [rest set_pos]. destruct (rest x) as [|c s]; cbn [tl]; [eauto|].
  exists (u ++ [c]). rewrite U. app_norm.
Qed.
Lemma suf_adv_while p r x : suf r x -> suf r (adv_while p x).
Proof.
  intros [u U]. unfold adv_while. destruct (span p (rest x)) as [a b] eqn:SP.
  apply span_spec in SP. destruct SP as (E & _). unfold suf. cbn. exists (u ++ a). rewrite U, E. app_norm.
Qed.
Lemma suf_set_error r x e : suf r x -> suf r (set_error x e).
Proof. exact (fun H => H). Qed.
Lemma suf_set_last r x e : suf r x -> suf r (set_last x e).
Proof. exact (fun H => H). Qed.
Lemma suf_set_vt r x e : suf r x -> suf r (set_vt x e).
Proof. exact (fun H => H). Qed.
Lemma suf_set_cur r x o n : suf r x -> suf r (set_cur x o n).
Proof. exact (fun H => H). Qed.
Lemma suf_set_root r x : suf r x -> suf r (set_root x).
Proof. exact (fun H => H). Qed.
Lemma suf_cur_end r x : suf r x -> suf r (cur_end x).
Proof. unfold cur_end. destruct (curo x); exact (fun H => H). Qed.
Lemma suf_skip_ws r x : suf r x -> suf r (skip_ws x).
Proof. intro H. apply suf_trans with x; auto using skip_ws_suf. Qed.
Global Hint Resolve suf_refl suf_advance suf_adv_while suf_set_error suf_set_last suf_set_vt suf_set_cur
  suf_set_root suf_cur_end suf_skip_ws : suf.

Definition osuf {X} (r : reader) (p : option (X * reader)) : Prop :=
  match p with Some (_, r') => suf r r' | None => True end.

Lemma suf_number_exp r dot trail x : suf r x -> osuf r (number_exp true dot trail x).
Proof.
  intro S. unfold number_exp, number_end, peek. cbn [negb andb].
  destruct (rest x) as [|e s]; [cbn; auto with suf|].
  destruct ((e =? 101) || (e =? 69)); [|cbn; auto with suf].
  rewrite andb_false_r. cbv zeta.
  destruct (rest (advance (set_vt x YFloat))) as [|c q]; [exact I|].
  assert (S1 : suf r (advance (set_vt x YFloat))) by auto with suf.
  set (y := if (c =? 43) || (c =? 45) then advance (advance (set_vt x YFloat)) else advance (set_vt x YFloat)).
  assert (SY : suf r y) by (unfold y; destruct ((c =? 43) || (c =? 45)); auto with suf).
  clearbody y. destruct (rest y) as [|c' q']; [exact I|].
  destruct (negb (isdigit c')); cbn; auto with suf.
Qed.

Lemma suf_number_frac fl r x : N.testbit fl bLeadTrailPoint = false -> suf r x ->
  osuf r (number_frac fl true x).
Proof.
  intros PF S. unfold number_frac.
  destruct (rest x) as [|c s]; [now apply suf_number_exp|].
  destruct (c =? 46); [|now apply suf_number_exp]. cbv zeta.
  destruct (rest (advance (set_vt x YFloat))) as [|d q]; rewrite PF; [cbn; auto with suf|].
  destruct (isdigit d); [apply suf_number_exp; auto with suf|]. cbn. auto with suf.
Qed.

Lemma suf_read_number fl r x : N.testbit fl bLeadTrailPoint = false -> suf r x -> osuf r (read_number fl x).
Proof.
  intros PF S. unfold read_number.
  destruct (rest x) as [|c0 s0]; [cbn; auto with suf|]. cbv zeta.
  match goal with |- osuf _ (match rest ?x with _ => _ end) => set (b1 := x) end.
  assert (S1 : suf r b1).
  { unfold b1. destruct (c0 =? 45); [auto with suf|].
    destruct (N.testbit fl bPlusSign && (c0 =? 43)); auto 10 with suf. }
  clearbody b1. destruct (rest b1) as [|c s]; [cbn; auto with suf|].
  assert (S2 : suf r (advance b1)) by auto with suf.
  destruct (c =? 48).
  { destruct (rest (advance b1)) as [|y t]; [cbn; auto with suf|].
    assert (S3 : suf r (advance (advance b1))) by auto with suf.
    destruct (((y =? 120) || (y =? 88)) && N.testbit fl bHexadecimal);
      [|now apply suf_number_frac].
    destruct (rest (advance (advance b1))) as [|h t']; [cbn; auto with suf|].
    destruct (negb (isxdigit h)); cbn; auto with suf. }
  destruct (isdigit c).
  { assert (S3 : suf r (adv_while isdigit b1)) by auto with suf.
    destruct (rest (adv_while isdigit b1)) as [|y t]; [cbn; auto with suf|].
    now apply suf_number_frac. }
  rewrite PF. cbn. auto with suf.
Qed.

Lemma suf_read_value fl r x : plain_flags fl -> suf r x -> osuf r (read_value fl x).
Proof.
  intros PF S. assert (P : N.testbit fl bLeadTrailPoint = false) by apply PF. unfold read_value.
  assert (AV : forall t n, suf r (advance_value (set_vt x t) n)).
  { intros t n. destruct S as [u U]. unfold suf. cbn. exists (u ++ firstn n (rest x)).
    now rewrite <- app_assoc, firstn_skipn. }
  destruct (starts_with (rest x) str_true); [apply AV|].
  destruct (starts_with (rest x) str_false); [apply AV|].
  destruct (starts_with (rest x) str_null); [apply AV|].
  pose proof (suf_read_number fl r x P S) as H.
  destruct (read_number fl x) as [[ok y]|]; [|exact I]. cbn in H. destruct ok; cbn; auto with suf.
Qed.

Lemma read_quoted_suf fl r s ok r' : N.testbit fl bEscapedMultiline = false -> rest r = 34 :: s ->
  read_quoted fl r = Some (ok, r') ->
  suf r r' /\ (length (rest r') < length (rest r))%nat.
Proof.
  intros M R H. unfold read_quoted in H. rewrite R in H. cbn [N.eqb Pos.eqb orb] in H.
  destruct (find_char_unescaped s 34) as [[body after]|] eqn:F.
  - apply find_sound in F. destruct F as (z & -> & -> & _). rewrite M in H.
    destruct (valid_string _ body 34 false _) as [[|]|]; [| |discriminate]; injection H as <- <-;
      unfold suf; cbn; rewrite R; (split; [|cbn [length]; rewrite app_length; cbn [length]; lia]);
      exists (34 :: body ++ [34]); cbn [app]; now rewrite <- app_assoc.
  - injection H as <- <-. unfold suf. cbn. split; [exists (rest r); now rewrite app_nil_r|].
    rewrite R. cbn. lia.
Qed.

Lemma skip_total fl obj : plain_flags fl -> forall n d r, (length (rest r) < n)%nat ->
  exists b r', skip_brackets n fl obj (S d) r = Some (b, r') /\ suf r r'
    /\ (err r' = JOk -> rest r' = [] \/ ended (last r')).
Proof.
  intro PF. assert (M : N.testbit fl bEscapedMultiline = false) by apply PF.
  induction n as [|n IH]; intros d r L; [lia|]. rewrite skip_eq.
  destruct (rest r) as [|y q] eqn:R.
  { exists false, r. split; [reflexivity|]. split; [apply suf_refl|]. auto. }
  rewrite <- R in *.
  pose proof (skip_ws_suf r) as SW. pose proof (suf_length _ _ SW) as LW.
  destruct (rest (skip_ws r)) as [|x s] eqn:R0.
  { do 2 eexists. split; [reflexivity|]. split; [|discriminate].
    destruct SW as [u SW]. exists u. exact SW. }
  assert (SA : suf r (advance (skip_ws r))).
  { apply suf_trans with (skip_ws r); auto. exists [x]. unfold advance. cbn [rest set_pos]. rewrite R0. reflexivity. }
  assert (LA : (length (rest (advance (skip_ws r))) < n)%nat).
  { unfold advance. cbn [rest set_pos]. rewrite R0. cbn [tl length] in *. lia. }
  assert (GO : forall d', exists b r', skip_brackets n fl obj (S d') (advance (skip_ws r)) = Some (b, r') /\ suf r r'
    /\ (err r' = JOk -> rest r' = [] \/ ended (last r'))).
  { intro d'. destruct (IH d' _ LA) as (b & r' & S1 & S2 & S3). exists b, r'. split; [exact S1|].
    split; [now apply suf_trans with (advance (skip_ws r))|exact S3]. }
  destruct (x =? (if obj then 123 else 91)); [apply GO|].
  destruct (x =? (if obj then 125 else 93)).
  { destruct d as [|d]; [|apply GO]. do 2 eexists. split; [reflexivity|]. split; [exact SA|].
    intros _. right. cbn. destruct obj; [now left|right; now left]. }
  destruct (N.eqb_spec x 34) as [->|NX]; [|apply GO].
  set (r0 := set_pos (skip_ws r) _ _ _ _).
  assert (RR : rest r0 = 34 :: s) by reflexivity.
  destruct (read_quoted_cases fl r0 s M RR) as (ok & r1 & RQ & C). rewrite RQ.
  destruct (read_quoted_suf fl r0 s ok r1 M RR RQ) as [[u SR] LR].
  assert (S1 : suf r r1).
  { apply suf_trans with (skip_ws r); auto. exists u. now rewrite R0, <- RR. }
  destruct ok.
  - rewrite RR in LR.
    destruct (IH d r1) as (b & r' & H1 & H2 & H3); [lia|]. exists b, r'. split; [exact H1|].
    split; [now apply suf_trans with r1|exact H3].
  - exists false, r1. split; [reflexivity|]. split; [exact S1|]. intro E. destruct C as (C & _). contradiction.
Qed.

Lemma suf_parse_quoted fl c r x s : plain_flags fl -> rest x = 34 :: s -> suf r x ->
  osuf r (parse_quoted fl c x).
Proof.
  intros PF R S. assert (M : N.testbit fl bEscapedMultiline = false) by apply PF. unfold parse_quoted.
  destruct (read_quoted fl x) as [[ok y]|] eqn:RQ; [|exact I].
  destruct (read_quoted_suf fl x s ok y M R RQ) as [SY _].
  assert (suf r y) by now apply suf_trans with x.
  destruct ok; [|exact H]. cbv zeta. destruct c; cbn [ctx_eqb andb]; [cbn; auto with suf| |].
  - destruct (_ || _); [cbn; auto with suf|]. destruct (can_value_follow _ _); cbn; auto with suf.
  - destruct (can_value_follow _ _); cbn; auto with suf.
Qed.

Lemma suf_next_step fl c r : plain_flags fl ->
  match next_step fl c r with
  | Some (inl (_, r')) => suf r r'
  | Some (inr r') => suf r r'
  | None => True
  end.
Proof.
  intro PF. assert (SC : N.testbit fl bSingleLineComments = false) by apply PF.
  assert (SQ : N.testbit fl bSingleQuoted = false) by apply PF.
  unfold next_step. cbv zeta. pose proof (skip_ws_suf r) as S.
  set (x := skip_ws r) in *. clearbody x.
  destruct (rest x) as [|y s] eqn:R; [destruct c; auto with suf|].
  destruct (y =? 47). { unfold parse_comment. rewrite SC. auto with suf. }
  destruct (y =? 39). { rewrite SQ. auto with suf. }
  destruct (N.eqb_spec y 34) as [->|_].
  { pose proof (suf_parse_quoted fl c r x s PF R S) as H. destruct (parse_quoted fl c x) as [[t r']|]; auto. }
  destruct ((y =? 123) || (y =? 91)).
  { unfold parse_start. cbv zeta. destruct c; [destruct (root x)| |]; try destruct (can_value_follow x _); auto with suf. }
  destruct ((y =? 125) || (y =? 93)).
  { unfold parse_end. cbv zeta. destruct (can_end_follow _ _ _ _); auto with suf. }
  destruct ((y =? 58) || (y =? 61)).
  { destruct (_ || _); auto with suf. }
  destruct (y =? 44).
  { destruct c; [auto with suf| |]; destruct (last x); auto with suf. }
  destruct (can_value_follow x c); [|auto with suf].
  pose proof (suf_read_value fl r (set_root x) PF S) as H.
  destruct (read_value fl (set_root x)) as [[t r']|]; auto.
Qed.

Lemma suf_next_token fl c r : plain_flags fl -> osuf r (next_token fl c r).
Proof.
  intro PF. unfold next_token. generalize (S (length (rest r))). intro n. revert r.
  induction n as [|n IH]; intro r; [exact I|]. cbn [next_loop].
  pose proof (suf_next_step fl c r PF) as H.
  destruct (next_step fl c r) as [[[t r']|r']|]; [exact H| |exact I].
  specialize (IH r'). destruct (next_loop n fl c r') as [[t r2]|]; [|exact I].
  cbn in *. now apply suf_trans with r'.
Qed.

Lemma token_suf fl c r t r' : plain_flags fl -> c <> CNull -> next_token fl c r = Some (t, r') -> t <> TError ->
  suf r r' /\ (length (rest r') < length (rest r))%nat /\ last r' = t /\ err r' = err r
  /\ exists p l x ct, prefix (dialect_of fl) c (last r) p l
      /\ lexeme (dialect_of fl) c (root r) l t x ct /\ moved r (p ++ x) r'.
Proof.
  intros PF NC H NE. pose proof (next_token_cases fl c r PF) as C. rewrite H in C.
  assert (K : last r' = t /\ exists p l x ct, prefix (dialect_of fl) c (last r) p l
      /\ lexeme (dialect_of fl) c (root r) l t x ct /\ moved r (p ++ x) r').
  { destruct t; auto; exfalso; [destruct C as (C & _)|]; congruence. }
  destruct K as (L & p & l & x & ct & P & LX & M).
  split; [eapply moved_suf; eauto|]. split.
  - destruct (lexeme_head _ _ _ _ _ _ _ LX) as (y & s & -> & _). destruct M as (M & _). rewrite M.
    rewrite !app_length. cbn [length]. lia.
  - split; [exact L|]. split; [apply M|]. exists p, l, x, ct. auto.
Qed.

Definition skip_spec (r : reader) (x : option (bool * reader)) : Prop :=
  open_exponent (rest r) \/ exists b r', x = Some (b, r') /\ suf r r'
    /\ (err r' = JOk -> err r = JOk /\ (rest r' = [] \/ ended (last r'))).

Lemma skip_current_total fl c r : plain_flags fl ->
  (last r = TPropertyName /\ c = CObject) \/ last r = TObjectStart \/ last r = TArrayStart -> c <> CNull ->
  skip_spec r (skip_current fl c r).
Proof.
  intros PF LA NC. unfold skip_current.
  destruct (err_ok (err r)) eqn:EO; cbn [negb].
  2: { right. exists false, r. split; [reflexivity|]. split; [apply suf_refl|]. intro E. rewrite E in EO. discriminate. }
  apply err_ok_spec in EO.
  destruct (rest r) as [|y q] eqn:R.
  { right. exists false, r. split; [reflexivity|]. split; [apply suf_refl|]. auto. }
  rewrite <- R in *.
  assert (SK : forall obj r0, suf r r0 -> err r0 = JOk ->
     skip_spec r (skip_brackets (S (length (rest r0))) fl obj 1 r0)).
  { intros obj r0 S0 E0. right. destruct (skip_total fl obj PF (S (length (rest r0))) 0 r0) as (b & r' & H1 & H2 & H3); [lia|].
    exists b, r'. split; [exact H1|]. split; [now apply suf_trans with r0|]. auto. }
  destruct LA as [(LA & ->)|[LA|LA]]; rewrite LA; try (apply SK; auto using suf_refl; fail).
  cbn [skip_to_content].
  pose proof (next_token_cases fl CObject r PF) as C.
  destruct (next_token fl CObject r) as [[t r1]|] eqn:T; [|left; exact C].
  destruct (token_err fl CObject r t r1 PF NC T) as [(-> & E1)|(E1 & NE)].
  { right. destruct (err_ok (err r1)) eqn:EO1; [apply err_ok_spec in EO1; contradiction|].
    exists false, r1. split; [reflexivity|]. split; [|intro; contradiction].
    pose proof (suf_next_token fl CObject r PF) as H. rewrite T in H. exact H. }
  destruct (token_suf fl CObject r t r1 PF NC T NE) as (S1 & _ & L1 & _ & p & l & x & ct & P & LX & M).
  rewrite LA in P. rewrite EO in E1.
  destruct (after_name _ _ _ _ _ _ _ _ P LX eq_refl) as (TT & _).
  destruct TT as [->|[-> | ->]].
  - right. exists true, r1. split; [reflexivity|]. split; [exact S1|]. intros _. split; [exact EO|].
    right. rewrite L1. right. now right.
  - rewrite E1. cbn [err_ok]. rewrite L1. apply SK; auto.
  - rewrite E1. cbn [err_ok]. rewrite L1. apply SK; auto.
Qed.

(** ** The first pass *)

Lemma empty_token fl c r t r' : c <> CNull -> rest r = [] -> next_token fl c r = Some (t, r') ->
  t = TError /\ err r' <> JOk.
Proof.
  intros NC R H. unfold next_token in H. rewrite R in H. cbn [length next_loop] in H.
  unfold next_step in H. cbv zeta in H.
  destruct (skip_ws_nil r R) as (R0 & _). rewrite R in R0. rewrite R0 in H.
  destruct c; [contradiction| |]; injection H as <- <-; (split; [reflexivity|discriminate]).
Qed.

Definition ready (s : tok) (r : reader) : Prop :=
  err r = JOk -> rest r = [] \/ last r = s \/ ended (last r).

Lemma count_members_total fl : plain_flags fl -> forall n r k, (length (rest r) < n)%nat ->
  ready TObjectStart r ->
  open_exponent (rest r) \/ exists x, count_members n fl r k = Some x.
Proof.
  intro PF. assert (NC : CObject <> CNull) by discriminate.
  induction n as [|n IH]; intros r k L RD; [lia|]. cbn [count_members].
  pose proof (next_token_cases fl CObject r PF) as C.
  destruct (next_token fl CObject r) as [[t r1]|] eqn:T; [clear C|left; exact C].
  destruct (token_err fl CObject r t r1 PF NC T) as [(-> & E1)|(E1 & NE)].
  { right. destruct (err_ok (err r1)) eqn:EO1; [apply err_ok_spec in EO1; contradiction|]. eauto. }
  destruct (token_suf fl CObject r t r1 PF NC T NE) as (S1 & LL & L1 & _ & p & l & x & ct & P & LX & M).
  assert (TT : err r <> JOk \/ t = TPropertyName \/ t = TObjectEnd).
  { destruct (err r) eqn:E; try (left; discriminate). right.
    destruct (RD E) as [R|LR].
    - destruct (empty_token fl CObject r t r1 NC R T) as (-> & _). contradiction.
    - destruct (object_token _ _ _ _ _ _ _ _ P LX LR) as [(-> & _)|(-> & _)]; auto. }
  assert (NM : t = TPropertyName -> open_exponent (rest r) \/ exists x, (' (_, r) <- skip_current fl CObject r1;;
          count_members n fl r (S k)) = Some x).
  { intros ->. destruct (skip_current_total fl CObject r1 PF) as [OE|(b & r2 & SC & S2 & K)]; auto.
    - left. now apply suf_open with r1.
    - rewrite SC. destruct (IH r2 (S k)) as [OE|X]; auto.
      + apply suf_length in S2. lia.
      + intro E2. destruct (K E2) as (_ & [R2|EN]); auto.
      + left. apply suf_open with r1; auto. now apply suf_open with r2. }
  assert (DEF : t <> TPropertyName -> t <> TObjectEnd ->
     exists x, (if err_ok (err r1) then None else Some (inl (err r1, r1) : jerr * reader + nat)) = Some x).
  { intros N1 N2. destruct (err_ok (err r1)) eqn:EO; [|eauto]. apply err_ok_spec in EO.
    destruct TT as [TT|[TT|TT]]; congruence. }
  destruct t; auto; try (right; apply DEF; discriminate); try (right; eauto; fail).
  exfalso. eapply no_comment; eauto.
Qed.

Lemma count_values_total fl : plain_flags fl -> forall n r k, (length (rest r) < n)%nat ->
  ready TArrayStart r ->
  open_exponent (rest r) \/ exists x, count_values n fl r k = Some x.
Proof.
  intro PF. assert (NC : CArray <> CNull) by discriminate.
  induction n as [|n IH]; intros r k L RD; [lia|]. cbn [count_values].
  pose proof (next_token_cases fl CArray r PF) as C.
  destruct (next_token fl CArray r) as [[t r1]|] eqn:T; [clear C|left; exact C].
  destruct (token_err fl CArray r t r1 PF NC T) as [(-> & E1)|(E1 & NE)].
  { right. destruct (err_ok (err r1)) eqn:EO1; [apply err_ok_spec in EO1; contradiction|]. eauto. }
  destruct (token_suf fl CArray r t r1 PF NC T NE) as (S1 & LL & L1 & _ & p & l & x & ct & P & LX & M).
  assert (TT : err r <> JOk \/ (t = TValue \/ t = TObjectStart \/ t = TArrayStart) \/ t = TArrayEnd).
  { destruct (err r) eqn:E; try (left; discriminate). right.
    destruct (RD E) as [R|LR].
    - destruct (empty_token fl CArray r t r1 NC R T) as (-> & _). contradiction.
    - destruct (array_token _ _ _ _ _ _ _ _ P LX LR) as [(TT & _)|(-> & _)]; auto. }
  assert (NX : forall r2, suf r1 r2 -> ready TArrayStart r2 -> open_exponent (rest r) \/ exists x, count_values n fl r2 (S k) = Some x).
  { intros r2 S2 R2. destruct (IH r2 (S k)) as [OE|X]; auto.
    - apply suf_length in S2. lia.
    - left. apply suf_open with r1; auto. now apply suf_open with r2. }
  assert (NM : t = TObjectStart \/ t = TArrayStart -> open_exponent (rest r) \/ exists x, (' (_, r) <- skip_current fl CArray r1;;
          count_values n fl r (S k)) = Some x).
  { intros T0. destruct (skip_current_total fl CArray r1 PF) as [OE|(b & r2 & SC & S2 & K)]; auto.
    - right. rewrite L1. exact T0.
    - left. now apply suf_open with r1.
    - rewrite SC. apply NX; auto. intro E2. destruct (K E2) as (_ & [R2|EN]); auto. }
  assert (DEF : t <> TValue -> t <> TObjectStart -> t <> TArrayStart -> t <> TArrayEnd ->
     exists x, (if err_ok (err r1) then None else Some (inl (err r1, r1) : jerr * reader + nat)) = Some x).
  { intros N1 N2 N3 N4. destruct (err_ok (err r1)) eqn:EO; [|eauto]. apply err_ok_spec in EO.
    destruct TT as [TT|[[TT|[TT|TT]]|TT]]; congruence. }
  destruct t; auto; try (right; apply DEF; discriminate); try (right; eauto; fail).
  - apply NX; [apply suf_refl|]. intros _. right. right. rewrite L1. right. now right.
  - exfalso. eapply no_comment; eauto.
Qed.

(** ** The second pass *)

Lemma count_members_ge fl n : forall r k m, count_members n fl r k = Some (inr m) -> (k <= m)%nat.
Proof.
  induction n as [|n IH]; intros r k m H; cbn [count_members] in H; [discriminate|].
  destruct (next_token fl CObject r) as [[t r0]|]; [|discriminate].
  destruct t; try (destruct (err_ok (err r0)); discriminate).
  - destruct (skip_current fl CObject r0) as [[b r2]|]; [|discriminate]. apply IH in H. lia.
  - injection H as <-. lia.
  - eauto.
Qed.

Lemma count_members_err fl n : forall r k e r1, count_members n fl r k = Some (inl (e, r1)) -> e = err r1.
Proof.
  induction n as [|n IH]; intros r k e r1 H; cbn [count_members] in H; [discriminate|].
  destruct (next_token fl CObject r) as [[t r0]|]; [|discriminate].
  destruct t; try discriminate;
    try (destruct (err_ok (err r0)); [discriminate|]; assert (e = err r0 /\ r1 = r0) as [-> ->] by (split; congruence); reflexivity);
    try (destruct (skip_current fl CObject r0) as [[b r2]|]; [|discriminate]); eauto.
Qed.

Lemma count_values_err fl n : forall r k e r1, count_values n fl r k = Some (inl (e, r1)) -> e = err r1.
Proof.
  induction n as [|n IH]; intros r k e r1 H; cbn [count_values] in H; [discriminate|].
  destruct (next_token fl CArray r) as [[t r0]|]; [|discriminate].
  destruct t; try discriminate;
    try (destruct (err_ok (err r0)); [discriminate|]; assert (e = err r0 /\ r1 = r0) as [-> ->] by (split; congruence); reflexivity);
    try (eapply IH; exact H);
    (destruct (skip_current fl CArray r0) as [[b r2]|]; [|discriminate]); eauto.
Qed.

Lemma count_values_ge fl n : forall r k m, count_values n fl r k = Some (inr m) -> (k <= m)%nat.
Proof.
  induction n as [|n IH]; intros r k m H; cbn [count_values] in H; [discriminate|].
  destruct (next_token fl CArray r) as [[t r0]|]; [|discriminate].
  destruct t; try (destruct (err_ok (err r0)); discriminate); try (apply IH in H; lia);
    try (destruct (skip_current fl CArray r0) as [[b r2]|]; [|discriminate]; apply IH in H; lia).
  injection H as <-. lia.
Qed.

Lemma skip_current_start fl c (obj : bool) r : err r = JOk -> last r = (if obj then TObjectStart else TArrayStart) ->
  skip_current fl c r = skipB fl obj 1 r.
Proof.
  intros E L. unfold skip_current, skipB. rewrite E, L. cbn [err_ok negb].
  destruct (rest r) as [|x s] eqn:R; [|rewrite <- R; destruct obj; reflexivity].
  cbn [length]. rewrite skip_eq, R. reflexivity.
Qed.

Lemma skip_after_name fl r t r' : plain_flags fl -> err r = JOk -> last r = TPropertyName ->
  next_token fl CObject r = Some (t, r') -> err r' = JOk -> last r' = t ->
  (t = TValue -> skip_current fl CObject r = Some (true, r'))
  /\ (t = TObjectStart -> skip_current fl CObject r = skipB fl true 1 r')
  /\ (t = TArrayStart -> skip_current fl CObject r = skipB fl false 1 r').
Proof.
  intros PF E L T E' L'. unfold skip_current. rewrite E, L. cbn [err_ok negb].
  destruct (rest r) as [|x s] eqn:R.
  { destruct (empty_token fl CObject r t r') as (_ & C); auto; [discriminate|contradiction]. }
  rewrite <- R. cbn [skip_to_content]. rewrite T, E'.
  repeat split; intros ->; cbn [err_ok]; rewrite ?L'; reflexivity.
Qed.

Lemma object_value_skips fl u t : plain_flags fl -> value (dialect_of fl) (123 :: u) t ->
  exists u', u = u' ++ [125] /\ skips fl true u'.
Proof.
  intros PF V. destruct (skips_value fl true (dialect_of fl) PF) as (SV & SM & SO & _).
  inversion V; subst.
  - exfalso. match goal with X : number _ _ _ _ |- _ => apply (number_inert true) in X; inversion X as [|? ? Y _]; subst;
      unfold inert in Y; cbn in Y; intuition congruence end.
  - exists w. split; auto. now apply skips_ws.
  - match goal with X : object_tail _ _ _ |- _ => apply SO in X; destruct X as (u' & -> & X) end.
    exists (s ++ u'). split; [app_norm|]. apply skips_app; eauto.
Qed.

Lemma array_value_skips fl u t : plain_flags fl -> value (dialect_of fl) (91 :: u) t ->
  exists u', u = u' ++ [93] /\ skips fl false u'.
Proof.
  intros PF V. destruct (skips_value fl false (dialect_of fl) PF) as (SV & _ & _ & SO).
  inversion V; subst.
  - exfalso. match goal with X : number _ _ _ _ |- _ => apply (number_inert false) in X; inversion X as [|? ? Y _]; subst;
      unfold inert in Y; cbn in Y; intuition congruence end.
  - exists w. split; auto. now apply skips_ws.
  - match goal with X : array_tail _ _ _ |- _ => apply SO in X; destruct X as (u' & -> & X) end.
    exists (w ++ s ++ u'). split; [app_norm|]. apply skips_app; [now apply skips_ws|]. apply skips_app; eauto.
Qed.

(** The reader after a nested object is where skipping the object leads. *)
Lemma nested_sim fl n buf (obj : bool) r a r2 a2 v r1 : plain_flags fl -> err r = JOk ->
  last r = (if obj then TObjectStart else TArrayStart) ->
  (if obj then read_object n fl buf r a else read_array n fl buf r a) = Some (JOk, r2, a2, v) -> sim r r1 ->
  exists r3, skipB fl obj 1 r1 = Some (true, r3) /\ sim r2 r3 /\ suf r r2 /\ err r2 = JOk /\ ended (last r2).
Proof.
  intros PF E L H S.
  assert (K : last r2 = (if obj then TObjectEnd else TArrayEnd) /\ exists u, moved r u r2
     /\ exists u', u = u' ++ [if obj then 125 else 93] /\ skips fl obj u').
  { destruct obj.
    - apply (read_sound_all fl PF) in H; auto. destruct H as (L2 & u & M & OR). split; [exact L2|].
      exists u. split; [exact M|]. destruct (object_rest_value _ _ OR) as [t V]. eapply object_value_skips; eauto.
    - apply (read_sound_all fl PF) in H; auto. destruct H as (L2 & u & M & OR). split; [exact L2|].
      exists u. split; [exact M|]. destruct (array_rest_value _ _ OR) as [t V]. eapply array_value_skips; eauto. }
  destruct K as (L2 & u & M & u' & -> & SK).
  destruct (skip_inner fl obj u' (rest r2) r1 PF SK) as (r3 & S3 & R3 & L3 & E3).
  { destruct S as (SR & _). destruct M as (M & _). rewrite <- SR, M. app_norm. }
  exists r3. split; [exact S3|]. destruct M as (M1 & _ & M2). destruct S as (_ & _ & SE).
  split; [unfold sim; repeat split; congruence|]. split; [now exists (u' ++ [if obj then 125 else 93])|].
  split; [congruence|]. rewrite L2. destruct obj; [now left|right; now left].
Qed.

Lemma token_value_total buf r a : exists v a', token_value buf r a = Some (v, a').
Proof.
  unfold token_value. destruct (vt r); eauto. unfold allocate_unescaped. cbv zeta.
  destruct (allocate a _ 1) as [a1|]; [|eauto].
  destruct (copy_string_some (current buf r) (length (current buf r)) (le_n _)) as (o & -> & _). eauto.
Qed.

Definition good (r : reader) (x : option (jerr * reader * alloc * jv)) : Prop :=
  open_exponent (rest r) \/
  exists e r2 a2 v, x = Some (e, r2, a2, v) /\ (err r2 = JOk -> suf r r2 /\ last r2 <> TEof).

Lemma good_suf r r1 x : suf r r1 -> good r1 x -> good r x.
Proof.
  intros S [OE|(e & r2 & a2 & v & E & K)]; [left; now apply suf_open with r1|].
  right. exists e, r2, a2, v. split; [exact E|]. intro E2. destruct (K E2). split; auto.
  now apply suf_trans with r1.
Qed.

Definition read_total (fl : N) (n : nat) : Prop :=
  (forall buf r a, err r = JOk -> last r = TObjectStart -> (2 * length (rest r) + 2 <= n)%nat ->
     good r (read_object n fl buf r a))
  /\ (forall buf r a cap acc, err r = JOk -> last r = TObjectStart \/ ended (last r) ->
     (2 * length (rest r) + 1 <= n)%nat ->
     (exists n1 r1, sim r r1 /\ count_members n1 fl r1 (length acc) = Some (inr cap)) ->
     good r (object_loop n fl buf r a cap acc))
  /\ (forall buf r a cap acc nm, err r = JOk -> last r = TPropertyName ->
     (2 * length (rest r) + 1 <= n)%nat ->
     (exists n1 r1 b r2, sim r r1 /\ skip_current fl CObject r1 = Some (b, r2)
        /\ count_members n1 fl r2 (S (length acc)) = Some (inr cap)) ->
     good r (member_loop n fl buf r a cap acc nm))
  /\ (forall buf r a, err r = JOk -> last r = TArrayStart -> (2 * length (rest r) + 2 <= n)%nat ->
     good r (read_array n fl buf r a))
  /\ (forall buf r a cap acc, err r = JOk -> last r = TArrayStart \/ ended (last r) ->
     (2 * length (rest r) + 1 <= n)%nat ->
     (exists n1 r1, sim r r1 /\ count_values n1 fl r1 (length acc) = Some (inr cap)) ->
     good r (array_loop n fl buf r a cap acc)).

Lemma bad_good r r1 a v : err r1 <> JOk ->
  good r (if err_ok (err r1) then None else Some (err r1, r1, a, v)).
Proof.
  intro E. right. destruct (err_ok (err r1)) eqn:EO; [apply err_ok_spec in EO; contradiction|].
  exists (err r1), r1, a, v. split; [reflexivity|]. intro; contradiction.
Qed.

Lemma ended_eof l : ended l -> l <> TEof.
Proof. intros [->|[-> | ->]]; discriminate. Qed.

Lemma read_total_all fl : plain_flags fl -> forall n, read_total fl n.
Proof.
  intro PF. assert (NO : CObject <> CNull) by discriminate. assert (NA : CArray <> CNull) by discriminate.
  induction n as [|n (IH1 & IH2 & IH3 & IH4 & IH5)].
  { split; [|split; [|split; [|split]]]; intros; lia. }
  (* a nested value followed by the rest of the container *)
  assert (NEST : forall (obj : bool) buf r a r1 (k : jerr -> reader -> alloc -> jv -> option (jerr * reader * alloc * jv)),
    err r = JOk -> last r = (if obj then TObjectStart else TArrayStart) -> (2 * length (rest r) + 2 <= n)%nat ->
    sim r r1 ->
    (forall r2 r3 a2 v, skipB fl obj 1 r1 = Some (true, r3) -> sim r2 r3 -> suf r r2 -> err r2 = JOk -> ended (last r2) ->
       good r2 (k JOk r2 a2 v)) ->
    (forall e r2 a2 v, e <> JOk -> k e r2 a2 v = Some (e, r2, a2, VUndef)) ->
    good r (' (e, r, a, v) <- (if obj then read_object n fl buf r a else read_array n fl buf r a);; k e r a v)).
  { intros obj buf r a r1 k E L LN S K KE.
    assert (G : good r (if obj then read_object n fl buf r a else read_array n fl buf r a)).
    { destruct obj; [apply IH1|apply IH4]; auto. }
    destruct G as [OE|(e & r2 & a2 & v & X & G)]; [now left|]. rewrite X.
    destruct (err_ok e) eqn:EO.
    - apply err_ok_spec in EO. subst e.
      destruct (nested_sim fl n buf obj r a r2 a2 v r1 PF E L X S) as (r3 & S3 & S2 & SU & E2 & EN).
      apply good_suf with r2; auto. apply (K r2 r3); auto.
    - rewrite KE; [|intros ->; discriminate]. right. exists e, r2, a2, VUndef. auto. }
  split; [|split; [|split; [|split]]].
  - intros buf r a E L LN. cbn [read_object].
    destruct (count_members_total fl PF (S (length (rest r))) r 0) as [OE|(x & CM)]; [lia| |now left|].
    { intros _. right. now left. }
    rewrite CM. destruct x as [(e & r1)|m].
    + right. exists e, r1, a, VUndef. split; [reflexivity|]. apply count_members_inl in CM as NE.
      intro E1. exfalso. apply NE. rewrite <- E1. eapply count_members_err; eauto.
    + destruct (allocate a _ 8) as [a1|].
      * apply IH2; auto; [lia|]. exists (S (length (rest r))), r. split; [apply sim_refl|exact CM].
      * right. exists JOutOfMemory, r, a, VUndef. split; [reflexivity|]. intros _. split; [apply suf_refl|].
        rewrite L. discriminate.
  - intros buf r a cap acc E L LN (n1 & r1 & S & CM). cbn [object_loop].
    pose proof (next_token_cases fl CObject r PF) as C.
    destruct (next_token fl CObject r) as [[t r']|] eqn:T; [clear C|left; exact C].
    destruct (token_err fl CObject r t r' PF NO T) as [(-> & E1)|(E1 & NE)]; [now apply bad_good|].
    destruct (token_suf fl CObject r t r' PF NO T NE) as (S1 & LL & L1 & _ & p & l & x & ct & P & LX & M).
    rewrite E in E1. apply good_suf with r'; auto.
    destruct (object_token _ _ _ _ _ _ _ _ P LX L) as [(-> & _)|(-> & _)].
    + destruct n1 as [|n1]; [discriminate|]. cbn [count_members] in CM.
      pose proof (sim_next_token fl CObject r r1 PF NO S) as ST. rewrite T in ST.
      destruct (next_token fl CObject r1) as [[t r1']|]; cbn in ST; [|contradiction].
      destruct ST as (<- & S').
      destruct (skip_current fl CObject r1') as [[b r2]|] eqn:SC; [|discriminate].
      pose proof (count_members_ge _ _ _ _ _ CM) as GE.
      destruct (Nat.ltb_spec (length acc) cap); [|lia].
      apply IH3; auto; [lia|]. exists n1, r1', b, r2. auto.
    + right. do 4 eexists. split; [reflexivity|]. intros _. split; [apply suf_refl|]. rewrite L1. discriminate.
  - intros buf r a cap acc nm E L LN (n1 & r1 & b & r2 & S & SC & CM). cbn [member_loop].
    pose proof (next_token_cases fl CObject r PF) as C.
    destruct (next_token fl CObject r) as [[t r']|] eqn:T; [clear C|left; exact C].
    destruct (token_err fl CObject r t r' PF NO T) as [(-> & E1)|(E1 & NE)]; [now apply bad_good|].
    destruct (token_suf fl CObject r t r' PF NO T NE) as (S1 & LL & L1 & _ & p & l & x & ct & P & LX & M).
    rewrite E in E1. apply good_suf with r'; auto.
    pose proof (sim_next_token fl CObject r r1 PF NO S) as ST. rewrite T in ST.
    destruct (next_token fl CObject r1) as [[t' r1']|] eqn:T1; cbn in ST; [|contradiction].
    destruct ST as (<- & S').
    destruct (skip_after_name fl r1 t r1' PF) as (KV & KO & KA); auto.
    { destruct S as (_ & _ & S). congruence. }
    { destruct S as (_ & S & _). congruence. }
    { destruct S' as (_ & _ & S'). congruence. }
    { destruct S' as (_ & S' & _). congruence. }
    rewrite L in P.
    destruct (after_name _ _ _ _ _ _ _ _ P LX eq_refl) as (TT & _).
    destruct TT as [->|[-> | ->]].
    + rewrite KV in SC by reflexivity. injection SC as <- <-.
      destruct (token_value_total buf r' a) as (v & a' & ->).
      apply IH2; auto; [right; rewrite L1; right; now right|lia|]. exists n1, r1'. auto.
    + rewrite KO in SC by reflexivity.
      apply (NEST true buf r' a r1'
        (fun e r a v => if err_ok e then object_loop n fl buf r a cap ((nm, v) :: acc) else Some (e, r, a, VUndef)));
        auto; [lia| |].
      * intros q q3 a2 v SK SQ SU EQ EN. cbn [err_ok]. apply suf_length in SU.
        apply IH2; auto; [lia|]. exists n1, q3. split; [exact SQ|].
        assert (q3 = r2) by congruence. subst q3. exact CM.
      * intros e q a2 v NE'. destruct (err_ok e) eqn:EO; [apply err_ok_spec in EO; contradiction|reflexivity].
    + rewrite KA in SC by reflexivity.
      apply (NEST false buf r' a r1'
        (fun e r a v => if err_ok e then object_loop n fl buf r a cap ((nm, v) :: acc) else Some (e, r, a, VUndef)));
        auto; [lia| |].
      * intros q q3 a2 v SK SQ SU EQ EN. cbn [err_ok]. apply suf_length in SU.
        apply IH2; auto; [lia|]. exists n1, q3. split; [exact SQ|].
        assert (q3 = r2) by congruence. subst q3. exact CM.
      * intros e q a2 v NE'. destruct (err_ok e) eqn:EO; [apply err_ok_spec in EO; contradiction|reflexivity].
  - intros buf r a E L LN. cbn [read_array].
    destruct (count_values_total fl PF (S (length (rest r))) r 0) as [OE|(x & CM)]; [lia| |now left|].
    { intros _. right. now left. }
    rewrite CM. destruct x as [(e & r1)|m].
    + right. exists e, r1, a, VUndef. split; [reflexivity|]. apply count_values_inl in CM as NE.
      intro E1. exfalso. apply NE. rewrite <- E1. eapply count_values_err; eauto.
    + destruct (allocate a _ 8) as [a1|].
      * apply IH5; auto; [lia|]. exists (S (length (rest r))), r. split; [apply sim_refl|exact CM].
      * right. exists JOutOfMemory, r, a, VUndef. split; [reflexivity|]. intros _. split; [apply suf_refl|].
        rewrite L. discriminate.
  - intros buf r a cap acc E L LN (n1 & r1 & S & CM). cbn [array_loop].
    pose proof (next_token_cases fl CArray r PF) as C.
    destruct (next_token fl CArray r) as [[t r']|] eqn:T; [clear C|left; exact C].
    destruct (token_err fl CArray r t r' PF NA T) as [(-> & E1)|(E1 & NE)]; [now apply bad_good|].
    destruct (token_suf fl CArray r t r' PF NA T NE) as (S1 & LL & L1 & _ & p & l & x & ct & P & LX & M).
    rewrite E in E1. apply good_suf with r'; auto.
    destruct n1 as [|n1]; [discriminate|]. cbn [count_values] in CM.
    pose proof (sim_next_token fl CArray r r1 PF NA S) as ST. rewrite T in ST.
    destruct (next_token fl CArray r1) as [[t' r1']|]; cbn in ST; [|contradiction].
    destruct ST as (<- & S'). pose proof S' as (_ & SL & SE).
    assert (REST : forall (obj : bool), t = (if obj then TObjectStart else TArrayStart) ->
      (' (_, r) <- skip_current fl CArray r1';; count_values n1 fl r (Datatypes.S (length acc))) = Some (inr cap) ->
      good r' (if Nat.ltb (length acc) cap then
         ' (e, r, a, v) <- (if obj then read_object n fl buf r' a else read_array n fl buf r' a);;
         (if err_ok e then array_loop n fl buf r a cap (v :: acc) else Some (e, r, a, VUndef)) else None)).
    { intros obj TE CM'. rewrite (skip_current_start fl CArray obj r1') in CM' by congruence.
      destruct (skipB fl obj 1 r1') as [[b r2]|] eqn:SK; [|discriminate].
      pose proof (count_values_ge _ _ _ _ _ CM') as GE.
      destruct (Nat.ltb_spec (length acc) cap); [|lia].
      apply (NEST obj buf r' a r1'
        (fun e r a v => if err_ok e then array_loop n fl buf r a cap (v :: acc) else Some (e, r, a, VUndef)));
        auto; [congruence|lia| |].
      * intros q q3 a2 v SK' SQ SU EQ EN. cbn [err_ok]. apply suf_length in SU.
        apply IH5; auto; [lia|]. exists n1, q3. split; [exact SQ|].
        assert (q3 = r2) by congruence. subst q3. exact CM'.
      * intros e q a2 v NE'. destruct (err_ok e) eqn:EO; [apply err_ok_spec in EO; contradiction|reflexivity]. }
    destruct (array_token _ _ _ _ _ _ _ _ P LX L) as [(TT & _)|(-> & _)].
    + destruct TT as [->|[-> | ->]].
      * pose proof (count_values_ge _ _ _ _ _ CM) as GE.
        destruct (Nat.ltb_spec (length acc) cap); [|lia].
        destruct (token_value_total buf r' a) as (v & a' & ->).
        apply IH5; auto; [right; rewrite L1; right; now right|lia|]. exists n1, r1'. auto.
      * exact (REST true eq_refl CM).
      * exact (REST false eq_refl CM).
    + right. do 4 eexists. split; [reflexivity|]. intros _. split; [apply suf_refl|]. rewrite L1. discriminate.
Qed.

(** ** Documents *)

Lemma valid_until_eof_total fl r : plain_flags fl -> open_exponent (rest r) \/
  exists b r', valid_until_eof fl r = Some (b, r').
Proof.
  intro PF. unfold valid_until_eof. destruct (rest r) as [|c s] eqn:R; [right; eauto|].
  destruct (tok_eqb (last r) TEof); [right; eauto|]. rewrite <- R. cbn [valid_until_eof_loop].
  pose proof (next_token_cases fl CNull r PF) as C.
  destruct (next_token fl CNull r) as [[t r1]|] eqn:T; [|left; exact C].
  right. destruct t; try (destruct (err_ok (err r1)); eauto; fail); eauto.
  exfalso. eapply no_comment; eauto.
Qed.

Lemma document_total fl buf a : plain_flags fl -> ~ open_exponent buf ->
  exists d a', make_document fl buf a = Some (d, a').
Proof.
  intros PF NE. unfold make_document. cbn [read_root_type].
  pose proof (next_token_cases fl CNull (make_reader buf) PF) as C.
  destruct (next_token fl CNull (make_reader buf)) as [[t r]|] eqn:T; [|contradiction].
  assert (FIN : forall e r2 (a2 : alloc) (v : option jv), (err r2 = JOk -> suf (make_reader buf) r2 /\ last r2 <> TEof) ->
    exists d a',
    (r <- (if err_ok (err r2) then ' (_, r) <- valid_until_eof fl r2;; Some r else Some r2);;
     assert_ (match rest r with [] => true | _ => negb (err_ok (err r)) end)
       (if err_ok (err r) then Some (Doc v e 0 0 (Some 0%nat) 0, a2)
        else Some (Doc None (err r) (line r) (col r) (curo r) (curn r), a2))) = Some (d, a')).
  { intros e r2 a2 v K. unfold assert_. destruct (err_ok (err r2)) eqn:EO.
    - apply err_ok_spec in EO. destruct (K EO) as [S L].
      destruct (valid_until_eof_total fl r2 PF) as [OE|(b & r3 & V)].
      { exfalso. apply NE. now apply suf_open in S. }
      rewrite V. destruct (err_ok (err r3)) eqn:EO3.
      2: { destruct (rest r3); rewrite ?EO3; cbn [negb]; eauto. }
      { apply err_ok_spec in EO3. destruct (valid_until_eof_ok fl r2 b r3 PF L V EO3) as [_ R3].
        rewrite R3. eauto. }
    - rewrite EO. destruct (rest r2); cbn [negb]; eauto. }
  assert (BAD : forall r2 (a2 : alloc), err r2 <> JOk -> exists d a',
    (r <- (if err_ok (err r2) then ' (_, r) <- valid_until_eof fl r2;; Some r else Some r2);;
     assert_ (match rest r with [] => true | _ => negb (err_ok (err r)) end)
       (if err_ok (err r) then Some (Doc None JOk 0 0 (Some 0%nat) 0, a2)
        else Some (Doc None (err r) (line r) (col r) (curo r) (curn r), a2))) = Some (d, a')).
  { intros r2 a2 E. apply FIN. intro; contradiction. }
  assert (LEN : forall u, suf (make_reader buf) u -> (length (rest u) <= length buf)%nat) by (intros u; apply suf_length).
  destruct t; try (apply BAD; discriminate).
  - destruct C as (L & p & l & x & ct & P & LX & M).
    assert (E0 : err r = JOk) by (destruct M as (_ & _ & M); rewrite M; reflexivity).
    apply moved_suf in M. pose proof (LEN _ M).
    destruct (proj1 (read_total_all fl PF (3 * length buf + 3)) buf r a E0 L) as [OE|(e & r2 & a2 & v & X & K)].
    + lia.
    + exfalso. apply NE. now apply suf_open in M.
    + rewrite X. apply FIN. intro E. destruct (K E). split; auto. now apply suf_trans with r.
  - destruct C as (L & p & l & x & ct & P & LX & M).
    assert (E0 : err r = JOk) by (destruct M as (_ & _ & M); rewrite M; reflexivity).
    apply moved_suf in M. pose proof (LEN _ M).
    destruct (read_total_all fl PF (3 * length buf + 3)) as (_ & _ & _ & RA & _).
    destruct (RA buf r a E0 L) as [OE|(e & r2 & a2 & v & X & K)].
    + lia.
    + exfalso. apply NE. now apply suf_open in M.
    + rewrite X. apply FIN. intro E. destruct (K E). split; auto. now apply suf_trans with r.
  - destruct C as (L & p & l & x & ct & P & LX & M). apply moved_suf in M.
    destruct (token_value_total buf r a) as (v & a' & ->). apply FIN. intros _. split; [exact M|].
    rewrite L. discriminate.
  - exfalso. eapply no_comment; eauto.
Qed.
