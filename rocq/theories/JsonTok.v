(** The tokens of the reader: which texts they have, and that they depend on few of its fields. *)
From Coq Require Import Arith NArith List Bool Lia ZifyBool ZifyNat ZifyN.
From Verif Require Import Base UniSpec JsonModel JsonSpec JsonString JsonLex.
Import ListNotations.
Local Open Scope N_scope.

Definition moved (r : reader) (u : list N) (r' : reader) : Prop :=
  rest r = u ++ rest r' /\ off r' = (off r + length u)%nat /\ err r' = err r.

Lemma took_moved r u r' : took r u r' -> moved r u r'.
Proof. unfold took, moved. tauto. Qed.

Lemma moved_trans r u r1 v r2 : moved r u r1 -> moved r1 v r2 -> moved r (u ++ v) r2.
Proof.
  intros (A1 & A2 & A4) (B1 & B2 & B4). unfold moved.
  rewrite A1, B1, B2, A2, B4, A4, app_length, <- app_assoc. repeat split; lia.
Qed.

Lemma moved_refl r : moved r [] r.
Proof. unfold moved. cbn. repeat split; lia. Qed.

(** The reader is inside the buffer. *)
Definition inside (buf : list N) (r : reader) : Prop := skipn (off r) buf = rest r.

Lemma skipn_add {A} n m (l : list A) : skipn (n + m) l = skipn m (skipn n l).
Proof.
  revert l. induction n as [|n IH]; intros l; cbn; [reflexivity|].
  destruct l; [now rewrite !skipn_nil|apply IH].
Qed.

Lemma skipn_app_length {A} (u v : list A) : skipn (length u) (u ++ v) = v.
Proof. induction u; cbn; auto. Qed.

Lemma moved_inside buf r u r' : moved r u r' -> inside buf r -> inside buf r'.
Proof.
  intros (A & B & _) I. unfold inside in *. now rewrite B, skipn_add, I, A, skipn_app_length.
Qed.

Lemma current_spec buf r r' k tk z :
  inside buf r -> rest r = k ++ tk ++ z -> curo r' = Some (off r + length k)%nat ->
  curn r' = length tk -> current buf r' = tk.
Proof.
  intros I R O L. unfold current. rewrite O, L, skipn_add.
  unfold inside in I. rewrite I, R, skipn_app_length. rewrite firstn_app, Nat.sub_diag, firstn_all.
  cbn. apply app_nil_r.
Qed.

(** What may stand between two tokens. *)
Inductive prefix (d : dialect) (c : ctx) (l : tok) : list N -> tok -> Prop :=
| P_ws w : ws w -> prefix d c l w l
| P_comma w w' : ws w -> ws w' -> c <> CNull -> l = TObjectEnd \/ l = TArrayEnd \/ l = TValue ->
    prefix d c l (w ++ 44 :: w') TComma
| P_colon w x w' : ws w -> ws w' -> c = CObject -> l = TPropertyName -> colon d x ->
    prefix d c l (w ++ x :: w') TPropertyColon.

Definition follows (c : ctx) (rt : bool) (l : tok) : Prop :=
  match c with
  | CNull => rt = false
  | CObject => l = TPropertyColon
  | CArray => l = TArrayStart \/ l = TComma
  end.
Definition ends (d : dialect) (l : tok) : Prop :=
  match l with
  | TComma => d_trailing d = true
  | TPropertyName | TPropertyColon => False
  | _ => True
  end.

(** The texts of tokens, after the token [l], in a context [c]; and the type and content
    reported for them. *)
Inductive lexeme (d : dialect) (c : ctx) (rt : bool) (l : tok)
  : tok -> list N -> option (vtype * list N) -> Prop :=
| L_name raw o : c = CObject -> l = TObjectStart \/ l = TComma -> unescape raw o ->
    lexeme d c rt l TPropertyName (quoted raw) (Some (YString, raw))
| L_string raw o : c = CNull \/ follows c rt l -> unescape raw o ->
    lexeme d c rt l TValue (quoted raw) (Some (YString, raw))
| L_scalar s ty tk : follows c rt l -> value d s (Scalar ty tk) ->
    lexeme d c rt l TValue s (Some (ty, tk))
| L_ostart : follows c rt l -> lexeme d c rt l TObjectStart [123] None
| L_astart : follows c rt l -> lexeme d c rt l TArrayStart [91] None
| L_oend : c = CObject -> ends d l -> lexeme d c rt l TObjectEnd [125] None
| L_aend : c = CArray -> ends d l -> lexeme d c rt l TArrayEnd [93] None.

Lemma can_value_follow_spec r c : can_value_follow r c = true <-> follows c (root r) (last r).
Proof.
  unfold can_value_follow, follows. destruct c.
  - destruct (root r); cbn; intuition congruence.
  - destruct (last r); cbn; intuition congruence.
  - destruct (last r); cbn; intuition congruence.
Qed.

Lemma can_end_follow_spec fl r c e : e <> CNull ->
  can_end_follow fl r c e = true <-> c = e /\ ends (dialect_of fl) (last r).
Proof.
  intro E. unfold can_end_follow, ends. cbn [d_trailing dialect_of].
  destruct e; [congruence| |]; destruct c; cbn [ctx_eqb orb negb]; try (split; [discriminate|intros []; discriminate]);
    destruct (last r); try (split; auto; intros []; discriminate || tauto); unfold bTrailingComma;
    try tauto; try (split; [discriminate|tauto]).
Qed.

Lemma open_exponent_app p s : open_exponent s -> open_exponent (p ++ s).
Proof.
  intros (q & d & e & sg & -> & H). exists (p ++ q), d, e, sg. rewrite <- app_assoc. auto.
Qed.

Lemma starts_with_spec s p : starts_with s p = true <-> exists z, s = p ++ z.
Proof.
  revert s. induction p as [|x p IH]; intros s; cbn [starts_with app].
  - split; [|destruct s; reflexivity]. intros _. exists s. reflexivity.
  - destruct s as [|y s].
    + split; [discriminate|]. intros (z & ?). discriminate.
    + cbn [starts_with]. rewrite andb_true_iff, N.eqb_eq, IH. split.
      * intros (-> & z & ->). eauto.
      * intros (z & E). injection E as -> ->. eauto.
Qed.

Lemma advance_value_took r ty p z : rest r = p ++ z ->
  took r p (advance_value (set_vt r ty) (length p))
  /\ rest (advance_value (set_vt r ty) (length p)) = z.
Proof.
  intro R. unfold took, advance_value. cbn. rewrite R, skipn_app_length. auto.
Qed.

Lemma read_value_cases fl r : plain_flags fl ->
  match read_value fl r with
  | None => open_exponent (rest r)
  | Some (TError, r') => err r' <> JOk
  | Some (t, r') => t = TValue /\ last r' = TValue /\ exists x ty tk,
      value (dialect_of fl) x (Scalar ty tk) /\ took r x r' /\ vt r' = ty
  end.
Proof.
  intros (_ & _ & _ & PF). unfold read_value.
  destruct (starts_with (rest r) str_true) eqn:E1.
  { apply starts_with_spec in E1. destruct E1 as [z E1]. split; [reflexivity|]. split; [reflexivity|].
    exists str_true, YBool, str_true. split; [constructor|].
    split; [apply (advance_value_took _ YBool _ _ E1)|reflexivity]. }
  destruct (starts_with (rest r) str_false) eqn:E2.
  { apply starts_with_spec in E2. destruct E2 as [z E2]. split; [reflexivity|]. split; [reflexivity|].
    exists str_false, YBool, str_false. split; [constructor|].
    split; [apply (advance_value_took _ YBool _ _ E2)|reflexivity]. }
  destruct (starts_with (rest r) str_null) eqn:E3.
  { apply starts_with_spec in E3. destruct E3 as [z E3]. split; [reflexivity|]. split; [reflexivity|].
    exists str_null, YNull, str_null. split; [constructor|].
    split; [apply (advance_value_took _ YNull _ _ E3)|reflexivity]. }
  pose proof (read_number_cases fl r PF) as H.
  destruct (read_number fl r) as [[[|] r']|]; auto.
  - destruct H as (u & tk & ty & NB & T & L & V & _). rewrite L.
    split; [reflexivity|]. split; [reflexivity|]. exists u, ty, tk. split; [now constructor|auto].
  - cbn. discriminate.
Qed.

Lemma quoted_inside fl : plain_flags fl -> N.testbit fl bEscapedMultiline = false.
Proof. intros (_ & _ & H & _). exact H. Qed.

Lemma next_step_cases fl c r : plain_flags fl ->
  match next_step fl c r with
  | None => open_exponent (rest r)
  | Some (inl (TError, r')) => err r' <> JOk
  | Some (inl (TEof, r')) => c = CNull /\ rest r' = [] /\ exists w, ws w /\ moved r w r'
  | Some (inl (t, r')) => last r' = t /\ exists w x ct, ws w
      /\ lexeme (dialect_of fl) c (root r) (last r) t x ct /\ moved r (w ++ x) r'
  | Some (inr r') => c <> CNull /\ root r' = root r /\ exists w y, ws w /\ moved r (w ++ [y]) r'
      /\ ((y = 44 /\ (last r = TObjectEnd \/ last r = TArrayEnd \/ last r = TValue)
           /\ last r' = TComma)
          \/ (c = CObject /\ colon (dialect_of fl) y /\ last r = TPropertyName
              /\ last r' = TPropertyColon))
  end.
Proof.
  intros PF. unfold next_step.
  destruct (skip_ws_spec r) as (w & W & T & Z & L & _).
  assert (RT : root (skip_ws r) = root r) by apply T. apply took_moved in T.
  set (r0 := skip_ws r) in *. clearbody r0. cbv zeta.
  destruct (rest r0) as [|x s] eqn:R.
  { destruct c; try (cbn; discriminate). split; [reflexivity|]. split; [exact R|].
    exists w. split; [exact W|]. exact T. }
  destruct Z as [Z|(x' & s' & Z & NW)]; [discriminate|].
  assert (x' = x) by congruence. subst x'. clear Z s'.
  destruct (N.eqb_spec x 47) as [->|N47].
  { unfold parse_comment. destruct PF as (PF & _). unfold bSingleLineComments. rewrite PF.
    cbn. discriminate. }
  destruct (N.eqb_spec x 39) as [->|N39].
  { destruct PF as (_ & PF & _). unfold bSingleQuoted. rewrite PF. cbn. discriminate. }
  destruct (N.eqb_spec x 34) as [->|N34].
  { unfold parse_quoted.
    destruct (read_quoted_cases fl r0 s (quoted_inside fl PF) R) as (ok & r' & -> & H).
    destruct ok; cbn [option_map].
    2:{ apply H. }
    destruct H as (raw & o & U & T' & L' & _). apply took_moved in T'.
    pose proof (moved_trans _ _ _ _ _ T T') as M.
    assert (CASES : forall t, c <> CNull ->
       (if ctx_eqb c CObject && (tok_eqb (last (set_vt r' YString)) TObjectStart
                                 || tok_eqb (last (set_vt r' YString)) TComma)
        then Some (TPropertyName, set_last (set_vt r' YString) TPropertyName)
        else if can_value_follow (set_vt r' YString) c
             then Some (TValue, set_last (set_vt r' YString) TValue)
             else Some (TError, set_error (set_vt r' YString) JUnexpectedToken)) = Some t ->
       match t with
       | (TError, r') => err r' <> JOk
       | (TEof, r') => False
       | (t, r') => last r' = t /\ exists w x ct, ws w
           /\ lexeme (dialect_of fl) c (root r) (last r) t x ct /\ moved r (w ++ x) r'
       end).
    { intros t NC E.
      destruct (ctx_eqb c CObject && (tok_eqb (last (set_vt r' YString)) TObjectStart
                                      || tok_eqb (last (set_vt r' YString)) TComma)) eqn:B.
      - injection E as <-. split; [reflexivity|]. exists w, (quoted raw), (Some (YString, raw)).
        split; [exact W|]. split; [|exact M]. apply L_name with o; auto.
        + destruct c; try discriminate. reflexivity.
        + cbn in B. rewrite L', L in B. destruct c; try discriminate.
          destruct (last r); try discriminate; auto.
      - destruct (can_value_follow (set_vt r' YString) c) eqn:F.
        + injection E as <-. split; [reflexivity|]. exists w, (quoted raw), (Some (YString, raw)).
          split; [exact W|]. split; [|exact M]. apply L_string with o; auto. right.
          apply can_value_follow_spec in F. cbn in F. rewrite L', L in F.
          destruct c; try congruence; exact F.
        + injection E as <-. cbn. discriminate. }
    destruct c.
    - cbn. split; [reflexivity|]. exists w, (quoted raw), (Some (YString, raw)).
      split; [exact W|]. split; [|exact M]. apply L_string with o; auto.
    - match goal with |- context [if ?b then _ else _] => destruct b eqn:B1 end.
      + apply (CASES (TPropertyName, set_last (set_vt r' YString) TPropertyName)); [discriminate|].
        try rewrite B1; reflexivity.
      + destruct (can_value_follow (set_vt r' YString) CObject) eqn:B2.
        * apply (CASES (TValue, set_last (set_vt r' YString) TValue)); [discriminate|].
          try rewrite B1; reflexivity.
        * cbn. discriminate.
    - match goal with |- context [if ?b then _ else _] => destruct b eqn:B1 end.
      + apply (CASES (TPropertyName, set_last (set_vt r' YString) TPropertyName)); [discriminate|].
        try rewrite B1; reflexivity.
      + destruct (can_value_follow (set_vt r' YString) CArray) eqn:B2.
        * apply (CASES (TValue, set_last (set_vt r' YString) TValue)); [discriminate|].
          try rewrite B1; reflexivity.
        * cbn. discriminate. }
  assert (M : forall y, x = y -> moved r (w ++ [y]) (advance r0)).
  { intros y <-. apply (moved_trans _ _ _ _ _ T). apply took_moved. apply (advance_took _ _ _ R). }
  destruct ((x =? 123) || (x =? 91)) eqn:B.
  { unfold parse_start.
    assert (CASES : follows c (root r) (last r) -> forall r1, rest r1 = rest r0 -> off r1 = off r0 ->
       err r1 = err r0 ->
       match (if x =? 123 then TObjectStart else TArrayStart,
              set_last (advance r1) (if x =? 123 then TObjectStart else TArrayStart)) with
       | (TError, r') => err r' <> JOk
       | (TEof, r') => c = CNull /\ rest r' = [] /\ exists w, ws w /\ moved r w r'
       | (t, r') => last r' = t /\ exists w x ct, ws w
           /\ lexeme (dialect_of fl) c (root r) (last r) t x ct /\ moved r (w ++ x) r'
       end).
    { intros FO r1 E1 E2 E3.
      assert (M' : moved r (w ++ [x]) (advance r1)).
      { destruct (M x eq_refl) as (M1 & M2 & M3). unfold moved, advance in *. cbn in *.
        rewrite E1, E2, E3. auto. }
      destruct (N.eqb_spec x 123) as [->|N123].
      - split; [reflexivity|]. exists w, [123], None. split; [exact W|].
        split; [now constructor|exact M'].
      - assert (x = 91) by lia. subst x.
        split; [reflexivity|]. exists w, [91], None. split; [exact W|].
        split; [now constructor|exact M']. }
    assert (FOL : can_value_follow r0 c = true -> follows c (root r) (last r)).
    { intro F. apply can_value_follow_spec in F. rewrite RT, L in F. exact F. }
    destruct c.
    - destruct (root r0) eqn:RR; [cbn; discriminate|].
      apply (CASES (eq_sym RT) (set_root r0)); reflexivity.
    - destruct (can_value_follow r0 CObject); [|cbn; discriminate].
      apply (CASES (FOL eq_refl) r0); reflexivity.
    - destruct (can_value_follow r0 CArray); [|cbn; discriminate].
      apply (CASES (FOL eq_refl) r0); reflexivity. }
  destruct ((x =? 125) || (x =? 93)) eqn:B'.
  { unfold parse_end.
    destruct (can_end_follow fl r0 c (if x =? 125 then CObject else CArray)) eqn:E; [|cbn; discriminate].
    apply can_end_follow_spec in E; [|destruct (x =? 125); discriminate].
    destruct E as [EC EE]. rewrite L in EE.
    destruct (N.eqb_spec x 125) as [->|N125].
    - split; [reflexivity|]. exists w, [125], None. split; [exact W|].
      split; [now constructor|exact (M _ eq_refl)].
    - assert (x = 93) by lia. subst x.
      split; [reflexivity|]. exists w, [93], None. split; [exact W|].
      split; [now constructor|exact (M _ eq_refl)]. }
  destruct ((x =? 58) || (x =? 61)) eqn:BC.
  { destruct (negb (ctx_eqb c CObject) || negb (tok_eqb (last r0) TPropertyName)
           || ((x =? 61) && negb (N.testbit fl bAllowEqual))) eqn:E; [cbn; discriminate|].
    apply orb_false_iff in E. destruct E as [E E3]. apply orb_false_iff in E. destruct E as [E1 E2].
    assert (c = CObject) by (destruct c; try discriminate; reflexivity). subst c.
    split; [discriminate|]. split; [exact RT|]. exists w, x. split; [exact W|].
    split; [exact (M _ eq_refl)|]. right. split; [reflexivity|]. split.
    - unfold colon. cbn. destruct (N.eqb_spec x 61) as [->|N61].
      + right. split; [|reflexivity]. cbn in E3. unfold bAllowEqual in E3.
        now apply negb_false_iff in E3.
      + left. lia.
    - rewrite L in E2. destruct (last r); try discriminate. auto. }
  destruct (N.eqb_spec x 44) as [->|N44].
  { assert (CASES : c <> CNull ->
     match match last r0 with
           | TObjectEnd | TArrayEnd | TValue => Some (inr (set_last (advance r0) TComma))
           | _ => Some (inl (TError, set_error r0 JUnexpectedToken))
           end with
     | None => open_exponent (rest r)
     | Some (inl (TError, r')) => err r' <> JOk
     | Some (inl (TEof, r')) => c = CNull /\ rest r' = [] /\ exists w, ws w /\ moved r w r'
     | Some (inl (t, r')) => last r' = t /\ exists w x ct, ws w
         /\ lexeme (dialect_of fl) c (root r) (last r) t x ct /\ moved r (w ++ x) r'
     | Some (inr r') => c <> CNull /\ root r' = root r /\ exists w y, ws w /\ moved r (w ++ [y]) r'
         /\ ((y = 44 /\ (last r = TObjectEnd \/ last r = TArrayEnd \/ last r = TValue)
              /\ last r' = TComma)
             \/ (c = CObject /\ colon (dialect_of fl) y /\ last r = TPropertyName
                 /\ last r' = TPropertyColon))
     end).
    { intro NC. rewrite L. destruct (last r) eqn:LL; try (cbn; discriminate);
      (split; [exact NC|]; split; [exact RT|]; exists w, 44; split; [exact W|];
       split; [exact (M _ eq_refl)|]; left; split; [reflexivity|]; split; [auto|reflexivity]). }
    destruct c; [cbn; discriminate| |]; apply CASES; discriminate. }
  destruct (can_value_follow r0 c) eqn:F; [|cbn; discriminate].
  apply can_value_follow_spec in F. rewrite RT, L in F.
  pose proof (read_value_cases fl (set_root r0) PF) as H.
  assert (TS : forall u r', took (set_root r0) u r' -> moved r0 u r').
  { intros u r' (A1 & A2 & _ & A3). unfold moved. cbn in *. auto. }
  destruct (read_value fl (set_root r0)) as [[t r']|].
  - destruct t; try (destruct H as [H _]; discriminate); auto.
    destruct H as (_ & L' & x' & ty & tk & V & T' & _). split; [exact L'|].
    exists w, x', (Some (ty, tk)). split; [exact W|]. split; [now constructor|].
    apply moved_trans with r0; auto.
  - cbn [rest set_root] in H. destruct T as (T & _). rewrite T. now apply open_exponent_app.
Qed.

Lemma ws_app a b : ws a -> ws b -> ws (a ++ b).
Proof. intros. apply Forall_app. auto. Qed.

(** What the tokens of a reader stand for. *)
Lemma next_token_cases fl c r : plain_flags fl ->
  match next_token fl c r with
  | None => open_exponent (rest r)
  | Some (TError, r') => err r' <> JOk
  | Some (TEof, r') => c = CNull /\ rest r' = [] /\ exists w, ws w /\ moved r w r'
  | Some (t, r') => last r' = t /\ exists p l x ct, prefix (dialect_of fl) c (last r) p l
      /\ lexeme (dialect_of fl) c (root r) l t x ct /\ moved r (p ++ x) r'
  end.
Proof.
  intros PF. unfold next_token. cbn [next_loop].
  pose proof (next_step_cases fl c r PF) as H.
  destruct (next_step fl c r) as [[[t r']|r']|]; [| |exact H].
  - destruct t; auto; destruct H as (H1 & w & x & ct & W & LX & M); (split; [exact H1|]);
      exists w, (last r), x, ct; (split; [now constructor|auto]).
  - destruct H as (NC & RT & w & y & W & M & PRE).
    assert (LN : exists n, length (rest r) = S n).
    { destruct M as (M & _). rewrite M, !app_length. cbn [length]. eexists.
      rewrite Nat.add_1_r, Nat.add_succ_l. reflexivity. }
    destruct LN as [n LN]. rewrite LN. cbn [next_loop].
    assert (PR : forall w', ws w' -> prefix (dialect_of fl) c (last r) ((w ++ [y]) ++ w') (last r')).
    { intros w' W'. rewrite <- app_assoc. cbn [app].
      destruct PRE as [(-> & L & ->)|(-> & C & L & ->)]; constructor; auto. }
    pose proof (next_step_cases fl c r' PF) as H.
    destruct (next_step fl c r') as [[[t r2]|r2]|].
    + destruct t; auto;
      try (destruct H as (H1 & w' & x & ct & W' & LX & M'); (split; [exact H1|]);
        exists ((w ++ [y]) ++ w'), (last r'), x, ct; (split; [auto|]); rewrite RT in LX;
        (split; [exact LX|]); rewrite <- app_assoc; now apply moved_trans with r').
      destruct H as (H & _). contradiction.
    + exfalso. destruct H as (_ & _ & w2 & y2 & _ & _ & H).
      destruct PRE as [(_ & _ & E)|(_ & _ & _ & E)]; rewrite E in H;
        destruct H as [(_ & [H|[H|H]] & _)|(_ & _ & H & _)]; discriminate.
    + destruct M as (M & _). rewrite M. now apply open_exponent_app.
Qed.

(** ** Completeness *)

Lemma magnitude_head d m i : magnitude d m i -> exists c s, m = c :: s /\ isdigit c = true.
Proof.
  intro M.
  assert (IH : forall j, int_part j -> exists c s, j = c :: s /\ isdigit c = true).
  { intros j [->|((N & D) & _)]; [exists 48, []; auto|].
    destruct j as [|c j]; [contradiction|]. exists c, j. split; auto. inversion D.
    now apply isdigit_spec. }
  inversion M; subst; try (destruct (IH _ H) as (c & s & -> & Dc); exists c; eexists; split;
    [reflexivity|exact Dc]).
  exists 48, (x :: hs). auto.
Qed.

Lemma number_head d s tk ty : number d s tk ty -> exists c s', s = c :: s'
  /\ (isdigit c = true \/ c = 45 \/ c = 43).
Proof.
  intro H. inversion H; subst.
  - destruct (magnitude_head _ _ _ H0) as (c & s' & -> & D). exists c, s'. auto.
  - exists 45, m. auto.
  - exists 43, tk. auto.
Qed.

Definition scalar_head (c : N) : Prop :=
  is_ws c = false /\ c <> 47 /\ c <> 39 /\ c <> 34 /\ c <> 123 /\ c <> 91 /\ c <> 125 /\ c <> 93
  /\ c <> 58 /\ c <> 61 /\ c <> 44.

Lemma scalar_value_head d s ty tk : value d s (Scalar ty tk) -> exists c s', s = c :: s' /\ scalar_head c.
Proof.
  unfold scalar_head, is_ws. intro H. inversion H; subst.
  1-3: (do 2 eexists; split; [reflexivity|vm_compute; intuition discriminate]).
  match goal with N : number _ _ _ _ |- _ => destruct (number_head _ _ _ _ N) as (c & s' & -> & D) end.
  exists c, s'. split; auto.
  unfold isdigit in D. lia.
Qed.

Lemma read_value_complete fl r s ty tk z : plain_flags fl -> value (dialect_of fl) s (Scalar ty tk) ->
  rest r = s ++ z -> follow_ok z ->
  exists r', read_value fl r = Some (TValue, r') /\ rest r' = z /\ took r s r' /\ last r' = TValue
    /\ vt r' = ty
    /\ forall buf, inside buf r -> z <> [] \/ (ty <> YInt /\ ty <> YUInt) -> current buf r' = tk.
Proof.
  intros PF V R F. unfold read_value.
  assert (LIT : forall y p, rest r = p ++ z -> tk = p -> ty = y ->
    exists r', Some (TValue, advance_value (set_vt r y) (length p)) = Some (TValue, r')
    /\ rest r' = z /\ took r p r' /\ last r' = TValue /\ vt r' = ty
    /\ forall buf, inside buf r -> z <> [] \/ (ty <> YInt /\ ty <> YUInt) -> current buf r' = tk).
  { intros y p E -> ->. eexists. split; [reflexivity|].
    destruct (advance_value_took r y p z E) as [A B]. split; [exact B|]. split; [exact A|].
    split; [reflexivity|]. split; [reflexivity|]. intros buf I _.
    apply (current_spec buf r _ [] p z I E); cbn; [f_equal; lia|reflexivity]. }
  inversion V; subst.
  - assert (E : starts_with (rest r) str_true = true) by (apply starts_with_spec; eauto).
    rewrite E. apply (LIT YBool str_true); auto.
  - assert (E1 : starts_with (rest r) str_true = false) by (rewrite R; reflexivity).
    assert (E : starts_with (rest r) str_false = true) by (apply starts_with_spec; eauto).
    rewrite E1, E. apply (LIT YBool str_false); auto.
  - assert (E1 : starts_with (rest r) str_true = false) by (rewrite R; reflexivity).
    assert (E2 : starts_with (rest r) str_false = false) by (rewrite R; reflexivity).
    assert (E : starts_with (rest r) str_null = true) by (apply starts_with_spec; eauto).
    rewrite E1, E2, E. apply (LIT YNull str_null); auto.
  - match goal with X : number _ _ _ _ |- _ => rename X into NB end.
    assert (E : starts_with (rest r) str_true = false /\ starts_with (rest r) str_false = false
                /\ starts_with (rest r) str_null = false).
    { rewrite R. destruct (number_head _ _ _ _ NB) as (c & s' & -> & D). unfold isdigit in D.
      cbn [app starts_with str_true str_false str_null].
      assert (A1 : 116 =? c = false) by lia. assert (A2 : 102 =? c = false) by lia.
      assert (A3 : 110 =? c = false) by lia. rewrite A1, A2, A3. auto. }
    destruct E as (-> & -> & ->).
    destruct PF as (_ & _ & _ & PF).
    destruct (read_number_complete fl r s tk ty z PF NB R F)
      as (r' & -> & R' & T & L & VT & k & EK & CO & CN).
    exists r'. rewrite L. split; [reflexivity|]. split; [exact R'|]. split; [exact T|].
    split; [reflexivity|]. split; [exact VT|].
    intros buf I C. apply (current_spec buf r r' k tk z); auto.
    + rewrite R, EK, <- app_assoc. reflexivity.
    + apply CN. destruct C as [C|[C1 C2]]; [auto|]. right.
      inversion NB; destruct i; congruence.
Qed.

Definition content_ok (z : list N) (ct : option (vtype * list N)) (r r' : reader) : Prop :=
  match ct with
  | Some (ty, tk) => vt r' = ty
      /\ forall buf, inside buf r -> z <> [] \/ (ty <> YInt /\ ty <> YUInt) -> current buf r' = tk
  | None => True
  end.

Lemma lexeme_head d c rt l t x ct : lexeme d c rt l t x ct -> exists y s, x = y :: s /\ is_ws y = false.
Proof.
  intro H. inversion H; subst; unfold quoted; try (do 2 eexists; split; [reflexivity|reflexivity]).
  match goal with X : value _ _ _ |- _ => destruct (scalar_value_head _ _ _ _ X) as (y & s & -> & SH) end.
  exists y, s. split; [auto|apply SH].
Qed.

Lemma next_step_complete fl c r w x t ct z : plain_flags fl -> ws w ->
  lexeme (dialect_of fl) c (root r) (last r) t x ct -> rest r = w ++ x ++ z ->
  (t = TValue -> follow_ok z) ->
  exists r', next_step fl c r = Some (inl (t, r')) /\ rest r' = z /\ moved r (w ++ x) r'
    /\ last r' = t /\ content_ok z ct r r' /\ (root r = true -> root r' = true).
Proof.
  intros PF W LX R F. unfold next_step.
  destruct (lexeme_head _ _ _ _ _ _ _ LX) as (y & s & EX & NW).
  assert (Z : x ++ z = [] \/ exists y t, x ++ z = y :: t /\ is_ws y = false).
  { right. rewrite EX. cbn [app]. eauto. }
  destruct (skip_ws_app r w (x ++ z) R W Z) as [R0 _].
  destruct (skip_ws_spec r) as (w' & W' & T & _ & L & _).
  assert (w' = w).
  { destruct T as (T & _). rewrite R, R0 in T. apply app_inv_tail in T. auto. }
  subst w'.
  assert (RT : root (skip_ws r) = root r) by apply T. apply took_moved in T.
  set (r0 := skip_ws r) in *. clearbody r0. cbv zeta.
  rewrite R0, EX. cbn [app].
  assert (INS : forall buf, inside buf r -> inside buf r0) by (intro; apply (moved_inside _ _ _ _ T)).
  assert (Q : forall raw o, unescape raw o -> x = quoted raw ->
     exists r', read_quoted fl r0 = Some (true, r') /\ rest r' = z /\ moved r (w ++ quoted raw) r'
       /\ last r' = last r /\ root r' = root r /\ forall buf, inside buf r -> current buf r' = raw).
  { intros raw o U EQ. rewrite EQ in R0.
    destruct (read_quoted_complete fl r0 raw o z (quoted_inside fl PF) U R0)
      as (r' & E & R' & T' & L' & CO & CN).
    exists r'. split; [exact E|]. split; [exact R'|]. split; [|split; [congruence|split]].
    - apply moved_trans with r0; auto. now apply took_moved.
    - destruct T' as (_ & _ & T' & _). congruence.
    - intros buf I. apply (current_spec buf r0 r' [34] raw (34 :: z)); auto.
      + rewrite R0. unfold quoted. cbn [app]. rewrite <- app_assoc. reflexivity.
      + rewrite CO. cbn [length]. f_equal. lia. }
  assert (FOL : follows c (root r) (last r) -> can_value_follow r0 c = true).
  { intro H. apply can_value_follow_spec. now rewrite RT, L. }
  assert (ONE : forall q, x = [q] -> rest (advance r0) = z /\ moved r (w ++ [q]) (advance r0)).
  { intros q EQ. rewrite EQ in R0. cbn [app] in R0.
    destruct (advance_took r0 _ _ R0) as (A & _ & _ & B). split; [exact B|].
    apply moved_trans with r0; auto. now apply took_moved. }
  destruct LX as [raw o HC HL HU|raw o HF HU|x ty tk HF HV|HF|HF|HC HE|HC HE].
  - (* name *)
    unfold quoted in EX. injection EX as <- <-. subst c. cbn [N.eqb Pos.eqb].
    destruct (Q raw o HU eq_refl) as (r' & E & R' & M & L' & RT' & CU).
    unfold parse_quoted. rewrite E. cbn [option_map].
    assert (B : ctx_eqb CObject CObject && (tok_eqb (last (set_vt r' YString)) TObjectStart
                || tok_eqb (last (set_vt r' YString)) TComma) = true).
    { cbn. rewrite L'. destruct HL as [-> | ->]; reflexivity. }
    cbv zeta. rewrite B. eexists. split; [reflexivity|]. split; [exact R'|]. split; [exact M|].
    split; [reflexivity|]. split; [|cbn; congruence]. split; [reflexivity|]. intros buf I _.
    exact (CU buf I).
  - (* string *)
    unfold quoted in EX. injection EX as <- <-. cbn [N.eqb Pos.eqb].
    destruct (Q raw o HU eq_refl) as (r' & E & R' & M & L' & RT' & CU).
    unfold parse_quoted. rewrite E. cbn [option_map].
    assert (G : exists t, match c with
       | CNull => Some (TValue, set_last (set_vt r' YString) TValue)
       | _ =>
           if ctx_eqb c CObject && (tok_eqb (last (set_vt r' YString)) TObjectStart
                || tok_eqb (last (set_vt r' YString)) TComma)
           then Some (TPropertyName, set_last (set_vt r' YString) TPropertyName)
           else if can_value_follow (set_vt r' YString) c
                then Some (TValue, set_last (set_vt r' YString) TValue)
                else Some (TError, set_error (set_vt r' YString) JUnexpectedToken)
       end = Some t /\ t = (TValue, set_last (set_vt r' YString) TValue)).
    { destruct c.
      - eauto.
      - destruct HF as [H|H]; [discriminate|]. cbn. cbn in H. rewrite L', H. cbn. eauto.
      - destruct HF as [H|H]; [discriminate|]. cbn. cbn in H. rewrite L'.
        destruct H as [-> | ->]; cbn; eauto. }
    destruct G as (t & G & ->). cbv zeta. rewrite G. eexists. split; [reflexivity|].
    split; [exact R'|]. split; [exact M|].
    split; [reflexivity|]. split; [|cbn; congruence]. split; [reflexivity|]. intros buf I _.
    exact (CU buf I).
  - (* scalar *)
    destruct (scalar_value_head _ _ _ _ HV) as (y' & s' & EX' & SH).
    assert (y' = y) by congruence. subst y'.
    destruct SH as (_ & N1 & N2 & N3 & N4 & N5 & N6 & N7 & N8 & N9 & N10).
    assert (B1 : y =? 47 = false) by lia. assert (B2 : y =? 39 = false) by lia.
    assert (B3 : y =? 34 = false) by lia. assert (B4 : y =? 123 = false) by lia.
    assert (B5 : y =? 91 = false) by lia. assert (B6 : y =? 125 = false) by lia.
    assert (B7 : y =? 93 = false) by lia. assert (B8 : y =? 58 = false) by lia.
    assert (B9 : y =? 61 = false) by lia. assert (B10 : y =? 44 = false) by lia.
    rewrite B1, B2, B3, B4, B5, B6, B7, B8, B9, B10. cbn [orb]. rewrite (FOL HF).
    destruct (read_value_complete fl (set_root r0) x ty tk z PF HV R0 (F eq_refl))
      as (r' & -> & R' & T' & L' & VT & CU).
    exists r'. split; [reflexivity|]. split; [exact R'|]. split; [|split; [exact L'|split; [split; [exact VT|]|]]].
    + apply moved_trans with r0; auto. destruct T' as (A1 & A2 & _ & A3).
      rewrite <- EX. exact (conj A1 (conj A2 A3)).
    + intros buf I. apply CU. exact (INS buf I).
    + intros _. destruct T' as (_ & _ & T' & _). exact T'.
  - injection EX as <- <-. cbn [N.eqb Pos.eqb orb]. unfold parse_start.
    destruct (ONE 123 eq_refl) as [A B].
    destruct c.
    + cbn in HF. rewrite RT, HF. eexists. split; [reflexivity|]. split; [exact A|]. split; [exact B|].
      split; [reflexivity|]. split; [exact I|]. congruence.
    + rewrite (FOL HF). eexists. split; [reflexivity|]. split; [exact A|]. split; [exact B|].
      split; [reflexivity|]. split; [exact I|]. cbn. congruence.
    + rewrite (FOL HF). eexists. split; [reflexivity|]. split; [exact A|]. split; [exact B|].
      split; [reflexivity|]. split; [exact I|]. cbn. congruence.
  - injection EX as <- <-. cbn [N.eqb Pos.eqb orb]. unfold parse_start.
    destruct (ONE 91 eq_refl) as [A B].
    destruct c.
    + cbn in HF. rewrite RT, HF. eexists. split; [reflexivity|]. split; [exact A|]. split; [exact B|].
      split; [reflexivity|]. split; [exact I|]. congruence.
    + rewrite (FOL HF). eexists. split; [reflexivity|]. split; [exact A|]. split; [exact B|].
      split; [reflexivity|]. split; [exact I|]. cbn. congruence.
    + rewrite (FOL HF). eexists. split; [reflexivity|]. split; [exact A|]. split; [exact B|].
      split; [reflexivity|]. split; [exact I|]. cbn. congruence.
  - injection EX as <- <-. subst c. cbn [N.eqb Pos.eqb orb]. unfold parse_end.
    destruct (ONE 125 eq_refl) as [A B].
    assert (E : can_end_follow fl r0 CObject CObject = true).
    { apply can_end_follow_spec; [discriminate|]. rewrite L. auto. }
    cbn [N.eqb Pos.eqb]. rewrite E. eexists. split; [reflexivity|]. split; [exact A|].
    split; [exact B|]. split; [reflexivity|]. split; [exact I|]. cbn. congruence.
  - injection EX as <- <-. subst c. cbn [N.eqb Pos.eqb orb]. unfold parse_end.
    destruct (ONE 93 eq_refl) as [A B].
    assert (E : can_end_follow fl r0 CArray CArray = true).
    { apply can_end_follow_spec; [discriminate|]. rewrite L. auto. }
    cbn [N.eqb Pos.eqb]. rewrite E. eexists. split; [reflexivity|]. split; [exact A|].
    split; [exact B|]. split; [reflexivity|]. split; [exact I|]. cbn. congruence.
Qed.

Lemma next_token_complete fl c r p l x t ct z : plain_flags fl ->
  prefix (dialect_of fl) c (last r) p l -> lexeme (dialect_of fl) c (root r) l t x ct ->
  rest r = p ++ x ++ z -> (t = TValue -> follow_ok z) ->
  exists r', next_token fl c r = Some (t, r') /\ rest r' = z /\ moved r (p ++ x) r'
    /\ last r' = t /\ content_ok z ct r r' /\ (root r = true -> root r' = true).
Proof.
  intros PF P LX R F. unfold next_token.
  assert (STEP : forall w y w' l, ws w -> ws w' -> is_ws y = false -> rest r = w ++ y :: w' ++ x ++ z ->
    (rest (skip_ws r) = y :: w' ++ x ++ z -> last (skip_ws r) = last r ->
       next_step fl c r = Some (inr (set_last (advance (skip_ws r)) l))) ->
    lexeme (dialect_of fl) c (root r) l t x ct ->
    exists r', next_loop (S (length (rest r))) fl c r = Some (t, r') /\ rest r' = z
      /\ moved r ((w ++ y :: w') ++ x) r'
      /\ last r' = t /\ content_ok z ct r r' /\ (root r = true -> root r' = true)).
  { clear P LX R l. intros w y w' l W W' Y R ST LX. cbn [next_loop].
    destruct (skip_ws_app r w _ R W (or_intror (ex_intro _ y (ex_intro _ _ (conj eq_refl Y))))) as [R0 T0].
    assert (L0 : last (skip_ws r) = last r).
    { destruct (skip_ws_spec r) as (? & _ & _ & _ & E & _). exact E. }
    rewrite (ST R0 L0).
    assert (RT : root (skip_ws r) = root r) by apply T0.
    destruct (advance_took _ _ _ R0) as (T1 & _ & _ & R1).
    set (r1 := advance (skip_ws r)) in *.
    assert (RT1 : root r1 = root r) by (destruct T1 as (_ & _ & T1 & _); congruence).
    assert (M1 : moved r (w ++ [y]) r1).
    { apply moved_trans with (skip_ws r); apply took_moved; auto. }
    clearbody r1.
    destruct (next_step_complete fl c (set_last r1 l) w' x t ct z PF W') as (r' & E1 & R' & M & L' & C' & RR).
    - cbn. rewrite RT1. exact LX.
    - cbn. exact R1.
    - exact F.
    - assert (LN : exists n, length (rest r) = S n).
      { rewrite R, app_length. cbn [length]. rewrite Nat.add_succ_r. eauto. }
      destruct LN as [n ->]. cbn [next_loop]. rewrite E1.
      exists r'. split; [reflexivity|]. split; [exact R'|]. split; [|split; [exact L'|split]].
      + replace ((w ++ y :: w') ++ x) with ((w ++ [y]) ++ w' ++ x) by (rewrite <- !app_assoc; reflexivity).
        apply moved_trans with r1; auto.
      + unfold content_ok in *. destruct ct as [[ty tk]|]; auto. destruct C' as [C1 C2].
        split; [exact C1|]. intros buf I. apply C2. exact (moved_inside _ _ _ _ M1 I).
      + intro Q. apply RR. cbn. congruence. }
  inversion P; subst.
  - destruct (next_step_complete fl c r p x t ct z PF H LX R F) as (r' & E & H1 & H2 & H3 & H4 & H5).
    cbn [next_loop]. rewrite E. exists r'. auto 10.
  - apply (STEP w 44 w' TComma); auto.
    + rewrite R, <- app_assoc. reflexivity.
    + intros R0 L0. unfold next_step. cbv zeta. rewrite R0, L0. cbn [N.eqb Pos.eqb orb].
      destruct c; [congruence| |]; destruct H2 as [-> |[-> | ->]]; reflexivity.
  - apply (STEP w x0 w' TPropertyColon); auto.
    + destruct H3 as [-> |[_ ->]]; reflexivity.
    + rewrite R, <- app_assoc. reflexivity.
    + intros R0 L0. unfold next_step. cbv zeta. rewrite R0, L0, H2.
      destruct H3 as [-> |[D ->]]; cbn [N.eqb Pos.eqb orb ctx_eqb tok_eqb negb andb]; [reflexivity|].
      cbn in D. unfold bAllowEqual. rewrite D. reflexivity.
Qed.
