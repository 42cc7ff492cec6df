(** Documents: a document that was read without error is a JSON text. *)
From Coq Require Import Arith NArith List Bool Lia ZifyBool ZifyNat ZifyN.
From Verif Require Import Base UniSpec JsonModel JsonSpec JsonString JsonLex JsonTok JsonSkip JsonCopy.
Import ListNotations.
Local Open Scope N_scope.

Ltac app_norm := repeat (progress (rewrite <- ?app_assoc; cbn [app])); reflexivity.

Definition ended (l : tok) : Prop := l = TObjectEnd \/ l = TArrayEnd \/ l = TValue.

(** What is left of an object after its opening bracket or after one of its members. *)
Definition object_rest (d : dialect) (l : tok) (u : list N) : Prop :=
  (l = TObjectStart /\ exists t, value d (123 :: u) t)
  \/ (ended l /\ exists ms, object_tail d u ms).
Definition array_rest (d : dialect) (l : tok) (u : list N) : Prop :=
  (l = TArrayStart /\ exists t, value d (91 :: u) t)
  \/ (ended l /\ exists vs, array_tail d u vs).
Definition member_rest (d : dialect) (u : list N) : Prop :=
  exists w2 x w3 s v u' ms, u = w2 ++ x :: w3 ++ s ++ u' /\ ws w2 /\ colon d x /\ ws w3
    /\ value d s v /\ object_tail d u' ms.

(** The token after the name of a member. *)
Lemma after_name d c rt p l t x ct : prefix d c TPropertyName p l -> lexeme d c rt l t x ct ->
  c = CObject -> (t = TValue \/ t = TObjectStart \/ t = TArrayStart)
  /\ exists w2 y w3, p = w2 ++ y :: w3 /\ ws w2 /\ ws w3 /\ colon d y.
Proof.
  intros P LX ->. inversion P; subst.
  - exfalso. inversion LX; subst; cbn in *; try (intuition discriminate).
  - intuition discriminate.
  - split; [|exists w, x0, w'; auto]. inversion LX; subst; auto; exfalso;
      repeat match goal with H : ends _ _ |- _ => cbn in H end; try contradiction; try discriminate;
      intuition discriminate.
Qed.

(** The token at the start of a member. *)
Lemma object_token d rt l0 p l t x ct : prefix d CObject l0 p l -> lexeme d CObject rt l t x ct ->
  l0 = TObjectStart \/ ended l0 ->
  (t = TPropertyName /\ exists raw o, x = quoted raw /\ unescape raw o /\ ct = Some (YString, raw)
     /\ ((l0 = TObjectStart /\ ws p) \/ (ended l0 /\ exists w w', p = w ++ 44 :: w' /\ ws w /\ ws w')))
  \/ (t = TObjectEnd /\ x = [125]
     /\ ((ws p) \/ (ended l0 /\ d_trailing d = true /\ exists w w', p = w ++ 44 :: w' /\ ws w /\ ws w'))).
Proof.
  intros P LX L0. inversion P; subst.
  - assert (NC : l <> TPropertyColon) by (destruct L0 as [->|[->|[-> | ->]]]; discriminate).
    inversion LX; subst; cbn in *; try tauto; try (destruct H0; [discriminate|tauto]).
    + left. split; auto. exists raw, o. repeat split; auto. left. split; auto.
      destruct H1 as [-> | ->]; auto. destruct L0 as [->|[H9|[H9|H9]]]; auto; discriminate.
    + discriminate.
  - assert (E : ended l0) by exact H2.
    inversion LX; subst; cbn in *; try discriminate; try (destruct H3; discriminate).
    + left. split; auto. exists raw, o. repeat split; auto. right. split; auto. eauto.
    + right. split; auto. split; auto. right. split; auto. split; auto. eauto.
  - exfalso. destruct L0 as [L0|[L0|[L0|L0]]]; discriminate.
Qed.

Lemma array_token d rt l0 p l t x ct : prefix d CArray l0 p l -> lexeme d CArray rt l t x ct ->
  l0 = TArrayStart \/ ended l0 ->
  ((t = TValue \/ t = TObjectStart \/ t = TArrayStart)
     /\ ((l0 = TArrayStart /\ ws p) \/ (ended l0 /\ exists w w', p = w ++ 44 :: w' /\ ws w /\ ws w')))
  \/ (t = TArrayEnd /\ x = [93]
     /\ ((ws p) \/ (ended l0 /\ d_trailing d = true /\ exists w w', p = w ++ 44 :: w' /\ ws w /\ ws w'))).
Proof.
  intros P LX L0. inversion P; subst.
  - assert (F : follows CArray rt l -> l = TArrayStart).
    { cbn. intros [->| ->]; auto. destruct L0 as [->|[H9|[H9|H9]]]; auto; discriminate. }
    inversion LX; subst; try discriminate.
    + destruct H0 as [H0|H0]; [discriminate|]. left. split; auto.
    + left. split; auto.
    + left. split; auto.
    + left. split; auto.
    + right. auto.
  - assert (E : ended l0) by exact H2.
    inversion LX; subst; try discriminate.
    + left. split; auto. right. split; auto. eauto.
    + left. split; auto. right. split; auto. eauto.
    + left. split; auto. right. split; auto. eauto.
    + left. split; auto. right. split; auto. eauto.
    + right. cbn in H4. split; auto. split; auto. right. split; auto. split; auto. eauto.
  - exfalso. destruct L0 as [L0|[L0|[L0|L0]]]; discriminate.
Qed.

Lemma lexeme_value d c rt l x ct : lexeme d c rt l TValue x ct -> exists t, value d x t.
Proof. intro H. inversion H; subst; eauto using value. Qed.

Lemma start_text d c rt l x ct : lexeme d c rt l TObjectStart x ct -> x = [123].
Proof. intro H. inversion H; auto. Qed.
Lemma start_text' d c rt l x ct : lexeme d c rt l TArrayStart x ct -> x = [91].
Proof. intro H. inversion H; auto. Qed.

(** ** Soundness *)

Definition read_sound (fl : N) (n : nat) : Prop :=
  let d := dialect_of fl in
  (forall buf r a r' a' v, err r = JOk -> last r = TObjectStart ->
     read_object n fl buf r a = Some (JOk, r', a', v) ->
     last r' = TObjectEnd /\ exists u, moved r u r' /\ object_rest d TObjectStart u)
  /\ (forall buf r a cap acc r' a' v, err r = JOk -> last r = TObjectStart \/ ended (last r) ->
     object_loop n fl buf r a cap acc = Some (JOk, r', a', v) ->
     last r' = TObjectEnd /\ exists u, moved r u r' /\ object_rest d (last r) u)
  /\ (forall buf r a cap acc nm r' a' v, err r = JOk -> last r = TPropertyName ->
     member_loop n fl buf r a cap acc nm = Some (JOk, r', a', v) ->
     last r' = TObjectEnd /\ exists u, moved r u r' /\ member_rest d u)
  /\ (forall buf r a r' a' v, err r = JOk -> last r = TArrayStart ->
     read_array n fl buf r a = Some (JOk, r', a', v) ->
     last r' = TArrayEnd /\ exists u, moved r u r' /\ array_rest d TArrayStart u)
  /\ (forall buf r a cap acc r' a' v, err r = JOk -> last r = TArrayStart \/ ended (last r) ->
     array_loop n fl buf r a cap acc = Some (JOk, r', a', v) ->
     last r' = TArrayEnd /\ exists u, moved r u r' /\ array_rest d (last r) u).

Lemma err_ok_spec e : err_ok e = true <-> e = JOk.
Proof. destruct e; cbn; split; congruence. Qed.

Lemma object_rest_tail d l u : ended l -> object_rest d l u -> exists ms, object_tail d u ms.
Proof.
  intros E [(-> & _)|(_ & H)]; auto. destruct E as [E|[E|E]]; discriminate.
Qed.
Lemma array_rest_tail d l u : ended l -> array_rest d l u -> exists ms, array_tail d u ms.
Proof.
  intros E [(-> & _)|(_ & H)]; auto. destruct E as [E|[E|E]]; discriminate.
Qed.
Lemma object_rest_value d u : object_rest d TObjectStart u -> exists t, value d (123 :: u) t.
Proof. intros [(_ & H)|([H|[H|H]] & _)]; auto; discriminate. Qed.
Lemma array_rest_value d u : array_rest d TArrayStart u -> exists t, value d (91 :: u) t.
Proof. intros [(_ & H)|([H|[H|H]] & _)]; auto; discriminate. Qed.

Lemma count_members_inl fl n : forall r k e r1, count_members n fl r k = Some (inl (e, r1)) -> e <> JOk.
Proof.
  induction n as [|n IH]; intros r k e r1 H; cbn [count_members] in H; [discriminate|].
  destruct (next_token fl CObject r) as [[t r0]|]; [|discriminate].
  assert (DEF : (if err_ok (err r0) then None else Some (inl (err r0, r0))) = Some (inl (e, r1) : jerr * reader + nat) -> e <> JOk).
  { destruct (err_ok (err r0)) eqn:EO; [discriminate|]. intros X ->. injection X as X _.
    rewrite X in EO. discriminate. }
  destruct t; auto; try discriminate.
  - destruct (skip_current fl CObject r0) as [[b r2]|]; [|discriminate]. eauto.
  - eauto.
Qed.

Lemma count_values_inl fl n : forall r k e r1, count_values n fl r k = Some (inl (e, r1)) -> e <> JOk.
Proof.
  induction n as [|n IH]; intros r k e r1 H; cbn [count_values] in H; [discriminate|].
  destruct (next_token fl CArray r) as [[t r0]|]; [|discriminate].
  assert (DEF : (if err_ok (err r0) then None else Some (inl (err r0, r0))) = Some (inl (e, r1) : jerr * reader + nat) -> e <> JOk).
  { destruct (err_ok (err r0)) eqn:EO; [discriminate|]. intros X ->. injection X as X _.
    rewrite X in EO. discriminate. }
  destruct t; auto; try discriminate; eauto;
    (destruct (skip_current fl CArray r0) as [[b r2]|]; [|discriminate]; eauto).
Qed.

(** The tokens inside an object or array, as far as there is no error. *)
Lemma token_ok fl c r t r' : plain_flags fl -> c <> CNull -> err r = JOk ->
  next_token fl c r = Some (t, r') -> err r' = JOk ->
  last r' = t /\ exists p l x ct, prefix (dialect_of fl) c (last r) p l
      /\ lexeme (dialect_of fl) c (root r) l t x ct /\ moved r (p ++ x) r'.
Proof.
  intros PF NC E H E'. pose proof (next_token_cases fl c r PF) as C. rewrite H in C.
  destruct t; auto; try (destruct C as (C & _); congruence). congruence.
Qed.

Lemma token_err fl c r t r' : plain_flags fl -> c <> CNull -> next_token fl c r = Some (t, r') ->
  (t = TError /\ err r' <> JOk) \/ (err r' = err r /\ t <> TError).
Proof.
  intros PF NC H. pose proof (next_token_cases fl c r PF) as C. rewrite H in C.
  destruct t; auto; try (right; split; [|discriminate]; destruct C as (_ & p & l & x & ct & _ & _ & M);
    apply M).
  destruct C as (C & _). congruence.
Qed.

Lemma err_ok_if {A} r (x y : A) : err r = JOk -> (if err_ok (err r) then x else y) = x.
Proof. intros ->. reflexivity. Qed.

Lemma read_sound_all fl : plain_flags fl -> forall n, read_sound fl n.
Proof.
  intros PF n. unfold read_sound. cbv zeta.
  induction n as [|n (IH1 & IH2 & IH3 & IH4 & IH5)].
  { split; [|split; [|split; [|split]]]; intros; discriminate. }
  split; [|split; [|split; [|split]]].
  - intros buf r a r' a' v E L H. cbn [read_object] in H.
    destruct (count_members (S (length (rest r))) fl r 0) as [[[e r1]|cnt]|] eqn:C; try discriminate.
    + injection H as -> <- <- <-. apply count_members_inl in C. congruence.
    + destruct (allocate a (w64 (N.of_nat cnt * sizeof_node)) 8) as [a1|]; [|discriminate].
      apply IH2 in H; auto. rewrite L in H. exact H.
  - intros buf r a cap acc r' a' v E L H. cbn [object_loop] in H.
    destruct (next_token fl CObject r) as [[t r1]|] eqn:T; [|discriminate].
    destruct (token_err fl CObject r t r1 PF) as [(-> & E1)|(E1 & NE)]; auto; [discriminate| |].
    { destruct (err_ok (err r1)); [discriminate|]. injection H as H _ _ _. congruence. }
    rewrite E in E1.
    destruct (token_ok fl CObject r t r1 PF) as (L1 & p & l & x & ct & P & LX & M); auto; [discriminate|].
    destruct (object_token _ _ _ _ _ _ _ _ P LX L)
      as [(-> & raw & o & -> & U & _ & PP)|(-> & -> & PP)].
    + destruct (Nat.ltb (length acc) cap); [|discriminate].
      apply IH3 in H; auto. destruct H as (L' & u & M' & w2 & y & w3 & s & v' & u' & ms & -> & W2 & CO & W3 & V & TL).
      split; [exact L'|]. exists ((p ++ quoted raw) ++ w2 ++ y :: w3 ++ s ++ u').
      split; [now apply moved_trans with r1|].
      assert (MB : forall w, ws w -> member (dialect_of fl) (w ++ quoted raw ++ w2 ++ y :: w3 ++ s) (raw, v'))
        by (intros w W; econstructor; eauto).
      destruct PP as [(LL & W)|(EN & w & w' & -> & W & W')].
      * left. split; [exact LL|]. exists (Obj ((raw, v') :: ms)).
        replace (123 :: (p ++ quoted raw) ++ w2 ++ y :: w3 ++ s ++ u')
          with (123 :: (p ++ quoted raw ++ w2 ++ y :: w3 ++ s) ++ u')
          by app_norm.
        constructor; auto.
      * right. split; [exact EN|]. exists ((raw, v') :: ms).
        replace (((w ++ 44 :: w') ++ quoted raw) ++ w2 ++ y :: w3 ++ s ++ u')
          with (w ++ 44 :: (w' ++ quoted raw ++ w2 ++ y :: w3 ++ s) ++ u')
          by app_norm.
        constructor; auto.
    + injection H as _ <- _ _. split; [exact L1|]. exists (p ++ [125]). split; [exact M|].
      destruct PP as [W|(EN & TR & w & w' & -> & W & W')].
      * destruct L as [L|L].
        -- left. split; [exact L|]. exists (Obj []). now constructor.
        -- right. split; [exact L|]. exists []. now constructor.
      * right. split; [exact EN|]. exists []. rewrite <- app_assoc. cbn [app]. now constructor.
  - intros buf r a cap acc nm r' a' v E L H. cbn [member_loop] in H.
    destruct (next_token fl CObject r) as [[t r1]|] eqn:T; [|discriminate].
    destruct (token_err fl CObject r t r1 PF) as [(-> & E1)|(E1 & NE)]; auto; [discriminate| |].
    { destruct (err_ok (err r1)); [discriminate|]. injection H as H _ _ _. congruence. }
    rewrite E in E1.
    destruct (token_ok fl CObject r t r1 PF) as (L1 & p & l & x & ct & P & LX & M); auto; [discriminate|].
    rewrite L in P.
    destruct (after_name _ _ _ _ _ _ _ _ P LX eq_refl) as (TT & w2 & y & w3 & -> & W2 & W3 & CO).
    assert (FIN : forall r2 a2 acc2 s v', err r2 = JOk -> ended (last r2) -> moved r ((w2 ++ y :: w3) ++ s) r2 ->
      value (dialect_of fl) s v' -> object_loop n fl buf r2 a2 cap acc2 = Some (JOk, r', a', v) ->
      last r' = TObjectEnd /\ exists u, moved r u r' /\ member_rest (dialect_of fl) u).
    { intros r2 a2 acc2 s v' E2 EN M2 V H2. apply IH2 in H2; auto.
      destruct H2 as (L' & u' & M' & OR). split; [exact L'|].
      destruct (object_rest_tail _ _ _ EN OR) as [ms TL].
      exists (((w2 ++ y :: w3) ++ s) ++ u'). split; [now apply moved_trans with r2|].
      exists w2, y, w3, s, v', u', ms. split; [|auto].
      rewrite <- !app_assoc. reflexivity. }
    destruct TT as [->|[-> | ->]].
    + destruct (token_value buf r1 a) as [[v1 a1]|]; [|discriminate].
      destruct (lexeme_value _ _ _ _ _ _ LX) as [t V].
      apply (FIN r1 a1 ((nm, v1) :: acc) x t); auto. right. right. exact L1.
    + destruct (read_object n fl buf r1 a) as [[[[e r2] a2] v2]|] eqn:RO; [|discriminate].
      destruct (err_ok e) eqn:EO; [|destruct e; try discriminate; cbn in EO; discriminate].
      apply err_ok_spec in EO. subst e.
      apply IH1 in RO; auto. destruct RO as (L2 & u & M2 & OR).
      destruct (object_rest_value _ _ OR) as [t V].
      apply (FIN r2 a2 ((nm, v2) :: acc) (123 :: u) t); auto.
      * destruct M2 as (_ & _ & M2). congruence.
      * left. exact L2.
      * rewrite (start_text _ _ _ _ _ _ LX) in M.
        change (123 :: u) with ([123] ++ u). rewrite app_assoc. now apply moved_trans with r1.
    + destruct (read_array n fl buf r1 a) as [[[[e r2] a2] v2]|] eqn:RO; [|discriminate].
      destruct (err_ok e) eqn:EO; [|destruct e; try discriminate; cbn in EO; discriminate].
      apply err_ok_spec in EO. subst e.
      apply IH4 in RO; auto. destruct RO as (L2 & u & M2 & OR).
      destruct (array_rest_value _ _ OR) as [t V].
      apply (FIN r2 a2 ((nm, v2) :: acc) (91 :: u) t); auto.
      * destruct M2 as (_ & _ & M2). congruence.
      * right. left. exact L2.
      * rewrite (start_text' _ _ _ _ _ _ LX) in M.
        change (91 :: u) with ([91] ++ u). rewrite app_assoc. now apply moved_trans with r1.
  - intros buf r a r' a' v E L H. cbn [read_array] in H.
    destruct (count_values (S (length (rest r))) fl r 0) as [[[e r1]|cnt]|] eqn:C; try discriminate.
    + injection H as -> <- <- <-. apply count_values_inl in C. congruence.
    + destruct (allocate a (w64 (N.of_nat cnt * sizeof_value)) 8) as [a1|]; [|discriminate].
      apply IH5 in H; auto. rewrite L in H. exact H.
  - intros buf r a cap acc r' a' v E L H. cbn [array_loop] in H.
    destruct (next_token fl CArray r) as [[t r1]|] eqn:T; [|discriminate].
    destruct (token_err fl CArray r t r1 PF) as [(-> & E1)|(E1 & NE)]; auto; [discriminate| |].
    { destruct (err_ok (err r1)); [discriminate|]. injection H as H _ _ _. congruence. }
    rewrite E in E1.
    destruct (token_ok fl CArray r t r1 PF) as (L1 & p & l & x & ct & P & LX & M); auto; [discriminate|].
    destruct (array_token _ _ _ _ _ _ _ _ P LX L) as [(TT & PP)|(-> & -> & PP)].
    + assert (FIN : forall r2 a2 acc2 s v', err r2 = JOk -> ended (last r2) -> moved r (p ++ s) r2 ->
        value (dialect_of fl) s v' -> array_loop n fl buf r2 a2 cap acc2 = Some (JOk, r', a', v) ->
        last r' = TArrayEnd /\ exists u, moved r u r' /\ array_rest (dialect_of fl) (last r) u).
      { intros r2 a2 acc2 s v' E2 EN M2 V H2. apply IH5 in H2; auto.
        destruct H2 as (L' & u' & M' & OR). split; [exact L'|].
        destruct (array_rest_tail _ _ _ EN OR) as [ms TL].
        exists ((p ++ s) ++ u'). split; [now apply moved_trans with r2|].
        destruct PP as [(LL & W)|(EN' & w & w' & -> & W & W')].
        - left. split; [exact LL|]. exists (Arr (v' :: ms)). rewrite <- app_assoc. now constructor.
        - right. split; [exact EN'|]. exists (v' :: ms). rewrite <- !app_assoc. cbn [app].
          now constructor. }
      destruct TT as [->|[-> | ->]].
      * destruct (Nat.ltb (length acc) cap); [|discriminate].
        destruct (token_value buf r1 a) as [[v1 a1]|]; [|discriminate].
        destruct (lexeme_value _ _ _ _ _ _ LX) as [t V].
        apply (FIN r1 a1 (v1 :: acc) x t); auto. right. right. exact L1.
      * destruct (Nat.ltb (length acc) cap); [|discriminate].
        destruct (read_object n fl buf r1 a) as [[[[e r2] a2] v2]|] eqn:RO; [|discriminate].
        destruct (err_ok e) eqn:EO; [|destruct e; try discriminate; cbn in EO; discriminate].
        apply err_ok_spec in EO. subst e.
        apply IH1 in RO; auto. destruct RO as (L2 & u & M2 & OR).
        destruct (object_rest_value _ _ OR) as [t V].
        apply (FIN r2 a2 (v2 :: acc) (123 :: u) t); auto.
        -- destruct M2 as (_ & _ & M2). congruence.
        -- left. exact L2.
        -- rewrite (start_text _ _ _ _ _ _ LX) in M.
           change (123 :: u) with ([123] ++ u). rewrite app_assoc. now apply moved_trans with r1.
      * destruct (Nat.ltb (length acc) cap); [|discriminate].
        destruct (read_array n fl buf r1 a) as [[[[e r2] a2] v2]|] eqn:RO; [|discriminate].
        destruct (err_ok e) eqn:EO; [|destruct e; try discriminate; cbn in EO; discriminate].
        apply err_ok_spec in EO. subst e.
        apply IH4 in RO; auto. destruct RO as (L2 & u & M2 & OR).
        destruct (array_rest_value _ _ OR) as [t V].
        apply (FIN r2 a2 (v2 :: acc) (91 :: u) t); auto.
        -- destruct M2 as (_ & _ & M2). congruence.
        -- right. left. exact L2.
        -- rewrite (start_text' _ _ _ _ _ _ LX) in M.
           change (91 :: u) with ([91] ++ u). rewrite app_assoc. now apply moved_trans with r1.
    + injection H as _ <- _ _. split; [exact L1|]. exists (p ++ [93]). split; [exact M|].
      destruct PP as [W|(EN & TR & w & w' & -> & W & W')].
      * destruct L as [L|L].
        -- left. split; [exact L|]. exists (Arr []). now constructor.
        -- right. split; [exact L|]. exists []. now constructor.
      * right. split; [exact EN|]. exists []. rewrite <- app_assoc. cbn [app]. now constructor.
Qed.

(** ** Documents *)

Lemma no_comment fl c r r' : plain_flags fl -> next_token fl c r <> Some (TComment, r').
Proof.
  intros PF H. pose proof (next_token_cases fl c r PF) as C. rewrite H in C.
  destruct C as (_ & p & l & x & ct & _ & LX & _). inversion LX.
Qed.

Lemma valid_until_eof_ok fl r b r' : plain_flags fl -> last r <> TEof ->
  valid_until_eof fl r = Some (b, r') -> err r' = JOk -> ws (rest r) /\ rest r' = [].
Proof.
  intros PF NE H E. unfold valid_until_eof in H. destruct (rest r) as [|c s] eqn:R.
  { injection H as _ <-. split; [constructor|exact R]. }
  destruct (tok_eqb (last r) TEof) eqn:L.
  { destruct (last r); try discriminate; congruence. }
  set (n := length (c :: s)) in H. clearbody n. cbn [valid_until_eof_loop] in H.
  destruct (next_token fl CNull r) as [[t r1]|] eqn:T; [|discriminate].
  destruct t; try (destruct (err_ok (err r1)) eqn:EO; injection H as _ <-; [discriminate|];
    rewrite E in EO; discriminate).
  - injection H as _ <-. pose proof (next_token_cases fl CNull r PF) as C. rewrite T in C.
    destruct C as (_ & R' & w & W & M). destruct M as (M & _). rewrite R', app_nil_r in M.
    rewrite <- R, M. auto.
  - now apply no_comment in T.
Qed.

Lemma root_token fl rt p l t x ct : prefix (dialect_of fl) CNull TEof p l ->
  lexeme (dialect_of fl) CNull rt l t x ct -> ws p.
Proof. intros P _. inversion P; subst; auto; try discriminate. contradiction. Qed.

Lemma document_sound fl buf a d a' : plain_flags fl -> make_document fl buf a = Some (d, a') ->
  doc_err d = JOk -> exists t, json_text (dialect_of fl) buf t.
Proof.
  intros PF H E. unfold make_document in H. cbn [read_root_type] in H.
  destruct (next_token fl CNull (make_reader buf)) as [[t r]|] eqn:T; [|discriminate].
  assert (FIN : forall (z : option (jerr * reader * alloc * option jv)) e r2 a2 v2,
    z = Some (e, r2, a2, v2) ->
    (' (e, r, a, v) <- z;;
     r <- (if err_ok (err r) then ' (_, r) <- valid_until_eof fl r;; Some r else Some r);;
     assert_ (match rest r with [] => true | _ => negb (err_ok (err r)) end)
       (if err_ok (err r) then Some (Doc v e 0 0 (Some 0%nat) 0, a)
        else Some (Doc None (err r) (line r) (col r) (curo r) (curn r), a))) = Some (d, a') ->
    err r2 = JOk /\ e = JOk /\ (last r2 <> TEof -> ws (rest r2))).
  { clear H T t r. intros z e r2 a2 v2 -> H.
    destruct (err_ok (err r2)) eqn:EO.
    - destruct (valid_until_eof fl r2) as [[b r3]|] eqn:V; [|discriminate].
      unfold assert_ in H. destruct (match rest r3 with [] => true | _ => negb (err_ok (err r3)) end); [|discriminate].
      destruct (err_ok (err r3)) eqn:EO3.
      + injection H as <- _. apply err_ok_spec in EO. apply err_ok_spec in EO3.
        split; [auto|]. split; [auto|]. intro NE. apply (valid_until_eof_ok _ _ _ _ PF NE V EO3).
      + injection H as <- _. cbn in E. rewrite E in EO3. discriminate.
    - exfalso. unfold assert_ in H. destruct (match rest r2 with [] => true | _ => negb (err_ok (err r2)) end); [|discriminate].
      rewrite EO in H. injection H as <- _. cbn in E. rewrite E in EO. discriminate. }
  pose proof (next_token_cases fl CNull (make_reader buf) PF) as C. rewrite T in C.
  assert (DONE : forall p x u r2, ws p -> moved (make_reader buf) (p ++ x) r -> moved r u r2 ->
    ws (rest r2) -> (exists t, value (dialect_of fl) (x ++ u) t) -> exists t, json_text (dialect_of fl) buf t).
  { intros p x u r2 P M M2 W [tr V]. exists tr, p, (x ++ u), (rest r2). split; [|auto].
    destruct M as (M & _), M2 as (M2 & _). cbn [rest make_reader] in M. rewrite M, M2.
    now rewrite <- !app_assoc. }
  assert (BAD : forall e r2 a2 v2, err r2 <> JOk ->
    (' (e, r, a, v) <- Some (e, r2, a2, v2);;
     r <- (if err_ok (err r) then ' (_, r) <- valid_until_eof fl r;; Some r else Some r);;
     assert_ (match rest r with [] => true | _ => negb (err_ok (err r)) end)
       (if err_ok (err r) then Some (Doc v e 0 0 (Some 0%nat) 0, a)
        else Some (Doc None (err r) (line r) (col r) (curo r) (curn r), a))) <> Some (d, a')).
  { intros e r2 a2 v2 NE X. apply (FIN _ e r2 a2 v2 eq_refl) in X.
    destruct X as (X & _). contradiction. }
  destruct t; try (exfalso; refine (BAD JOk (set_error r JUnexpectedToken) a None _ H); discriminate).
  - destruct C as (L & p & l & x & ct & P & LX & M).
    destruct (read_object (3 * length buf + 3) fl buf r a) as [[[[e r2] a2] v2]|] eqn:RO; [|discriminate].
    assert (E0 : err r = JOk) by (destruct M as (_ & _ & M); rewrite M; reflexivity).
    destruct (FIN _ e r2 a2 (Some v2) eq_refl H) as (E2 & -> & W).
    apply (read_sound_all fl PF) in RO; auto. destruct RO as (L2 & u & M2 & OR).
    apply (DONE p x u r2); auto.
    + now apply (root_token _ _ _ _ _ _ _ P LX).
    + apply W. congruence.
    + rewrite (start_text _ _ _ _ _ _ LX). now apply object_rest_value.
  - destruct C as (L & p & l & x & ct & P & LX & M).
    destruct (read_array (3 * length buf + 3) fl buf r a) as [[[[e r2] a2] v2]|] eqn:RO; [|discriminate].
    assert (E0 : err r = JOk) by (destruct M as (_ & _ & M); rewrite M; reflexivity).
    destruct (FIN _ e r2 a2 (Some v2) eq_refl H) as (E2 & -> & W).
    apply (read_sound_all fl PF) in RO; auto. destruct RO as (L2 & u & M2 & OR).
    apply (DONE p x u r2); auto.
    + now apply (root_token _ _ _ _ _ _ _ P LX).
    + apply W. congruence.
    + rewrite (start_text' _ _ _ _ _ _ LX). now apply array_rest_value.
  - destruct C as (L & p & l & x & ct & P & LX & M).
    destruct (token_value buf r a) as [[v2 a2]|] eqn:RO; [|discriminate].
    destruct (FIN _ JOk r a2 (Some v2) eq_refl H) as (E2 & _ & W).
    apply (DONE p x [] r); auto.
    + now apply (root_token _ _ _ _ _ _ _ P LX).
    + apply moved_refl.
    + apply W. congruence.
    + rewrite app_nil_r. now apply lexeme_value in LX.
  - exfalso. eapply no_comment; eauto.
Qed.
