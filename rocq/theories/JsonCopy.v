(** Unescaping strings into a buffer. *)
From Coq Require Import Arith NArith List Bool Lia ZifyBool ZifyNat ZifyN.
From Verif Require Import Base UniSpec JsonModel JsonSpec JsonString JsonLex.
Import ListNotations.
Local Open Scope N_scope.

Lemma memchr_some c s a b : memchr c s = Some (a, b) -> s = a ++ c :: b /\ ~ In c a.
Proof.
  revert a b. induction s as [|x s IH]; intros a b E; cbn [memchr] in E; [discriminate|].
  destruct (N.eqb_spec x c) as [->|N].
  - injection E as <- <-. auto.
  - destruct (memchr c s) as [[a' b']|]; [|discriminate]. injection E as <- <-.
    destruct (IH _ _ eq_refl) as [-> NI]. split; [reflexivity|]. cbn. intuition.
Qed.

Lemma memchr_none c s : memchr c s = None -> ~ In c s.
Proof.
  induction s as [|x s IH]; intros E; cbn [memchr] in E; [auto|].
  destruct (N.eqb_spec x c) as [->|N]; [discriminate|].
  destruct (memchr c s) as [[a' b']|]; [discriminate|]. cbn. intuition.
Qed.

Lemma memchr_app c a b : ~ In c a -> memchr c (a ++ c :: b) = Some (a, b).
Proof.
  induction a as [|x a IH]; intro N; cbn [app memchr].
  - now rewrite N.eqb_refl.
  - destruct (N.eqb_spec x c) as [->|N']; [cbn in N; intuition|].
    rewrite IH; [reflexivity|cbn in N; intuition].
Qed.

Lemma memchr_not_in c s : ~ In c s -> memchr c s = None.
Proof.
  induction s as [|x s IH]; intro N; cbn [memchr]; [reflexivity|].
  destruct (N.eqb_spec x c) as [->|N']; [cbn in N; intuition|].
  rewrite IH; [reflexivity|cbn in N; intuition].
Qed.

Lemma utf8_encode_length cp : (length (utf8_encode cp) <= 4)%nat.
Proof.
  unfold utf8_encode. destruct (cp <? 0x80); [cbn; lia|]. destruct (cp <? 0x800); [cbn; lia|].
  destruct (cp <? 0x10000); cbn; lia.
Qed.

(** The buffer is never overrun if it is as large as the string. *)
Lemma copy_unescaped_some fuel : forall size remaining s out, (length s < fuel)%nat ->
  (length out + length s <= size)%nat ->
  exists o, copy_unescaped fuel size remaining s out = Some o
    /\ (length o <= length out + length s)%nat.
Proof.
  assert (TAIL : forall size rm s out, (length out + length s <= size)%nat ->
    exists o, copy_tail size rm s out = Some o /\ (length o <= length out + length s)%nat).
  { intros size rm s out L. unfold copy_tail, put. pose proof (firstn_le_length rm s).
    assert (firstn rm s = firstn rm s ++ []) by now rewrite app_nil_r.
    assert (length (firstn rm s) <= length s)%nat by (rewrite firstn_length; lia).
    destruct (Nat.leb_spec (length out + length (firstn rm s)) size); [|lia].
    eexists. split; [reflexivity|]. rewrite app_length. lia. }
  induction fuel as [|fuel IH]; intros size rm s out LF LO; [lia|].
  cbn [copy_unescaped].
  destruct (memchr 92 s) as [[pre post]|] eqn:M; [|now apply TAIL].
  apply memchr_some in M. destruct M as [-> _].
  destruct (Nat.eqb rm 0); [now apply TAIL|].
  rewrite app_length in LF, LO. cbn [length] in LF, LO. cbv zeta.
  assert (LP : (length (firstn rm pre) <= length pre)%nat) by (rewrite firstn_length; lia).
  set (pre' := firstn rm pre) in *. unfold put at 1.
  destruct (Nat.leb_spec (length out + length pre') size); [|lia].
  assert (LE : forall (q : list N) k, (length q <= length (out ++ pre') + k)%nat -> (k <= length post + 1)%nat ->
               (length q <= length out + length (pre ++ 92%N :: post))%nat).
  { intros q k A B. rewrite app_length in A. rewrite app_length. cbn [length]. lia. }
  set (out1 := out ++ pre') in *.
  assert (L1 : (length out1 + length post + 1 <= size)%nat) by (unfold out1; rewrite app_length; lia).
  destruct post as [|c post].
  { destruct (TAIL size (rm - length pre')%nat [] out1) as (o & E & L); [cbn in *; lia|].
    exists o. split; [exact E|]. apply (LE _ _ L). cbn. lia. }
  cbn [length] in L1, LF.
  destruct post as [|d post'].
  { destruct (TAIL size (rm - length pre')%nat [c] out1) as (o & E & L); [cbn in *; lia|].
    exists o. split; [exact E|]. apply (LE _ _ L). cbn. lia. }
  set (post := d :: post') in *.
  destruct (c =? 10).
  { destruct (IH size (rm - length pre')%nat post out1) as (o & E & L); [lia|lia|].
    exists o. split; [exact E|]. apply (LE _ _ L). cbn [length]. lia. }
  destruct (c =? 117).
  { destruct (get_codepoint post) as [[k cp]|] eqn:G.
    2:{ exists out1. split; [reflexivity|]. apply (LE _ 0%nat); lia. }
    apply get_codepoint_sound in G. destruct G as (us & t & _ & _ & _ & _ & K1 & K2).
    pose proof (utf8_encode_length cp) as UL.
    destruct (Nat.ltb (rm - length pre') (length (utf8_encode cp))).
    { exists out1. split; [reflexivity|]. apply (LE _ 0%nat); lia. }
    unfold put. destruct (Nat.leb_spec (length out1 + length (utf8_encode cp)) size); [|lia].
    destruct (IH size (rm - length pre' - length (utf8_encode cp))%nat (skipn k post)
                (out1 ++ utf8_encode cp)) as (o & E & L).
    - rewrite skipn_length. lia.
    - rewrite skipn_length, app_length. lia.
    - exists o. split; [exact E|]. rewrite skipn_length, app_length in L.
      apply (LE _ (length (utf8_encode cp) + (length post - k))%nat); cbn [length]; lia. }
  unfold put.
  match goal with |- context [Nat.leb (length out1 + length ?x) size] =>
    destruct (Nat.leb_spec (length out1 + length x) size) as [L2|L2]; [|cbn [length] in L2; lia];
    destruct (IH size (rm - length pre')%nat post (out1 ++ x)) as (o & E & L) end.
  - lia.
  - rewrite app_length. cbn [length]. lia.
  - exists o. split; [exact E|]. rewrite app_length in L. cbn [length] in L.
    apply (LE _ (1 + length post)%nat); cbn [length]; lia.
Qed.

Lemma copy_string_some s size : (length s <= size)%nat ->
  exists o, copy_unescaped_string s size = Some o /\ (length o <= length s)%nat.
Proof.
  intro L. unfold copy_unescaped_string. destruct s as [|c s]; [exists []; auto|].
  destruct (Nat.eqb size 0); [exists []; cbn; split; [auto|lia]|].
  apply (copy_unescaped_some (S (length (c :: s))) size size (c :: s) []); cbn [length] in *; lia.
Qed.

(** ** What is copied *)

Lemma utf16_utf8_exists v us : utf16_seq v us -> exists bs, utf8_seq v bs.
Proof.
  intro U. exists (utf8_encode v). apply utf8_encode_spec. inversion U; subst; auto. unfold scalar. lia.
Qed.

Lemma unescape_stored raw o : unescape raw o -> exists o', stored raw o'.
Proof.
  induction 1 as [|c s o C1 C2 C3 _ [o' IH]|e x s o SE U [o' IH]|v us t bs s o U E B _ [o' IH]].
  - exists []. constructor.
  - exists (c :: o'). now constructor.
  - destruct s as [|y s].
    + exists [e]. eapply S_escape_last. eassumption.
    + exists (x :: o'). constructor; auto. discriminate.
  - exists (bs ++ o'). econstructor; eauto.
Qed.

(** If the string does not end with a two-character escape sequence the bytes stored are those of
    the specification. *)
Lemma stored_unescape raw o : stored raw o ->
  unescape raw o \/ exists p e x, raw = p ++ [92; e] /\ simple_escape e x.
Proof.
  induction 1 as [|c s o C1 C2 C3 _ IH|e x s o SE NE U IH|e x SE|v us t bs s o U E B _ IH].
  - left. constructor.
  - destruct IH as [IH|(p & e & x & -> & SE)]; [left; now constructor|].
    right. exists (c :: p), e, x. auto.
  - destruct IH as [IH|(p & e' & x' & -> & SE')]; [left; now constructor|].
    right. exists (92 :: e :: p), e', x'. auto.
  - right. exists [], e, x. auto.
  - destruct IH as [IH|(p & e' & x' & -> & SE')]; [left; econstructor; eauto|].
    right. exists (t ++ p), e', x'. rewrite <- app_assoc. auto.
Qed.

Lemma stored_plain a s o : ~ In 92 a -> stored (a ++ s) o ->
  exists o', o = a ++ o' /\ stored s o'.
Proof.
  revert o. induction a as [|c a IH]; intros o NI H; cbn [app] in *; [eauto|].
  assert (HD : forall us t, u_escapes us t -> us <> [] -> exists t', t = 92 :: t').
  { intros us t E. inversion E; subst; [contradiction|eauto]. }
  inversion H; subst.
  - destruct (IH o0) as (o' & -> & S'); [cbn in NI; intuition|auto|]. exists o'. auto.
  - cbn in NI. intuition congruence.
  - cbn in NI. intuition congruence.
  - exfalso. destruct (HD _ _ H2) as (t' & ->); [inversion H1; discriminate|].
    cbn [app] in H0. assert (c = 92) by congruence. subst. cbn in NI. intuition.
Qed.

Lemma simple_escape_fun e x : simple_escape e x ->
  (if e =? 98 then 8 else if e =? 102 then 12 else if e =? 110 then 10
   else if e =? 114 then 13 else if e =? 116 then 9 else e) = x
  /\ e =? 10 = false /\ e =? 117 = false.
Proof. intro H. inversion H; auto. Qed.

Lemma stored_no_escape s o : ~ In 92 s -> stored s o -> o = s.
Proof.
  intros NI H. rewrite <- (app_nil_r s) in H. destruct (stored_plain _ _ _ NI H) as (o' & -> & S').
  inversion S'; subst; [apply app_nil_r|]. exfalso.
  assert (HD : forall us t, u_escapes us t -> us <> [] -> exists t', t = 92 :: t').
  { intros us' t' E. inversion E; subst; [contradiction|eauto]. }
  destruct (HD _ _ H2) as (t' & ->); [inversion H1; discriminate|discriminate].
Qed.

Lemma copy_unescaped_stored fuel : forall size rm s o out, (length s < fuel)%nat ->
  (length out + length s <= size)%nat -> (length s <= rm)%nat -> stored s o ->
  copy_unescaped fuel size rm s out = Some (out ++ o).
Proof.
  assert (TAIL : forall size rm s out, (length out + length s <= size)%nat -> (length s <= rm)%nat ->
    copy_tail size rm s out = Some (out ++ s)).
  { intros size rm s out L1 L2. unfold copy_tail, put. rewrite firstn_all2 by lia.
    destruct (Nat.leb_spec (length out + length s) size); [reflexivity|lia]. }
  induction fuel as [|fuel IH]; intros size rm s o out LF LO LR ST; [lia|].
  cbn [copy_unescaped].
  destruct (memchr 92 s) as [[pre post]|] eqn:M.
  2:{ apply memchr_none in M. rewrite (stored_no_escape _ _ M ST). now apply TAIL. }
  apply memchr_some in M. destruct M as [-> NI].
  apply stored_plain in ST; [|exact NI]. destruct ST as (o' & -> & ST).
  rewrite app_length in LF, LO, LR. cbn [length] in LF, LO, LR.
  assert (RM : Nat.eqb rm 0 = false) by (apply Nat.eqb_neq; lia). rewrite RM. cbv zeta.
  rewrite firstn_all2 by lia. unfold put at 1.
  destruct (Nat.leb_spec (length out + length pre) size); [|lia].
  rewrite app_assoc. set (out1 := out ++ pre).
  assert (L1 : (length out1 + length post + 1 <= size)%nat) by (unfold out1; rewrite app_length; lia).
  inversion ST as [|c s' o1 C1 C2 C3 ST' EQ1 EQ2|e x s' o1 SE NE ST' EQ1 EQ2|e x SE EQ1 EQ2
                  |v us t bs s' o1 U E B ST' EQ1 EQ2]; try (subst; congruence).
  - subst post o'. destruct s' as [|y s'']; [congruence|]. set (s2 := y :: s'') in *.
    destruct (simple_escape_fun _ _ SE) as (X & Y & Z). rewrite Y, Z, X. unfold put.
    cbn [length] in L1.
    destruct (Nat.leb_spec (length out1 + length [x]) size) as [L2|L2]; [|cbn [length] in L2; lia].
    rewrite (IH size (rm - length pre)%nat s2 o1); auto.
    + f_equal. rewrite <- app_assoc. reflexivity.
    + cbn [length] in LF. lia.
    + rewrite app_length. cbn [length]. lia.
    + cbn [length] in LR. lia.
  - subst post o'. cbn [length] in *. apply TAIL; cbn [length]; lia.
  - destruct (get_codepoint_complete v us t s' U E) as (u & k & ET & EK & G & _).
    subst t. cbn [app] in EQ1. assert (EP : post = 117 :: u ++ s') by congruence. clear EQ1.
    subst post.
    assert (U4 : (4 <= k)%nat).
    { apply get_codepoint_sound in G. destruct G as (? & ? & _ & _ & _ & _ & _ & K). exact K. }
    destruct u as [|y u']; [cbn in *; lia|]. cbn [app]. set (u := y :: u') in *.
    change (y :: u' ++ s') with (u ++ s'). cbn [N.eqb Pos.eqb]. rewrite G.
    assert (B' : utf8_encode v = bs).
    { apply utf8_seq_fun with v; auto. apply utf8_encode_spec. inversion U; subst; auto.
      unfold scalar. lia. }
    pose proof (utf8_encode_length v) as UL. rewrite B' in *. cbn [length] in *. rewrite app_length in *.
    destruct (Nat.ltb_spec (rm - length pre) (length bs)); [lia|].
    unfold put. destruct (Nat.leb_spec (length out1 + length bs) size); [|lia].
    rewrite EK, skipn_app, Nat.sub_diag, skipn_all. cbn [app skipn].
    rewrite (IH size _ s' o1); auto.
    + f_equal. rewrite <- app_assoc. reflexivity.
    + lia.
    + rewrite app_length. lia.
    + lia.
Qed.

Lemma copy_string_stored s o size : (length s <= size)%nat -> stored s o ->
  copy_unescaped_string s size = Some o.
Proof.
  intros L ST. unfold copy_unescaped_string. destruct s as [|c s].
  - rewrite (stored_no_escape [] o); auto.
  - destruct (Nat.eqb_spec size 0); [cbn in L; lia|].
    apply (copy_unescaped_stored (S (length (c :: s))) size size (c :: s) o []); auto; cbn [length] in *; lia.
Qed.
