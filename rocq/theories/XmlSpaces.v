(** What the flags do to plain text. *)
From Coq Require Import Arith NArith ZArith List Bool Lia ZifyBool ZifyNat ZifyN.
From Verif Require Import Base CodecModel CodecProofs UniModel UniSpec UniProofs UniTop XmlModel XmlSpec XmlText XmlLex XmlSafe.
Import ListNotations.
Local Open Scope N_scope.

Fixpoint collapse (ws : bool) (s : list N) : list N :=
  match s with
  | [] => []
  | c :: s => if c <=? 32 then (if ws then collapse true s else 32 :: collapse true s) else c :: collapse false s
  end.
Lemma collapse_high : forall ch s ws, ch <> [] -> Forall (fun c => 32 < c) ch -> collapse ws (ch ++ s) = ch ++ collapse false s.
Proof.
  induction ch as [|c ch IH]; intros s ws H F; [contradiction|]. inversion F as [|? ? Fc Fs]; subst. cbn [app collapse]. rewrite (proj2 (N.leb_gt c 32)) by lia. f_equal. destruct ch as [|d ch]; [reflexivity|]. apply IH; [discriminate|exact Fs].
Qed.
Lemma collapsed_fun : forall s t, collapsed s t -> Forall (fun c => c <= 32 -> space c) s -> t = collapse false s.
Proof.
  intros s t H. induction H as [|c s t Nc H IH|w s t W Ns H IH]; intros F; [reflexivity| |].
  - inversion F as [|? ? Fc Fs]; subst. cbn [collapse]. destruct (N.leb_spec c 32) as [L|L]; [exfalso; auto|]. f_equal. apply IH, Fs.
  - apply Forall_app in F. destruct F as [_ F]. rewrite (IH F). destruct W as [W0 W]. destruct w as [|c w]; [contradiction|]. inversion W as [|? ? Sc Sw]; subst. cbn [app collapse].
    assert (Lc : c <= 32) by (unfold space in Sc; lia). rewrite (proj2 (N.leb_le c 32) Lc). f_equal. clear W W0 Sc Lc. induction w as [|d w IHw].
    + cbn [app]. destruct s as [|e s]; [reflexivity|]. cbn [collapse]. inversion F as [|? ? Fe _]; subst. destruct (N.leb_spec e 32) as [L|L]; [exfalso; apply (Ns e s eq_refl), Fe, L|reflexivity].
    + inversion Sw as [|? ? Sd Sw']; subst. cbn [app collapse]. assert (Ld : d <= 32) by (unfold space in Sd; lia). rewrite (proj2 (N.leb_le d 32) Ld). apply IHw, Sw'.
Qed.
Lemma collapsed_exists : forall s, exists t, collapsed s t.
Proof.
  intros s. remember (length s) as n eqn:L. assert (Ln : (length s <= n)%nat) by lia. clear L. revert s Ln. induction n as [|n IH]; intros s Ln; [destruct s; [exists []; constructor|cbn in Ln; lia]|].
  assert (Dec : forall c, space c \/ ~ space c) by (intros c; unfold space; lia). destruct s as [|c s]; [exists []; constructor|]. destruct (Dec c) as [Sc|Sc].
  - assert (K : forall s, exists w s', s = w ++ s' /\ spaces w /\ forall c s'', s' = c :: s'' -> ~ space c).
    { clear -Dec. induction s as [|d s (w & s' & E & W & Ns)]; [exists [], []; split; [reflexivity|]; split; [constructor|discriminate]|]. destruct (Dec d) as [Sd|Sd].
      - exists (d :: w), s'. split; [rewrite E; reflexivity|]. split; [constructor; assumption|exact Ns].
      - exists [], (d :: s). split; [reflexivity|]. split; [constructor|]. intros c s'' Q. assert (c = d) as -> by congruence. exact Sd. }
    destruct (K s) as (w & s' & -> & W & Ns). destruct (IH s') as [t Ht]; [cbn [length] in Ln; rewrite app_length in Ln; lia|]. exists (32 :: t). change (c :: w ++ s') with ((c :: w) ++ s'). apply CO_run; [split; [discriminate|constructor; assumption]|exact Ns|exact Ht].
  - destruct (IH s) as [t Ht]; [cbn [length] in Ln; lia|]. exists (c :: t). apply CO_char; assumption.
Qed.

(** ** Trimming *)
Lemma trimmed_space : forall c, is_trimmed c = true <-> space c.
Proof. intros c. unfold is_trimmed. rewrite one_of_in. cbn [In]. unfold space. intuition lia. Qed.
Lemma drop_spec : forall s, exists a, s = a ++ drop_spaces s /\ spaces a /\ forall c t, drop_spaces s = c :: t -> ~ space c.
Proof.
  induction s as [|c s (a & E & A & N0)]; [exists []; split; [reflexivity|]; split; [constructor|discriminate]|]. cbn [drop_spaces]. destruct (is_trimmed c) eqn:T.
  - apply trimmed_space in T. exists (c :: a). split; [cbn [app]; rewrite <- E; reflexivity|]. split; [constructor; assumption|exact N0].
  - exists []. split; [reflexivity|]. split; [constructor|]. intros d t Q. assert (d = c) as -> by congruence. rewrite <- trimmed_space, T. discriminate.
Qed.
Lemma trims_spec : forall flags s a, exists a', trims flags (s, a) = (fst (trims flags (s, a)), a') /\ (a <> None -> a' <> None) /\ trimmed (trim_left_flag flags) (trim_right_flag flags) s (fst (trims flags (s, a))).
Proof.
  intros flags s a. destruct (trims flags (s, a)) as [t a'] eqn:E. exists a'. split; [reflexivity|]. split; [exact (proj2 (trims_part _ _ _ _ _ E))|]. cbn [fst]. unfold trims in E.
  set (v := if trim_left_flag flags then trim_left (s, a) else (s, a)) in E.
  assert (V : exists p, s = p ++ fst v /\ spaces p /\ (trim_left_flag flags = false -> p = []) /\ (trim_left_flag flags = true -> forall c t, fst v = c :: t -> ~ space c)).
  { unfold v. destruct (trim_left_flag flags); [|exists []; split; [reflexivity|]; split; [constructor|]; split; [reflexivity|discriminate]]. cbn [trim_left fst]. destruct (drop_spec s) as (p & P1 & P2 & P3). exists p. split; [exact P1|]. split; [exact P2|]. split; [discriminate|]. intros _. exact P3. }
  destruct V as (p & P1 & P2 & P3 & P4). clearbody v. destruct (trim_right_flag flags).
  - unfold trim_right in E. assert (t = rev (drop_spaces (rev (fst v)))) as -> by congruence. destruct (drop_spec (rev (fst v))) as (b & B1 & B2 & B3). set (k := drop_spaces (rev (fst v))) in *.
    assert (Ev : fst v = rev k ++ rev b) by (rewrite <- rev_app_distr, <- B1, rev_involutive; reflexivity). exists p, (rev b). split; [rewrite <- Ev; exact P1|]. split; [exact P2|]. split; [unfold spaces; apply Forall_rev; exact B2|]. split; [exact P3|]. split; [discriminate|]. split; [|split].
    + intros L c t' Q. apply (P4 L c (t' ++ rev b)). rewrite Ev, Q. reflexivity.
    + intros _ c t' Q. apply (B3 c (rev t')). rewrite <- (rev_involutive k), Q, rev_app_distr. reflexivity.
    + intros Q L. rewrite Q in Ev. cbn [app] in Ev. destruct (rev b) as [|c y] eqn:Rb; [reflexivity|]. exfalso. apply (P4 L c y Ev). assert (Fb : spaces (rev b)) by (unfold spaces; apply Forall_rev; exact B2). rewrite Rb in Fb. inversion Fb. assumption.
  - destruct v as [x y]. assert (t = x) as -> by congruence. cbn [fst] in *. exists p, []. rewrite app_nil_r. split; [exact P1|]. split; [exact P2|]. split; [constructor|]. split; [exact P3|]. split; [reflexivity|]. split; [exact P4|]. split; [discriminate|reflexivity].
Qed.
Lemma head_eq : forall (p q s t : list N), p ++ s = q ++ t -> spaces p -> spaces q -> (forall c x, s = c :: x -> ~ space c) -> (forall c x, t = c :: x -> ~ space c) -> s = t.
Proof.
  induction p as [|c p IH]; intros q s t E P Q S T; destruct q as [|d q]; cbn [app] in E.
  - exact E.
  - exfalso. exact (S d (q ++ t) E (Forall_inv Q)).
  - exfalso. exact (T c (p ++ s) (eq_sym E) (Forall_inv P)).
  - apply (IH q); [congruence|exact (Forall_inv_tail P)|exact (Forall_inv_tail Q)|exact S|exact T].
Qed.
Lemma trimmed_fun : forall l r s t t', trimmed l r s t -> trimmed l r s t' -> t = t'.
Proof.
  intros l r s t t' (a & b & E & A & B & L & R & HL & HR & H0) (a' & b' & E' & A' & B' & L' & R' & HL' & HR' & H0').
  assert (Q : t ++ b = t' ++ b').
  { destruct l; [|rewrite (L eq_refl) in E; rewrite (L' eq_refl) in E'; cbn [app] in *; congruence]. apply (head_eq a a'); try assumption; [congruence| |]; intros c x K.
    - destruct t as [|d t]; [rewrite (H0 eq_refl eq_refl) in K; discriminate|]. cbn [app] in K. assert (d = c) as <- by congruence. exact (HL eq_refl d t eq_refl).
    - destruct t' as [|d t']; [rewrite (H0' eq_refl eq_refl) in K; discriminate|]. cbn [app] in K. assert (d = c) as <- by congruence. exact (HL' eq_refl d t' eq_refl). }
  destruct r; [|rewrite (R eq_refl), (R' eq_refl), !app_nil_r in Q; exact Q].
  apply (f_equal (@rev N)) in Q. rewrite !rev_app_distr in Q. rewrite <- (rev_involutive t), <- (rev_involutive t'). f_equal. apply (head_eq (rev b) (rev b')); try exact Q; try (unfold spaces; apply Forall_rev; assumption).
  - intros c x K. apply (HR eq_refl c (rev x)). rewrite <- (rev_involutive t), K. reflexivity.
  - intros c x K. apply (HR' eq_refl c (rev x)). rewrite <- (rev_involutive t'), K. reflexivity.
Qed.

(** ** Plain text *)
Lemma seq_bytes256 : forall v ch, utf8_seq v ch -> Forall (fun c => c < 256) ch.
Proof. intros v ch H. inversion H; subst; repeat constructor; lia. Qed.
Lemma plain_bytes : forall vs s, encodes utf8_seq vs s -> Forall plain_char vs -> Forall (fun c => c < 256 /\ (c <= 32 -> space c)) s.
Proof.
  intros vs s E. induction E as [|v vs ch us S E IH]; intros F; [constructor|]. inversion F as [|? ? Fv Fs]; subst. apply Forall_app. split; [|exact (IH Fs)]. pose proof (seq_bytes256 v ch S) as B. destruct (seq_bytes v ch S) as [[-> L]|H].
  - constructor; [|constructor]. split; [lia|]. apply Fv.
  - rewrite Forall_forall in *. intros c Hc. specialize (B c Hc). specialize (H c Hc). cbn beta in *. split; [exact B|]. lia.
Qed.
Lemma plain_high : forall v ch, utf8_seq v ch -> 32 < v -> Forall (fun c => 32 < c) ch.
Proof. intros v ch S V. destruct (seq_bytes v ch S) as [[-> L]|H]; [constructor; [exact V|constructor]|]. eapply Forall_impl; [|exact H]. cbn beta. intros c Hc. lia. Qed.

Lemma reduce_chunks : forall flags, reduce_flag flags = true -> forall vs s, encodes utf8_seq vs s -> Forall plain_char vs -> newlines_flag flags = true \/ ~ In 13 vs ->
  forall ws after fuel, (length s < fuel)%nat -> exists cs, uchunks fuel flags [] s after ws = Some (true, cs, []) /\ concat cs = collapse ws s.
Proof.
  intros flags R vs s E. induction E as [|v vs ch us S E IH]; intros F G ws after [|fuel] Hf; try (exfalso; lia); cbn [uchunks].
  - exists []. split; reflexivity.
  - inversion F as [|? ? Fv Fs]; subst. destruct Fv as (X & V1 & V2 & V3 & V4). destruct (extract_char v ch us (seq_lenient _ _ S)) as [Ex Fx]. rewrite Ex, Fx. pose proof (seq_ne v ch S) as Ne. rewrite app_length in Hf.
    assert (v <> 0) by (unfold xml_char in X; lia). rewrite (proj2 (N.eqb_neq v 0)), (proj2 (N.eqb_neq v 38)), (proj2 (N.eqb_neq v 60)), (proj2 (N.eqb_neq v 93)), (proj2 (valid_xml v)) by assumption.
    assert (G' : newlines_flag flags = true \/ ~ In 13 vs) by (destruct G as [G|G]; [left; exact G|right; intros K; apply G; right; exact K]).
    unfold whitespace_action. rewrite R. destruct (N.leb_spec v 32) as [L|L].
    + assert (ch = [v]) as -> by (apply (seq_ascii v ch S); lia). cbn [app collapse]. rewrite (proj2 (N.leb_le v 32) L). destruct ws.
      * destruct (IH Fs G' true after fuel ltac:(cbn [length] in Hf; lia)) as (cs & U & V). rewrite U. exists cs. split; [reflexivity|exact V].
      * assert (Q : newlines_flag flags || negb (v =? 13) = true) by (destruct G as [-> |G]; [reflexivity|]; destruct (N.eqb_spec v 13) as [-> |_]; [exfalso; apply G; left; reflexivity|apply orb_true_r]). rewrite Q.
        destruct (IH Fs G' true after fuel ltac:(cbn [length] in Hf; lia)) as (cs & U & V). rewrite U. exists ([32] :: cs). split; [reflexivity|]. cbn [concat app]. rewrite V. reflexivity.
    + destruct (IH Fs G' false after fuel ltac:(lia)) as (cs & U & V). rewrite U. exists (ch :: cs). split; [reflexivity|]. cbn [concat app]. rewrite V. symmetry. apply collapse_high; [destruct ch; [cbn in Ne; lia|discriminate]|exact (plain_high v ch S L)].
Qed.
Lemma newline_chunks : forall flags, reduce_flag flags = false -> newlines_flag flags = true -> forall vs s, encodes utf8_seq vs s -> Forall plain_char vs -> ~ In 13 vs ->
  forall ws after fuel, (length s < fuel)%nat -> exists cs, uchunks fuel flags [] s after ws = Some (true, cs, []) /\ concat cs = unbroken s.
Proof.
  intros flags R Nl vs s E. induction E as [|v vs ch us S E IH]; intros F G ws after [|fuel] Hf; try (exfalso; lia); cbn [uchunks].
  - exists []. split; reflexivity.
  - inversion F as [|? ? Fv Fs]; subst. destruct Fv as (X & V1 & V2 & V3 & V4). destruct (extract_char v ch us (seq_lenient _ _ S)) as [Ex Fx]. rewrite Ex, Fx. pose proof (seq_ne v ch S) as Ne. rewrite app_length in Hf.
    assert (v <> 0) by (unfold xml_char in X; lia). rewrite (proj2 (N.eqb_neq v 0)), (proj2 (N.eqb_neq v 38)), (proj2 (N.eqb_neq v 60)), (proj2 (N.eqb_neq v 93)), (proj2 (valid_xml v)) by assumption.
    assert (G' : ~ In 13 vs) by (intros K; apply G; right; exact K). assert (V13 : v <> 13) by (intros ->; apply G; left; reflexivity).
    unfold whitespace_action. rewrite R, Nl. rewrite (proj2 (N.eqb_neq v 13) V13). cbn [orb andb].
    destruct (IH Fs G' ws after fuel ltac:(lia)) as (cs & U & V). destruct (N.eqb_spec v 10) as [-> |V10].
    + rewrite U. exists ([32] :: cs). split; [reflexivity|]. rewrite (seq_ascii 10 ch S) by lia. cbn [concat app]. rewrite V. reflexivity.
    + rewrite U. exists (ch :: cs). split; [reflexivity|]. cbn [concat app]. rewrite V. unfold unbroken. rewrite map_app. f_equal. destruct (seq_bytes v ch S) as [[-> L]|Hh].
      * cbn [map]. rewrite (proj2 (N.eqb_neq v 10) V10). reflexivity.
      * clear -Hh. induction Hh as [|c ch Hc Hh IH]; [reflexivity|]. cbn [map]. rewrite (proj2 (N.eqb_neq c 10)) by lia. f_equal. exact IH.
Qed.

(** Trimming plain text gives plain text. *)
Lemma plain_split_left : forall a t, spaces a -> forall vs, encodes utf8_seq vs (a ++ t) -> Forall plain_char vs -> exists vs', encodes utf8_seq vs' t /\ Forall plain_char vs' /\ incl vs' vs.
Proof.
  intros a t H. induction H as [|c a Sc H IH]; intros vs E F; [exists vs; split; [exact E|]; split; [exact F|apply incl_refl]|]. inversion E as [Q1 Q2|v vs0 ch us S E0 Q1 Q2].
  subst vs. inversion F as [|? ? Fv Fs]; subst. destruct ch as [|x ch]; [pose proof (seq_ne _ _ S); cbn in *; lia|]. cbn [app] in Q2. assert (x = c) as -> by congruence.
  destruct (seq_bytes _ _ S) as [[Ec _]|Hh]; [|inversion Hh; unfold space in Sc; lia]. assert (ch = []) as -> by congruence. cbn [app] in Q2. assert (us = a ++ t) as -> by congruence. destruct (IH _ E0 Fs) as (vs' & A & B & C). exists vs'. split; [exact A|]. split; [exact B|]. apply incl_tl, C.
Qed.
Lemma encodes_app : forall t vs b, spaces b -> encodes utf8_seq vs (t ++ b) -> exists v1 v2, vs = v1 ++ v2 /\ encodes utf8_seq v1 t.
Proof.
  intros t. remember (length t) as n eqn:L. assert (Ln : (length t <= n)%nat) by lia. clear L. revert t Ln. induction n as [|n IH]; intros t Ln vs b B E.
  - destruct t; [|cbn in Ln; lia]. exists [], vs. split; [reflexivity|constructor].
  - destruct t as [|c t]; [exists [], vs; split; [reflexivity|constructor]|]. inversion E as [Q1 Q2|v vs0 ch us S E0 Q1 Q2].
    assert (K : exists t', c :: t = ch ++ t' /\ us = t' ++ b).
    { clear IH E. change (c :: t ++ b) with ((c :: t) ++ b) in Q2. destruct (app_eq_app _ _ _ _ Q2) as (x & [[E1 E2]|[E1 E2]]); [|exists x; split; assumption].
      destruct x as [|y x]; [rewrite app_nil_r in E1; exists []; rewrite app_nil_r; split; [symmetry; exact E1|cbn [app] in *; congruence]|]. exfalso.
      assert (Iy : In y b) by (rewrite E2; left; reflexivity). unfold spaces in B. rewrite Forall_forall in B. specialize (B y Iy). destruct (seq_bytes _ _ S) as [[Ec _]|Hh].
      - rewrite E1 in Ec. apply (f_equal (@length N)) in Ec. rewrite app_length in Ec. cbn [length] in Ec. lia.
      - rewrite Forall_forall in Hh. specialize (Hh y). rewrite E1 in Hh. specialize (Hh ltac:(apply in_or_app; right; left; reflexivity)). unfold space in B. lia. }
    destruct K as (t' & Ec & Eu). pose proof (seq_ne _ _ S) as Ne. destruct (IH t') with (vs := vs0) (b := b) as (v1 & v2 & Ev & E1).
    { apply (f_equal (@length N)) in Ec. rewrite app_length in Ec. cbn [length] in *. lia. }
    { exact B. } { rewrite <- Eu. exact E0. }
    exists (v :: v1), v2. split; [rewrite Ev; reflexivity|]. rewrite Ec. constructor; assumption.
Qed.
Lemma plain_trimmed : forall l r s t vs, trimmed l r s t -> encodes utf8_seq vs s -> Forall plain_char vs -> exists vs', encodes utf8_seq vs' t /\ Forall plain_char vs' /\ incl vs' vs.
Proof.
  intros l r s t vs (a & b & -> & A & B & _) E F. destruct (plain_split_left a (t ++ b) A vs E F) as (v1 & E1 & F1 & I1). destruct (encodes_app t v1 b B E1) as (v2 & v3 & -> & E2). exists v2. apply Forall_app in F1. split; [exact E2|]. split; [apply F1|]. intros x Hx. apply I1, in_or_app. left. exact Hx.
Qed.
