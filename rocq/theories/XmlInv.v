(** What every call of the reader does, for any document: order of tokens, positions, progress. *)
From Coq Require Import Arith NArith ZArith List Bool Lia ZifyBool ZifyNat ZifyN.
From Verif Require Import Base CodecModel CodecProofs UniModel UniSpec UniProofs UniTop XmlModel XmlSpec XmlText XmlLex XmlTokens.
Import ListNotations.
Local Open Scope N_scope.

(** ** Positions *)
Lemma same32_w32 : forall a, same32 (w32 a) a. Proof. intros a. unfold same32, w32. apply N.mod_mod. discriminate. Qed.
Lemma same32_add : forall a b c d, same32 a b -> same32 c d -> same32 (a + c) (b + d).
Proof. intros a b c d H K. unfold same32 in *. rewrite (N.add_mod a c), (N.add_mod b d), H, K by discriminate. reflexivity. Qed.
Lemma same32_refl : forall a, same32 a a. Proof. reflexivity. Qed.
Lemma same32_trans : forall a b c, same32 a b -> same32 b c -> same32 a c. Proof. unfold same32. congruence. Qed.
Lemma same32_sym : forall a b, same32 a b -> same32 b a. Proof. unfold same32. congruence. Qed.
Lemma newlines_app : forall a b, newlines (a ++ b) = newlines a + newlines b.
Proof. intros a b. unfold newlines. rewrite filter_app, app_length. lia. Qed.
Lemma newlines_none : forall p, ~ In 10 p -> newlines p = 0.
Proof. intros p. induction p as [|c p IH]; intros H; [reflexivity|]. unfold newlines in *. cbn [filter]. destruct (N.eqb_spec 10 c) as [<-|_]; [exfalso; apply H; left; reflexivity|]. apply IH. intros K. apply H. right. exact K. Qed.

(** [k]: how much the offset lags behind. *)
Definition moved (tk tk' : tokenizer) (p : list N) (k : N) : Prop :=
  cur tk = p ++ cur tk' /\ same32 (line (at_ tk')) (line (at_ tk) + newlines p) /\ same32 (offset (at_ tk') + k) (offset (at_ tk) + N.of_nat (length p)).
Definition moves (tk tk' : tokenizer) (k : N) : Prop := exists p, moved tk tk' p k.
Lemma moves_refl : forall tk, moves tk tk 0.
Proof. intros tk. exists []. split; [reflexivity|]. split; [rewrite N.add_0_r; reflexivity|]. apply same32_refl. Qed.
Lemma moved_trans : forall a b c p q j k, moved a b p j -> moved b c q k -> moved a c (p ++ q) (j + k).
Proof.
  intros a b c p q j k (A1 & A2 & A3) (B1 & B2 & B3). split; [rewrite A1, B1, app_assoc; reflexivity|]. split.
  - rewrite newlines_app. eapply same32_trans; [exact B2|]. rewrite N.add_assoc. apply same32_add; [exact A2|apply same32_refl].
  - rewrite app_length, Nat2N.inj_add. replace (offset (at_ c) + (j + k)) with (offset (at_ c) + k + j) by lia.
    apply same32_trans with (offset (at_ b) + N.of_nat (length q) + j); [apply same32_add; [exact B3|apply same32_refl]|].
    replace (offset (at_ b) + N.of_nat (length q) + j) with (offset (at_ b) + j + N.of_nat (length q)) by lia. rewrite N.add_assoc. apply same32_add; [exact A3|apply same32_refl].
Qed.
Lemma moves_trans : forall a b c j k, moves a b j -> moves b c k -> moves a c (j + k).
Proof. intros a b c j k [p A] [q B]. exists (p ++ q). exact (moved_trans a b c p q j k A B). Qed.
Lemma moves0 : forall a b c k, moves a b 0 -> moves b c k -> moves a c k. Proof. intros a b c k A B. exact (moves_trans a b c 0 k A B). Qed.
Lemma moves0' : forall a b c k, moves a b k -> moves b c 0 -> moves a c k. Proof. intros a b c k A B. rewrite <- (N.add_0_r k). exact (moves_trans a b c k 0 A B). Qed.

Lemma scan_moved : forall stop s ln col p r ln' col', scan stop s ln col = (p, r, ln', col') -> s = p ++ r /\ same32 ln' (ln + newlines p).
Proof.
  intros stop s. induction s as [|c s IH]; intros ln col p r ln' col' H; cbn [scan] in H.
  - assert (p = [] /\ r = [] /\ ln' = ln) as (-> & -> & ->) by (repeat split; congruence). split; [reflexivity|]. rewrite N.add_0_r. apply same32_refl.
  - destruct (N.eqb_spec c 10) as [->|Hc].
    + destruct (scan stop s (w32 (ln + 1)) 0) as [[[p' r'] a] b] eqn:E. assert (p = 10 :: p' /\ r = r' /\ ln' = a) as (-> & -> & ->) by (repeat split; congruence).
      destruct (IH _ _ _ _ _ _ E) as [-> K]. split; [reflexivity|]. change (10 :: p') with ([10] ++ p'). rewrite newlines_app, N.add_assoc. eapply same32_trans; [exact K|]. apply same32_add; [apply same32_w32|apply same32_refl].
    + destruct (stop c).
      * assert (p = [] /\ r = c :: s /\ ln' = ln) as (-> & -> & ->) by (repeat split; congruence). split; [reflexivity|]. rewrite N.add_0_r. apply same32_refl.
      * destruct (scan stop s ln (w32 (col + 1))) as [[[p' r'] a] b] eqn:E. assert (p = c :: p' /\ r = r' /\ ln' = a) as (-> & -> & ->) by (repeat split; congruence).
        destruct (IH _ _ _ _ _ _ E) as [-> K]. split; [reflexivity|]. change (c :: p') with ([c] ++ p'). rewrite newlines_app, (newlines_none [c]) by (intros [K'|[]]; congruence). exact K.
Qed.
Lemma offset_len : forall a p, same32 (w32 (a + len32 p)) (a + N.of_nat (length p)).
Proof. intros a p. eapply same32_trans; [apply same32_w32|]. apply same32_add; [apply same32_refl|apply same32_w32]. Qed.

Lemma skip_moves : forall tk m tk', skip_whitespace tk = (m, tk') -> moves tk tk' 0 /\ m = negb (chr (cur tk') =? 0) /\ (forall c s, cur tk' = c :: s -> ~ space c) /\ exists w, spaces w /\ cur tk = w ++ cur tk'.
Proof.
  intros tk m tk' H. unfold skip_whitespace in H. destruct (scan not_space (cur tk) (line (at_ tk)) (column (at_ tk))) as [[[p r] a] b] eqn:E.
  assert (m = negb (chr r =? 0) /\ tk' = Tk r (Loc a b (w32 (offset (at_ tk) + len32 p)))) as [-> ->] by (split; congruence). cbn [cur]. destruct (scan_moved _ _ _ _ _ _ _ _ E) as [E1 E2].
  assert (G : Forall (fun c => space c) p /\ (forall c s, r = c :: s -> ~ space c)).
  { clear -E. revert p r a b E. generalize (line (at_ tk)), (column (at_ tk)). induction (cur tk) as [|c s IH]; intros ln col p r a b E; cbn [scan] in E.
    - assert (p = [] /\ r = []) as [-> ->] by (split; congruence). split; [constructor|discriminate].
    - destruct (N.eqb_spec c 10) as [->|Hc].
      + destruct (scan not_space s (w32 (ln + 1)) 0) as [[[p' r'] a'] b'] eqn:E'. assert (p = 10 :: p' /\ r = r') as [-> ->] by (split; congruence). destruct (IH _ _ _ _ _ _ E') as [G1 G2]. split; [constructor; [unfold space; tauto|exact G1]|exact G2].
      + destruct (not_space c) eqn:Ns.
        * assert (p = [] /\ r = c :: s) as [-> ->] by (split; congruence). split; [constructor|]. intros x y Q. assert (x = c) as -> by congruence. unfold not_space, one_of in Ns. cbn [existsb] in Ns. unfold space. lia.
        * destruct (scan not_space s ln (w32 (col + 1))) as [[[p' r'] a'] b'] eqn:E'. assert (p = c :: p' /\ r = r') as [-> ->] by (split; congruence). destruct (IH _ _ _ _ _ _ E') as [G1 G2].
          split; [constructor; [unfold not_space, one_of in Ns; cbn [existsb] in Ns; unfold space; lia|exact G1]|exact G2]. }
  split; [exists p; split; [exact E1|]; split; [exact E2|]; rewrite N.add_0_r; apply offset_len|]. split; [reflexivity|]. split; [apply G|]. exists p. split; [apply G|exact E1].
Qed.

Lemma advance_moved : forall tk p s, cur tk = p ++ s -> ~ In 10 p -> moved tk (advance tk (length p)) p 0.
Proof.
  intros tk p s H N0. unfold advance. split; [cbn [cur]; rewrite H, skipn_app, skipn_all, Nat.sub_diag; reflexivity|]. cbn [at_ line offset]. split; [rewrite newlines_none by exact N0; rewrite N.add_0_r; apply same32_refl|]. rewrite N.add_0_r. apply same32_w32.
Qed.
Lemma chr_cons : forall s c, chr s = c -> c <> 0 -> exists t, s = c :: t. Proof. intros [|x s] c H N0; cbn in H; [congruence|]. exists s. congruence. Qed.
Lemma advance1 : forall tk c, chr (cur tk) = c -> c <> 0 -> c <> 10 -> moved tk (advance tk 1) [c] 0.
Proof. intros tk c H N0 N1. destruct (chr_cons _ _ H N0) as [t E]. apply (advance_moved tk [c] t E). intros [K|[]]. congruence. Qed.
Lemma advance_starts : forall tk p, starts p (cur tk) = true -> ~ In 10 p -> moved tk (advance tk (length p)) p 0.
Proof. intros tk p H N0. apply starts_begins in H. destruct H as [s E]. exact (advance_moved tk p s E N0). Qed.

Lemma cspn_split : forall stop s p r, cspn stop s = (p, r) -> s = p ++ r /\ Forall (fun c => ~ In c stop) p /\ (forall c t, r = c :: t -> In c stop).
Proof.
  intros stop s. induction s as [|c s IH]; intros p r H; cbn [cspn] in H; [assert (p = [] /\ r = []) as [-> ->] by (split; congruence); repeat split; [constructor|discriminate]|].
  destruct (one_of stop c) eqn:E.
  - assert (p = [] /\ r = c :: s) as [-> ->] by (split; congruence). split; [reflexivity|]. split; [constructor|]. intros x t Q. assert (x = c) as -> by congruence. apply one_of_in, E.
  - destruct (cspn stop s) as [p' r'] eqn:E'. assert (p = c :: p' /\ r = r') as [-> ->] by (split; congruence). destruct (IH p' r' eq_refl) as (-> & F & G). split; [reflexivity|]. split; [constructor; [rewrite <- one_of_in; congruence|exact F]|exact G].
Qed.
Lemma name_moves : forall tk t tk', parse_name tk = Some (t, tk') -> moved tk tk' (t_text t) 0 /\ t_loc t = at_ tk /\ (t_type t = Terror \/ t_type t = Topen /\ t_text t <> []).
Proof.
  intros tk t tk' H. unfold parse_name in H. destruct (cspn _ (cur tk)) as [p r] eqn:E. destruct (name_ok p) as [ok|]; [|discriminate]. destruct (cspn_split _ _ _ _ E) as (Es & F & _).
  set (b := ok && _ && _) in H. assert (t = Token (if b then Topen else Terror) p (Some (chr r)) (at_ tk) (len32 p) /\ tk' = Tk r (Loc (line (at_ tk)) (w32 (column (at_ tk) + len32 p)) (w32 (offset (at_ tk) + len32 p)))) as [-> ->] by (split; congruence).
  cbn [t_text t_loc t_type]. split; [|split; [reflexivity|]].
  - split; [exact Es|]. cbn [at_ line offset]. split; [|rewrite N.add_0_r; apply offset_len]. rewrite newlines_none; [rewrite N.add_0_r; apply same32_refl|]. intros K. rewrite Forall_forall in F. apply (F 10 K). cbn [In]. tauto.
  - destruct b eqn:B; [right|left; reflexivity]. split; [reflexivity|]. intros ->. unfold b in B. rewrite andb_false_r in B. discriminate.
Qed.
Lemma count_moved : forall s ln col a b, count_lines s ln col = (a, b) -> same32 a (ln + newlines s).
Proof.
  intros s. induction s as [|c s IH]; intros ln col a b H; cbn [count_lines] in H; [assert (a = ln) as -> by congruence; rewrite N.add_0_r; apply same32_refl|].
  destruct (N.eqb_spec c 10) as [->|Hc].
  - change (10 :: s) with ([10] ++ s). rewrite newlines_app, N.add_assoc. eapply same32_trans; [exact (IH _ _ _ _ H)|]. apply same32_add; [apply same32_w32|apply same32_refl].
  - change (c :: s) with ([c] ++ s). rewrite newlines_app, (newlines_none [c]) by (intros [K|[]]; congruence). exact (IH _ _ _ _ H).
Qed.
Lemma find_str_split : forall f s p r, find_str f s = Some (p, r) -> s = p ++ r /\ begins f r.
Proof.
  intros f s. induction s as [|c s IH]; intros p r H; cbn [find_str] in H.
  - destruct (starts f []) eqn:E; [|discriminate]. assert (p = [] /\ r = []) as [-> ->] by (split; congruence). split; [reflexivity|apply starts_begins; exact E].
  - destruct (starts f (c :: s)) eqn:E; [assert (p = [] /\ r = c :: s) as [-> ->] by (split; congruence); split; [reflexivity|apply starts_begins; exact E]|].
    destruct (find_str f s) as [[p' r']|]; [|discriminate]. assert (p = c :: p' /\ r = r') as [-> ->] by (split; congruence). destruct (IH p' r' eq_refl) as [-> B]. split; [reflexivity|exact B].
Qed.
(** A token of type [ty] with the text in front of [tk]. *)
Definition token_at (t : token) (tk : tokenizer) : Prop := t_loc t = at_ tk /\ begins (t_text t) (cur tk).
Lemma until_moves : forall tk ty f t tk', ty <> Terror -> parse_until tk ty f = (t, tk') -> t_loc t = at_ tk /\ (t_type t = Terror /\ tk' = tk \/ t_type t = ty /\ moved tk tk' (t_text t ++ f) 0).
Proof.
  intros tk ty f t tk' Hty H. unfold parse_until in H. destruct (find_str f (cur tk)) as [[p r]|] eqn:E.
  - destruct (count_lines (p ++ f) (line (at_ tk)) 0) as [a b] eqn:C. assert (t = Token ty p (Some (chr r)) (at_ tk) (len32 p) /\ tk' = Tk (skipn (length f) r) (Loc a b (w32 (offset (at_ tk) + len32 (p ++ f))))) as [-> ->] by (split; congruence).
    destruct (find_str_split _ _ _ _ E) as [Es [s ->]]. cbn [t_loc t_type t_text]. split; [reflexivity|]. right. split; [reflexivity|]. split; [cbn [cur]; rewrite skipn_app, skipn_all, Nat.sub_diag, <- app_assoc; exact Es|].
    split; [exact (count_moved _ _ _ _ _ C)|]. cbn [at_ offset]. rewrite N.add_0_r. apply offset_len.
  - assert (t = Token Terror [chr (cur tk)] (nth_error (cur tk ++ [0]) 1) (at_ tk) 1 /\ tk' = tk) as [-> ->] by (split; congruence). split; [reflexivity|]. left. split; reflexivity.
Qed.
Lemma moves_of : forall a b p k, moved a b p k -> moves a b k. Proof. intros a b p k H. exists p. exact H. Qed.

Lemma comment_moves : forall tk t tk', parse_comment tk = (t, tk') -> t_loc t = at_ tk /\ moves tk tk' 0 /\ (t_type t = Terror \/ t_type t = Tcomment /\ begins (t_text t) (cur tk)).
Proof.
  intros tk t tk' H. unfold parse_comment in H. destruct (parse_until tk Tcomment [45; 45]) as [t1 tk1] eqn:E. destruct (until_moves _ Tcomment _ _ _ ltac:(discriminate) E) as (L & K).
  assert (M : moves tk tk1 0) by (destruct K as [[_ ->]|[_ K]]; [apply moves_refl|exact (moves_of _ _ _ _ K)]).
  destruct (N.eqb_spec (chr (cur tk1)) 62) as [C|C].
  - assert (t = t1 /\ tk' = advance tk1 1) as [-> ->] by (split; congruence). split; [exact L|]. split; [apply (moves0 _ _ _ _ M), (moves_of _ _ [62]); apply advance1; [exact C|discriminate|discriminate]|].
    destruct K as [[K _]|[K M1]]; [left; exact K|right]. split; [exact K|]. destruct M1 as [M1 _]. rewrite M1, <- app_assoc. eexists. reflexivity.
  - assert (t = with_type t1 Terror /\ tk' = tk1) as [-> ->] by (split; congruence). split; [exact L|]. split; [exact M|]. left. reflexivity.
Qed.
Lemma pi_moves : forall tk t tk', parse_pi tk = (t, tk') -> t_loc t = at_ tk /\ moves tk tk' 0 /\ (t_type t = Terror \/ t_type t = Tpi /\ begins (t_text t) (cur tk)).
Proof.
  intros tk t tk' H. unfold parse_pi in H. destruct (parse_until tk Tpi [63; 62]) as [t1 tk1] eqn:E. destruct (until_moves _ Tpi _ _ _ ltac:(discriminate) E) as (L & K).
  assert (M : moves tk tk1 0) by (destruct K as [[_ ->]|[_ K]]; [apply moves_refl|exact (moves_of _ _ _ _ K)]).
  assert (B : t_type t1 = Terror \/ t_type t1 = Tpi /\ begins (t_text t1) (cur tk)). { destruct K as [[K _]|[K M1]]; [left; exact K|right]. split; [exact K|]. destruct M1 as [M1 _]. rewrite M1, <- app_assoc. eexists. reflexivity. }
  destruct (is_error t1); [assert (t = t1 /\ tk' = tk1) as [-> ->] by (split; congruence); split; [exact L|]; split; assumption|].
  destruct (match t_text t1 with [] => true | _ => false end); [assert (t = with_type t1 Terror /\ tk' = tk1) as [-> ->] by (split; congruence); split; [exact L|]; split; [exact M|left; reflexivity]|].
  match type of H with (if ?b then _ else _) = _ => destruct b end;
    [assert (t = with_type t1 Terror /\ tk' = tk1) as [-> ->] by (split; congruence); split; [exact L|]; split; [exact M|left; reflexivity]|assert (t = t1 /\ tk' = tk1) as [-> ->] by (split; congruence); split; [exact L|]; split; assumption].
Qed.
Lemma contents_moves : forall tk t tk', parse_contents tk = (t, tk') -> t_loc t = at_ tk /\ moved tk tk' (t_text t) 0 /\ (t_type t = Terror \/ t_type t = Tcontents /\ exists s, cur tk' = 60 :: s).
Proof.
  intros tk t tk' H. unfold parse_contents in H. destruct (scan (N.eqb 60) (cur tk) (line (at_ tk)) (column (at_ tk))) as [[[p r] a] b] eqn:E. destruct (scan_moved _ _ _ _ _ _ _ _ E) as [E1 E2].
  assert (t = Token (match r with [] => Terror | _ => Tcontents end) p (Some (chr r)) (at_ tk) (len32 p) /\ tk' = Tk r (Loc a b (w32 (offset (at_ tk) + len32 p)))) as [-> ->] by (split; congruence). cbn [t_loc t_text t_type cur].
  split; [reflexivity|]. split; [split; [exact E1|]; split; [exact E2|]; rewrite N.add_0_r; apply offset_len|]. destruct r as [|c r]; [left; reflexivity|right]. split; [reflexivity|].
  clear -E. revert p r a b c E. generalize (line (at_ tk)), (column (at_ tk)). induction (cur tk) as [|x s IH]; intros ln col p r a b c E; cbn [scan] in E; [congruence|].
  destruct (x =? 10). { destruct (scan (N.eqb 60) s (w32 (ln + 1)) 0) as [[[p' r'] a'] b'] eqn:E'. assert (r' = c :: r) as -> by congruence. exact (IH _ _ _ _ _ _ _ E'). }
  destruct (N.eqb_spec 60 x) as [<-|Hx]. { eexists. assert (c :: r = 60 :: s) as -> by congruence. reflexivity. }
  destruct (scan (N.eqb 60) s ln (w32 (col + 1))) as [[[p' r'] a'] b'] eqn:E'. assert (r' = c :: r) as -> by congruence. exact (IH _ _ _ _ _ _ _ E').
Qed.
Lemma value_moves : forall tk t tk', parse_attribute_value tk = (t, tk') -> t_loc t = at_ tk /\
  (t_type t = Terror \/ t_type t = Tattr_value /\ moves tk tk' 1 /\ (length (cur tk') < length (cur tk))%nat).
Proof.
  intros tk t tk' H. unfold parse_attribute_value in H. destruct ((chr (cur tk) =? 34) || (chr (cur tk) =? 39)) eqn:Q.
  2:{ assert (t = make_error tk) as -> by congruence. split; [reflexivity|]. left. reflexivity. }
  set (q := chr (cur tk)) in *. destruct (scan (N.eqb q) (tl (cur tk)) (line (at_ tk)) (column (at_ tk))) as [[[p r] a] b] eqn:E. destruct (scan_moved _ _ _ _ _ _ _ _ E) as [E1 E2].
  destruct r as [|c r].
  - assert (t = Token Terror p (Some 0) (at_ tk) (len32 p)) as -> by congruence. split; [reflexivity|]. left. reflexivity.
  - assert (t = Token Tattr_value p (Some c) (at_ tk) (len32 p) /\ tk' = Tk r (Loc a (w32 (b + 1)) (w32 (offset (at_ tk) + (len32 p + 1))))) as [-> ->] by (split; congruence).
    split; [reflexivity|]. right. split; [reflexivity|].
    assert (Hq : exists s, cur tk = q :: s) by (apply chr_cons; [reflexivity|lia]). destruct Hq as [s Hq]. rewrite Hq in E1. cbn [tl] in E1. subst s.
    assert (Hc : c <> 10).
    { clear -E. intros ->. revert p r a b E. generalize (line (at_ tk)), (column (at_ tk)). induction (tl (cur tk)) as [|x s IH]; intros ln col p r a b E; cbn [scan] in E; [congruence|].
      destruct (N.eqb_spec x 10) as [->|Hx]. { destruct (scan (N.eqb q) s (w32 (ln + 1)) 0) as [[[p' r'] a'] b'] eqn:E'. assert (r' = 10 :: r) as -> by congruence. exact (IH _ _ _ _ _ _ E'). }
      destruct (q =? x). { congruence. } destruct (scan (N.eqb q) s ln (w32 (col + 1))) as [[[p' r'] a'] b'] eqn:E'. assert (r' = 10 :: r) as -> by congruence. exact (IH _ _ _ _ _ _ E'). }
    split; [|cbn [cur]; rewrite Hq; cbn [length]; rewrite app_length; cbn [length]; lia].
    exists ([q] ++ p ++ [c]). split; [cbn [cur]; rewrite Hq; cbn [app]; rewrite <- app_assoc; reflexivity|]. cbn [at_ line offset]. split.
    + rewrite !newlines_app, (newlines_none [q]), (newlines_none [c]), N.add_0_r by (intros [K|[]]; lia). exact E2.
    + rewrite !app_length. cbn [length]. eapply same32_trans; [apply same32_add; [apply same32_w32|apply same32_refl]|]. replace (offset (at_ tk) + N.of_nat (1 + (length p + 1))) with (offset (at_ tk) + (N.of_nat (length p) + 1) + 1) by lia.
      apply same32_add; [|apply same32_refl]. apply same32_add; [apply same32_refl|]. apply same32_add; [apply same32_w32|apply same32_refl].
Qed.

(** ** Processing the text of a token *)
Lemma process_same : forall alloc f r ok r', process_twice alloc f r = Some (ok, r') -> same r r' /\ (if ok then t_type (r_current r') = t_type (r_current r) else t_type (r_current r') = Terror).
Proof.
  intros alloc f r ok r' H. unfold process_twice in H. destruct (f (repeat 0 (buffer_size r))) as [[[ok1 n] b]|]; [|discriminate]. destruct ok1.
  - destruct (buffer_size r <=? n)%nat.
    + unfold assert_ in H. destruct (buffer_size r <? n)%nat; [|discriminate]. destruct (alloc n).
      * destruct (f (repeat 0 n)) as [[[ok2 n2] b2]|]; [|discriminate]. destruct ok2.
        -- destruct (n2 <? n)%nat; [|discriminate]. assert (ok = true /\ r' = with_current (with_buffer r n) (text_of (r_current (with_buffer r n)) (firstn n2 b2, nth_error b2 n2))) as [-> ->] by (split; congruence). repeat split.
        -- assert (ok = false /\ r' = with_current (with_buffer r n) (with_type (r_current (with_buffer r n)) Terror)) as [-> ->] by (split; congruence). repeat split.
      * assert (ok = false /\ r' = with_current r (with_type (r_current r) Terror)) as [-> ->] by (split; congruence). repeat split.
    + assert (ok = true /\ r' = with_current r (text_of (r_current r) (firstn n b, nth_error b n))) as [-> ->] by (split; congruence). repeat split.
  - assert (ok = false /\ r' = with_current r (with_type (r_current r) Terror)) as [-> ->] by (split; congruence). repeat split.
Qed.
Lemma unescape_same : forall alloc r ok r', unescape_current_token alloc r = Some (ok, r') -> same r r' /\ (if ok then t_type (r_current r') = t_type (r_current r) else t_type (r_current r') = Terror).
Proof.
  intros alloc r ok r' H. unfold unescape_current_token in H. set (v := trims _ _) in H. set (r1 := with_current r _) in H. destruct (fst v).
  - assert (ok = true /\ r' = r1) as [-> ->] by (split; congruence). repeat split.
  - destruct (process_same _ _ _ _ _ H) as [Sm T]. split; [exact Sm|]. exact T.
Qed.
Lemma cdata_same : forall alloc r ok r', process_cdata alloc r = Some (ok, r') -> same r r' /\ (if ok then t_type (r_current r') = t_type (r_current r) else t_type (r_current r') = Terror \/ t_type (r_current r') = t_type (r_current r)).
Proof.
  intros alloc r ok r' H. unfold process_cdata in H. set (v := trims _ _) in H. set (r1 := with_current r _) in H. destruct (fst v).
  - assert (ok = true /\ r' = r1) as [-> ->] by (split; congruence). repeat split.
  - destruct (reduce_flag _).
    + destruct (process_same _ _ _ _ _ H) as [Sm T]. split; [exact Sm|]. destruct ok; [exact T|left; exact T].
    + destruct (is_valid_xml_string _) as [ok1|]; [|discriminate]. assert (ok = ok1 /\ r' = r1) as [-> ->] by (split; congruence). split; [repeat split|]. destruct ok1; [reflexivity|right; reflexivity].
Qed.

(** ** One call *)
Section Calls.
Variable alloc : nat -> bool.
Variable doc : list N.

Definition stands (k : N) (tk : tokenizer) : Prop := moves (Tk doc (Loc 0 0 0)) tk k.
Definition located (k : N) (t : token) : Prop :=
  exists tk, stands k tk /\ t_loc t = at_ tk /\ (In (t_type t) [Topen; Tattr_name; Tpi] -> begins (t_text t) (cur tk)).
Definition nest (st : state) (r : reader) : Prop :=
  match st with
  | SProlog => (r_context r = Xnone \/ r_context r = Xcontent) /\ r_depth r = 0 /\ r_root r = false
  | STag d => r_root r = true /\ (r_context r = Xcontent /\ r_depth r = d /\ 0 < d \/ r_context r = Xinside_tag /\ d = r_depth r + 1)
  | SValue d => r_root r = true /\ r_context r = Xattr_name /\ d = r_depth r + 1
  | SBody d => r_root r = true /\ r_context r = Xcontent /\ r_depth r = d /\ 0 < d
  | SEpilog => r_root r = true /\ r_context r = Xpost_root /\ r_depth r = 0
  | SEnd => r_context r = Xeof /\ chr (cur (r_tk r)) = 0 /\ t_loc (r_current r) = at_ (r_tk r)
  | SStop => False
  end.
Definition lag (t : ttype) : N := match t with Tattr_value => 1 | _ => 0 end.
(** The outcome of a call in the state [st] with [n] bytes left to read. *)
Definition good (st : state) (k : N) (n : nat) (r' : reader) : Prop :=
  exists st', follows st (t_type (r_current r')) st' /\ located k (r_current r') /\
    (st' = SStop \/ r_context r' = Xerror \/
     nest st' r' /\ stands (k + lag (t_type (r_current r'))) (r_tk r') /\ (st' = SEnd \/ (length (cur (r_tk r')) < n)%nat)).

Lemma stands_moves : forall k tk tk', stands k tk -> moves tk tk' 0 -> stands k tk'. Proof. intros k tk tk' A B. exact (moves0' _ _ _ _ A B). Qed.
Lemma located_same : forall k r r', same r r' -> located k (r_current r) -> ~ In (t_type (r_current r')) [Topen; Tattr_name; Tpi] -> located k (r_current r').
Proof. intros k r r' (_ & _ & _ & _ & _ & _ & L & _) (tk & A & B & _) N0. exists tk. split; [exact A|]. split; [congruence|]. intros K. contradiction. Qed.
Lemma located_error : forall k tk, stands k tk -> located k (make_error tk).
Proof. intros k tk H. exists tk. split; [exact H|]. split; [reflexivity|]. intros K. cbn in K. destruct K as [K|[K|[K|[]]]]; discriminate. Qed.
Lemma located_plain : forall k tk t, stands k tk -> t_loc t = at_ tk -> ~ In (t_type t) [Topen; Tattr_name; Tpi] -> located k t.
Proof. intros k tk t H L N0. exists tk. split; [exact H|]. split; [exact L|]. intros K. contradiction. Qed.
Lemma good_error : forall st k n r, t_type (r_current r) = Terror -> located k (r_current r) -> good st k n r.
Proof. intros st k n r T L. exists SStop. rewrite T. split; [apply F_error|]. split; [exact L|]. left. reflexivity. Qed.

Lemma moves_length : forall a b k, moves a b k -> (length (cur b) <= length (cur a))%nat. Proof. intros a b k (p & -> & _). rewrite app_length. lia. Qed.

(** Contents and markup: the reader [r] was reset, its context is the error. *)
Definition inside (st : state) (r : reader) : Prop :=
  st = SProlog /\ r_depth r = 0 /\ r_root r = false \/ (exists d, (st = STag d \/ st = SBody d) /\ r_depth r = d /\ 0 < d /\ r_root r = true).
Definition reset (k : N) (r : reader) : Prop := r_context r = Xerror /\ t_type (r_current r) = Terror /\ located k (r_current r).

Lemma body_after : forall st r t r', inside st r -> In t [Tcomment; Tpi] \/ In t [Tcontents; Tcdata] /\ 0 < r_depth r ->
  r_context r' = Xcontent -> r_depth r' = r_depth r -> r_root r' = r_root r -> exists st', follows st t st' /\ nest st' r'.
Proof.
  intros st r t r' [(-> & D & R)|(d & S & D & P & R)] T X D' R'.
  - exists SProlog. split; [apply F_misc; [left; reflexivity|destruct T as [T|[_ T]]; [exact T|lia]]|]. cbn [nest]. rewrite X, D', R'. tauto.
  - exists (SBody d). split; [apply (F_body d); [exact S|]; destruct T as [T|[T _]]; cbn [In] in *; tauto|]. cbn [nest]. rewrite X, D', R'. tauto.
Qed.
Lemma good_body : forall st k n r t r', inside st r -> In t [Tcomment; Tpi] \/ In t [Tcontents; Tcdata] /\ 0 < r_depth r ->
  t_type (r_current r') = t -> located k (r_current r') -> r_depth r' = r_depth r -> r_root r' = r_root r ->
  r_context r' = Xerror \/ r_context r' = Xcontent /\ stands k (r_tk r') /\ (length (cur (r_tk r')) < n)%nat -> good st k n r'.
Proof.
  intros st k n r t r' I T Tt L D R K.
  destruct K as [X|(X & S & Len)].
  - destruct (body_after st r t (with_context r' Xcontent) I T eq_refl D R) as (st' & F & _). exists st'. rewrite Tt. split; [exact F|]. split; [exact L|]. right. left. exact X.
  - destruct (body_after st r t r' I T X D R) as (st' & F & Ne). exists st'. rewrite Tt. split; [exact F|]. split; [exact L|]. right. right. split; [exact Ne|].
    replace (lag t) with 0 by (destruct T as [T|[T _]]; cbn [In] in T; destruct T as [<-|[<-|[]]]; reflexivity). rewrite N.add_0_r. split; [assumption|right; assumption].
Qed.

Lemma markup_good : forall st k n r tk more r' s, inside st r -> reset k r -> stands k tk -> cur tk = 60 :: s -> (length (cur tk) <= n)%nat ->
  markup alloc r tk = Some (more, r') -> more = true /\ good st k n r'.
Proof.
  intros st k n r tk more r' s I (RX & RT & RL) Sd Ec Hn H. unfold markup in H.
  assert (M1 : moved tk (advance tk 1) [60] 0) by (apply advance1; [rewrite Ec; reflexivity|discriminate|discriminate]).
  assert (C1 : cur (advance tk 1) = s) by (unfold advance; cbn [cur]; rewrite Ec; reflexivity).
  assert (S1 : stands k (advance tk 1)) by exact (stands_moves _ _ _ Sd (moves_of _ _ _ _ M1)).
  assert (L1 : (length (cur (advance tk 1)) < n)%nat) by (rewrite C1; rewrite Ec in Hn; cbn [length] in Hn; lia).
  set (tk1 := advance tk 1) in *. clearbody tk1. clear M1 Ec Sd.
  destruct (N.eqb_spec (chr (cur tk1)) 0) as [_|Z0]. { assert (more = true /\ r' = r) as [-> ->] by (split; congruence). split; [reflexivity|]. apply good_error; assumption. }
  destruct (N.eqb_spec (chr (cur tk1)) 33) as [Z1|Z1].
  { assert (M2 : moved tk1 (advance tk1 1) [33] 0) by (apply advance1; [exact Z1|discriminate|discriminate]). assert (S2 : stands k (advance tk1 1)) by exact (stands_moves _ _ _ S1 (moves_of _ _ _ _ M2)).
    pose proof (moves_length _ _ _ (moves_of _ _ _ _ M2)) as L2. set (tk2 := advance tk1 1) in *. clearbody tk2.
    destruct (starts [45; 45] (cur tk2)) eqn:Z2.
    { apply advance_starts in Z2; [|intros [K|[K|[]]]; discriminate]. cbn [length] in Z2. destruct (parse_comment (advance tk2 2)) as [t tk3] eqn:P. destruct (comment_moves _ _ _ P) as (Lt & M3 & K).
      assert (S3 : stands k (advance tk2 2)) by exact (stands_moves _ _ _ S2 (moves_of _ _ _ _ Z2)). pose proof (moves_length _ _ _ (moves_of _ _ _ _ Z2)). pose proof (moves_length _ _ _ M3).
      unfold is_error in H. destruct K as [K|[K _]]; rewrite K in H.
      - assert (more = true /\ r' = with_current r t) as [-> ->] by (split; congruence). split; [reflexivity|]. apply good_error; [exact K|]. apply (located_plain k (advance tk2 2)); [exact S3|exact Lt|cbn [r_current with_current]; rewrite K; intros [Q|[Q|[Q|[]]]]; discriminate].
      - destruct (unescape_current_token alloc (with_current r t)) as [[ok r2]|] eqn:U; [|discriminate]. destruct (unescape_same _ _ _ _ U) as [Sm Ty]. pose proof Sm as (Q1 & Q2 & Q3 & Q4 & Q5 & Q6 & _).
        assert (Lc : located k t) by (apply (located_plain k (advance tk2 2)); [exact S3|exact Lt|rewrite K; intros [Q|[Q|[Q|[]]]]; discriminate]).
        destruct ok.
        + cbn [r_current with_current] in Ty. rewrite K in Ty. assert (more = true /\ r' = with_tk (with_context r2 Xcontent) tk3) as [-> ->] by (split; congruence). split; [reflexivity|].
          apply (good_body st k n r Tcomment); [exact I|left; left; reflexivity|exact Ty| |exact Q4|exact Q6|right; split; [reflexivity|]; split; [exact (stands_moves _ _ _ S3 M3)|cbn [with_tk r_tk]; lia]].
          apply (located_same k _ r2 Sm Lc). rewrite Ty. intros [Q|[Q|[Q|[]]]]; discriminate.
        + assert (more = true /\ r' = r2) as [-> ->] by (split; congruence). split; [reflexivity|]. apply good_error; [exact Ty|]. apply (located_same k _ r2 Sm Lc). rewrite Ty. intros [Q|[Q|[Q|[]]]]; discriminate. }
    destruct (starts [91; 67; 68; 65; 84; 65; 91] (cur tk2)) eqn:Z3.
    { apply advance_starts in Z3; [|intros K; repeat destruct K as [K|K]; try discriminate; exact K]. cbn [length] in Z3.
      assert (S3 : stands k (advance tk2 7)) by exact (stands_moves _ _ _ S2 (moves_of _ _ _ _ Z3)). pose proof (moves_length _ _ _ (moves_of _ _ _ _ Z3)).
      destruct (N.ltb_spec 0 (r_depth r)) as [Dp|Dp].
      2:{ assert (more = true /\ r' = with_tk r (advance tk2 7)) as [-> ->] by (split; congruence). split; [reflexivity|]. apply good_error; assumption. }
      destruct (parse_until (advance tk2 7) Tcdata [93; 93; 62]) as [t tk3] eqn:P. destruct (until_moves _ Tcdata _ _ _ ltac:(discriminate) P) as (Lt & K). unfold is_error in H.
      destruct K as [[K _]|[K M3]]; rewrite K in H.
      - assert (more = true /\ r' = with_current r t) as [-> ->] by (split; congruence). split; [reflexivity|]. apply good_error; [exact K|]. apply (located_plain k (advance tk2 7)); [exact S3|exact Lt|cbn [r_current with_current]; rewrite K; intros [Q|[Q|[Q|[]]]]; discriminate].
      - pose proof (moves_length _ _ _ (moves_of _ _ _ _ M3)). destruct (process_cdata alloc (with_current r t)) as [[ok r2]|] eqn:U; [|discriminate]. destruct (cdata_same _ _ _ _ U) as [Sm Ty]. pose proof Sm as (Q1 & Q2 & Q3 & Q4 & Q5 & Q6 & _).
        assert (Lc : located k t) by (apply (located_plain k (advance tk2 7)); [exact S3|exact Lt|rewrite K; intros [Q|[Q|[Q|[]]]]; discriminate]).
        cbn [r_current with_current] in Ty. rewrite K in Ty. destruct ok.
        + assert (more = true /\ r' = with_tk (with_context r2 Xcontent) tk3) as [-> ->] by (split; congruence). split; [reflexivity|].
          apply (good_body st k n r Tcdata); [exact I|right; split; [right; left; reflexivity|exact Dp]|exact Ty| |exact Q4|exact Q6|right; split; [reflexivity|]; split; [exact (stands_moves _ _ _ S3 (moves_of _ _ _ _ M3))|cbn [with_tk r_tk]; lia]].
          apply (located_same k _ r2 Sm Lc). rewrite Ty. intros [Q|[Q|[Q|[]]]]; discriminate.
        + assert (more = true /\ r' = r2) as [-> ->] by (split; congruence). split; [reflexivity|]. destruct Ty as [Ty|Ty].
          * apply good_error; [exact Ty|]. apply (located_same k _ r2 Sm Lc). rewrite Ty. intros [Q|[Q|[Q|[]]]]; discriminate.
          * apply (good_body st k n r Tcdata); [exact I|right; split; [right; left; reflexivity|exact Dp]|exact Ty| |exact Q4|exact Q6|left; etransitivity; [exact Q3|exact RX]].
            apply (located_same k _ r2 Sm Lc). rewrite Ty. intros [Q|[Q|[Q|[]]]]; discriminate. }
    assert (more = true /\ r' = r) as [-> ->] by (split; congruence). split; [reflexivity|]. apply good_error; assumption. }
  destruct (N.eqb_spec (chr (cur tk1)) 63) as [Z2|Z2].
  { assert (M2 : moved tk1 (advance tk1 1) [63] 0) by (apply advance1; [exact Z2|discriminate|discriminate]). assert (S2 : stands k (advance tk1 1)) by exact (stands_moves _ _ _ S1 (moves_of _ _ _ _ M2)).
    pose proof (moves_length _ _ _ (moves_of _ _ _ _ M2)) as L2. destruct (parse_pi (advance tk1 1)) as [t tk3] eqn:P. destruct (pi_moves _ _ _ P) as (Lt & M3 & K). pose proof (moves_length _ _ _ M3).
    unfold is_error in H. destruct K as [K|[K B]]; rewrite K in H.
    - assert (more = true /\ r' = with_current r t) as [-> ->] by (split; congruence). split; [reflexivity|]. apply good_error; [exact K|]. apply (located_plain k (advance tk1 1)); [exact S2|exact Lt|cbn [r_current with_current]; rewrite K; intros [Q|[Q|[Q|[]]]]; discriminate].
    - destruct (is_valid_xml_string (t_text t)) as [ok|]; [|discriminate]. destruct ok.
      + assert (more = true /\ r' = with_tk (with_context (with_current r t) Xcontent) tk3) as [-> ->] by (split; congruence). split; [reflexivity|].
        apply (good_body st k n r Tpi); [exact I|left; right; left; reflexivity|exact K| |reflexivity|reflexivity|right; split; [reflexivity|]; split; [exact (stands_moves _ _ _ S2 M3)|cbn [with_tk r_tk]; lia]].
        exists (advance tk1 1). split; [exact S2|]. split; [exact Lt|]. intros _. exact B.
      + assert (more = true /\ r' = with_current (with_current r t) (with_type t Terror)) as [-> ->] by (split; congruence). split; [reflexivity|]. apply good_error; [reflexivity|].
        apply (located_plain k (advance tk1 1)); [exact S2|exact Lt|intros [Q|[Q|[Q|[]]]]; discriminate]. }
  destruct (N.eqb_spec (chr (cur tk1)) 47) as [Z3|Z3].
  { assert (M2 : moved tk1 (advance tk1 1) [47] 0) by (apply advance1; [exact Z3|discriminate|discriminate]). assert (S2 : stands k (advance tk1 1)) by exact (stands_moves _ _ _ S1 (moves_of _ _ _ _ M2)).
    pose proof (moves_length _ _ _ (moves_of _ _ _ _ M2)) as L2. destruct (parse_name (advance tk1 1)) as [[t tk3]|] eqn:P; [|discriminate]. destruct (name_moves _ _ _ P) as (M3 & Lt & K). pose proof (moves_length _ _ _ (moves_of _ _ _ _ M3)).
    set (r2 := with_current r (with_type t Tclose)) in H.
    assert (Lc : located k (with_type t Tclose)) by (apply (located_plain k (advance tk1 1)); [exact S2|exact Lt|intros [Q|[Q|[Q|[]]]]; discriminate]).
    assert (Close : exists st', follows st Tclose st' /\ (st' = SStop /\ r_depth r = 0 \/ exists d, st' = closed d /\ r_depth r = d + 1 /\ r_root r = true)).
    { destruct I as [(-> & D & R)|(d & S & D & Ps & R)]; [exists SStop; split; [apply F_stray|left; split; [reflexivity|exact D]]|].
      exists (closed (d - 1)). split; [apply F_close; replace (d - 1 + 1) with d by lia; exact S|]. right. exists (d - 1). split; [reflexivity|]. split; [lia|exact R]. }
    destruct (skip_whitespace tk3) as [m tk4] eqn:W. destruct (skip_moves _ _ _ W) as (M4 & _ & _). pose proof (moves_length _ _ _ M4). destruct m.
    2:{ assert (more = true /\ r' = r2) as [-> ->] by (split; congruence). split; [reflexivity|]. destruct Close as (st' & F & _). exists st'. split; [exact F|]. split; [exact Lc|]. right. left. exact RX. }
    assert (S4 : stands k tk4) by exact (stands_moves _ _ _ (stands_moves _ _ _ S2 (moves_of _ _ _ _ M3)) M4).
    destruct (N.eqb_spec (chr (cur tk4)) 62) as [Z4|Z4].
    2:{ assert (more = true /\ r' = with_current r2 (make_error tk4)) as [-> ->] by (split; congruence). split; [reflexivity|]. apply good_error; [reflexivity|apply located_error; exact S4]. }
    assert (M5 : moved tk4 (advance tk4 1) [62] 0) by (apply advance1; [exact Z4|discriminate|discriminate]). pose proof (moves_length _ _ _ (moves_of _ _ _ _ M5)).
    cbn [r_depth with_context r2 with_current with_depth] in H. destruct Close as (st' & F & [[-> D]|(d & -> & D & R)]).
    - rewrite D in H. change (0 =? 0) with true in H. cbv iota in H. assert (more = true /\ r' = with_context r2 Xcontent) as [-> ->] by (split; congruence). split; [reflexivity|]. exists SStop. split; [exact F|]. split; [exact Lc|left; reflexivity].
    - rewrite D in H. rewrite (proj2 (N.eqb_neq (d + 1) 0)) in H by lia. rewrite N.add_sub in H. injection H as <- <-. split; [reflexivity|]. exists (closed d). unfold closed in *. destruct (N.eqb_spec d 0) as [->|Hd].
      all: split; [exact F|]; split; [exact Lc|]; right; right; split; [cbn [nest r_root r_context r_depth with_tk with_context with_depth with_current]; repeat split; try assumption; lia|split; [cbn [lag t_type]; rewrite N.add_0_r; exact (stands_moves _ _ _ S4 (moves_of _ _ _ _ M5))|right; cbn [with_tk r_tk]; lia]]. }
  destruct (parse_name tk1) as [[t tk3]|] eqn:P; [|discriminate]. destruct (name_moves _ _ _ P) as (M3 & Lt & K). pose proof (moves_length _ _ _ (moves_of _ _ _ _ M3)). unfold is_error in H.
  destruct K as [K|[K _]]; rewrite K in H.
  { assert (more = true /\ r' = with_tk (with_current r t) tk3) as [-> ->] by (split; congruence). split; [reflexivity|]. apply good_error; [exact K|]. apply (located_plain k tk1); [exact S1|exact Lt|cbn [r_current with_current with_tk]; rewrite K; intros [Q|[Q|[Q|[]]]]; discriminate]. }
  assert (Lc : located k t) by (exists tk1; split; [exact S1|]; split; [exact Lt|]; intros _; destruct M3 as [M3 _]; rewrite M3; eexists; reflexivity).
  assert (Open : follows st Topen (STag (r_depth r + 1))).
  { destruct I as [(-> & D & R)|(d & S & D & Ps & R)]; [rewrite D; apply F_root|]. rewrite D. apply F_open. exact S. }
  destruct (skip_whitespace tk3) as [m tk4] eqn:W. destruct (skip_moves _ _ _ W) as (M4 & _ & _). pose proof (moves_length _ _ _ M4).
  assert (S4 : stands k tk4) by exact (stands_moves _ _ _ (stands_moves _ _ _ S1 (moves_of _ _ _ _ M3)) M4). destruct m.
  2:{ assert (more = true /\ r' = with_current r t) as [-> ->] by (split; congruence). split; [reflexivity|]. exists (STag (r_depth r + 1)). cbn [r_current with_current]. rewrite K. split; [exact Open|]. split; [exact Lc|]. right. left. exact RX. }
  destruct (N.eqb_spec (chr (cur tk4)) 62) as [Z4|Z4].
  - assert (M5 : moved tk4 (advance tk4 1) [62] 0) by (apply advance1; [exact Z4|discriminate|discriminate]). pose proof (moves_length _ _ _ (moves_of _ _ _ _ M5)). injection H as <- <-. split; [reflexivity|].
    exists (STag (r_depth r + 1)). cbn [r_current with_current with_tk with_root with_depth with_context]. rewrite K. split; [exact Open|]. split; [exact Lc|]. right. right. split; [cbn; split; [reflexivity|left; repeat split; lia]|]. cbn [lag]. rewrite N.add_0_r. split; [exact (stands_moves _ _ _ S4 (moves_of _ _ _ _ M5))|right; cbn [with_tk r_tk]; lia].
  - destruct (chr (cur tk4) =? 47); injection H as <- <-; (split; [reflexivity|]); exists (STag (r_depth r + 1)); cbn [r_current with_current with_tk with_root with_depth with_context with_tag]; rewrite K; (split; [exact Open|]); (split; [exact Lc|]); right; right;
      (split; [cbn; split; [reflexivity|right; split; reflexivity]|]); cbn [lag]; rewrite N.add_0_r; (split; [exact S4|right; cbn [with_tk r_tk]; lia]).
Qed.

Lemma content_good : forall st k n r tk more r', inside st r -> reset k r -> stands k tk -> (length (cur tk) <= n)%nat ->
  XmlModel.content alloc r tk = Some (more, r') -> more = true /\ good st k n r'.
Proof.
  intros st k n r tk more r' I R Sd Hn H. pose proof R as (RX & RT & RL). unfold XmlModel.content in H.
  destruct (N.eqb_spec (chr (cur tk)) 0) as [Z0|Z0].
  { assert (Q : r_root r && (r_depth r =? 0) = false) by (destruct I as [(_ & _ & ->)|(d & _ & D & P & _)]; [reflexivity|]; rewrite (proj2 (N.eqb_neq (r_depth r) 0)) by lia; apply andb_false_r). rewrite Q in H.
    assert (more = true /\ r' = r) as [-> ->] by (split; congruence). split; [reflexivity|]. apply good_error; assumption. }
  destruct (N.eqb_spec (chr (cur tk)) 60) as [Z1|Z1]. { destruct (chr_cons _ _ Z1) as [s Es]; [discriminate|]. exact (markup_good st k n r tk more r' s I R Sd Es Hn H). }
  destruct (negb (r_root r) || (r_depth r =? 0)) eqn:Q.
  { destruct (skip_whitespace tk) as [m tk2] eqn:W. destruct (skip_moves _ _ _ W) as (M & _ & _). pose proof (moves_length _ _ _ M). destruct m; [|assert (more = true /\ r' = r) as [-> ->] by (split; congruence); split; [reflexivity|]; apply good_error; assumption].
    destruct (N.eqb_spec (chr (cur tk2)) 60) as [Z2|Z2]; [|assert (more = true /\ r' = with_tk r tk2) as [-> ->] by (split; congruence); split; [reflexivity|]; apply good_error; assumption].
    destruct (chr_cons _ _ Z2) as [s Es]; [discriminate|]. apply (markup_good st k n (with_tk r tk2) tk2 more r' s); try assumption; [exact (stands_moves _ _ _ Sd M)|lia]. }
  assert (Dp : 0 < r_depth r) by (destruct I as [(_ & _ & Rt)|(d & _ & D & P & _)]; [rewrite Rt in Q; discriminate|lia]).
  destruct (parse_contents tk) as [t tk2] eqn:P. destruct (contents_moves _ _ _ P) as (Lt & M & K). unfold is_error in H.
  destruct K as [K|[K [s Es]]]; rewrite K in H.
  { assert (more = true /\ r' = with_current r t) as [-> ->] by (split; congruence). split; [reflexivity|]. apply good_error; [exact K|]. apply (located_plain k tk); [exact Sd|exact Lt|cbn [r_current with_current]; rewrite K; intros [G|[G|[G|[]]]]; discriminate]. }
  assert (Lc : located k t) by (apply (located_plain k tk); [exact Sd|exact Lt|rewrite K; intros [G|[G|[G|[]]]]; discriminate]).
  assert (Len : (length (cur tk2) < length (cur tk))%nat). { destruct M as [M _]. rewrite M, app_length. destruct (t_text t) as [|x y]; [|cbn [length]; lia]. cbn [app] in M. rewrite M, Es in Z1. contradiction. }
  pose proof (stands_moves _ _ _ Sd (moves_of _ _ _ _ M)) as S2.
  destruct (unescape_current_token alloc (with_current r t)) as [[ok r2]|] eqn:U; [|discriminate]. destruct (unescape_same _ _ _ _ U) as [Sm Ty]. pose proof Sm as (Q1 & Q2 & Q3 & Q4 & Q5 & Q6 & _). cbn [r_current with_current] in Ty. rewrite K in Ty.
  destruct ok.
  - destruct ((trim_left_flag (r_flags r2) || trim_right_flag (r_flags r2)) && match t_text (r_current r2) with [] => true | _ => false end).
    + apply (markup_good st k n (with_current r2 (make_error tk2)) tk2 more r' s).
      * destruct I as [(A & B & C)|(d & A & B & C & D)]; [left|right; exists d]; repeat split; try assumption; cbn [r_depth r_root with_current] in *; congruence.
      * split; [etransitivity; [exact Q3|exact RX]|]. split; [reflexivity|]. apply located_error. exact S2.
      * exact S2.
      * exact Es.
      * lia.
      * exact H.
    + assert (more = true /\ r' = with_tk (with_context r2 Xcontent) tk2) as [-> ->] by (split; congruence). split; [reflexivity|].
      apply (good_body st k n r Tcontents); [exact I|right; split; [left; reflexivity|exact Dp]|exact Ty| |exact Q4|exact Q6|right; split; [reflexivity|]; split; [exact S2|cbn [with_tk r_tk]; lia]].
      apply (located_same k _ r2 Sm Lc). rewrite Ty. intros [G|[G|[G|[]]]]; discriminate.
  - assert (more = true /\ r' = r2) as [-> ->] by (split; congruence). split; [reflexivity|]. apply good_error; [exact Ty|]. apply (located_same k _ r2 Sm Lc). rewrite Ty. intros [G|[G|[G|[]]]]; discriminate.
Qed.

Lemma inside_tag_good : forall d k r tk more r', r_root r = true -> d = r_depth r + 1 -> reset k r -> stands k tk -> inside_tag r tk = Some (more, r') -> more = true /\ good (STag d) k (length (cur tk)) r'.
Proof.
  intros d k r tk more r' Rt Hd (RX & RT & RL) Sd H. unfold inside_tag in H. destruct (N.eqb_spec (chr (cur tk)) 47) as [Z0|Z0].
  - assert (M1 : moved tk (advance tk 1) [47] 0) by (apply advance1; [exact Z0|discriminate|discriminate]). pose proof (stands_moves _ _ _ Sd (moves_of _ _ _ _ M1)) as S1.
    assert (L1 : (length (cur (advance tk 1)) < length (cur tk))%nat) by (destruct M1 as [M1 _]; rewrite M1, app_length; cbn [length]; lia). set (tk1 := advance tk 1) in *. clearbody tk1.
    destruct (N.eqb_spec (chr (cur tk1)) 62) as [Z1|Z1].
    + assert (M2 : moved tk1 (advance tk1 1) [62] 0) by (apply advance1; [exact Z1|discriminate|discriminate]). pose proof (stands_moves _ _ _ S1 (moves_of _ _ _ _ M2)) as S2. pose proof (moves_length _ _ _ (moves_of _ _ _ _ M2)).
      injection H as <- <-. split; [reflexivity|]. exists (closed (r_depth r)). cbn [r_current with_tk with_tag with_current with_context t_type]. split; [apply F_close; left; rewrite Hd; reflexivity|].
      split; [destruct RL as (tk0 & A & B & _); exists tk0; split; [exact A|]; split; [exact B|]; intros [G|[G|[G|[]]]]; discriminate|]. right. right. split.
      * unfold closed. destruct (N.eqb_spec (r_depth r) 0) as [E|E]; cbn [nest r_root r_context r_depth with_tk with_tag with_current with_context]; repeat split; try assumption; lia.
      * cbn [lag]. rewrite N.add_0_r. split; [exact S2|right; cbn [with_tk r_tk]; lia].
    + assert (more = true /\ r' = with_current r (make_error tk1)) as [-> ->] by (split; congruence). split; [reflexivity|]. apply good_error; [reflexivity|apply located_error; exact S1].
  - destruct (parse_name tk) as [[t tk3]|] eqn:P; [|discriminate]. destruct (name_moves _ _ _ P) as (M3 & Lt & K). unfold is_error in H.
    destruct K as [K|[K T0]]; rewrite K in H.
    { assert (more = true /\ r' = with_tk (with_current r t) tk3) as [-> ->] by (split; congruence). split; [reflexivity|]. apply good_error; [exact K|]. apply (located_plain k tk); [exact Sd|exact Lt|cbn [r_current with_current with_tk]; rewrite K; intros [Q|[Q|[Q|[]]]]; discriminate]. }
    assert (L3 : (length (cur tk3) < length (cur tk))%nat) by (destruct M3 as [M3 _]; rewrite M3, app_length; destruct (t_text t); [contradiction|cbn [length]; lia]).
    assert (Lc : located k (with_type t Tattr_name)) by (exists tk; split; [exact Sd|]; split; [exact Lt|]; intros _; destruct M3 as [M3 _]; rewrite M3; eexists; reflexivity).
    set (r2 := with_current r (with_type t Tattr_name)) in H.
    assert (Dead : forall rr, r_context rr = Xerror -> r_current rr = with_type t Tattr_name -> good (STag d) k (length (cur tk)) rr).
    { intros rr X C. exists (SValue d). rewrite C. split; [apply F_name|]. split; [exact Lc|]. right. left. exact X. }
    destruct (skip_whitespace tk3) as [m tk4] eqn:W. destruct (skip_moves _ _ _ W) as (M4 & _ & _). pose proof (moves_length _ _ _ M4). destruct m; [|assert (more = true /\ r' = r2) as [-> ->] by (split; congruence); split; [reflexivity|]; apply Dead; [exact RX|reflexivity]].
    assert (S4 : stands k tk4) by exact (stands_moves _ _ _ (stands_moves _ _ _ Sd (moves_of _ _ _ _ M3)) M4).
    destruct (N.eqb_spec (chr (cur tk4)) 61) as [Z4|Z4]; [|assert (more = true /\ r' = with_current r2 (make_error tk4)) as [-> ->] by (split; congruence); split; [reflexivity|]; apply good_error; [reflexivity|apply located_error; exact S4]].
    assert (M5 : moved tk4 (advance tk4 1) [61] 0) by (apply advance1; [exact Z4|discriminate|discriminate]). pose proof (moves_length _ _ _ (moves_of _ _ _ _ M5)).
    destruct (skip_whitespace (advance tk4 1)) as [m5 tk6] eqn:W5. destruct (skip_moves _ _ _ W5) as (M6 & _ & _). pose proof (moves_length _ _ _ M6). destruct m5; [|assert (more = true /\ r' = r2) as [-> ->] by (split; congruence); split; [reflexivity|]; apply Dead; [exact RX|reflexivity]].
    assert (S6 : stands k tk6) by exact (stands_moves _ _ _ (stands_moves _ _ _ S4 (moves_of _ _ _ _ M5)) M6).
    destruct ((chr (cur tk6) =? 34) || (chr (cur tk6) =? 39)); [|assert (more = true /\ r' = with_current r2 (make_error tk6)) as [-> ->] by (split; congruence); split; [reflexivity|]; apply good_error; [reflexivity|apply located_error; exact S6]].
    assert (more = true /\ r' = with_tk (with_context r2 Xattr_name) tk6) as [-> ->] by (split; congruence). split; [reflexivity|]. exists (SValue d). split; [apply F_name|]. split; [exact Lc|]. right. right.
    split; [cbn [nest r_root r_context r_depth with_tk with_context with_current r2]; repeat split; assumption|]. cbn [r_current with_tk with_context r2 with_current t_type with_type lag]. rewrite N.add_0_r. split; [exact S6|right; cbn [with_tk r_tk]; lia].
Qed.

Lemma attribute_good : forall d k r tk more r', r_root r = true -> d = r_depth r + 1 -> reset k r -> stands k tk -> attribute alloc r tk = Some (more, r') -> more = true /\ good (SValue d) k (length (cur tk)) r'.
Proof.
  intros d k r tk more r' Rt Hd (RX & RT & RL) Sd H. unfold attribute in H. destruct (parse_attribute_value tk) as [t tk2] eqn:P. destruct (value_moves _ _ _ P) as (Lt & K). unfold is_error in H.
  destruct K as [K|[K [M2 L2]]]; rewrite K in H.
  { assert (more = true /\ r' = with_tk (with_current r t) tk2) as [-> ->] by (split; congruence). split; [reflexivity|]. apply good_error; [exact K|]. apply (located_plain k tk); [exact Sd|exact Lt|cbn [r_current with_current with_tk]; rewrite K; intros [G|[G|[G|[]]]]; discriminate]. }
  assert (Lc : located k t) by (apply (located_plain k tk); [exact Sd|exact Lt|rewrite K; intros [G|[G|[G|[]]]]; discriminate]).
  assert (S2 : stands (k + 1) tk2) by exact (moves_trans _ _ _ _ _ Sd M2).
  destruct (unescape_current_token alloc (with_current r t)) as [[ok r2]|] eqn:U; [|discriminate]. destruct (unescape_same _ _ _ _ U) as [Sm Ty]. pose proof Sm as (Q1 & Q2 & Q3 & Q4 & Q5 & Q6 & _). cbn [r_current with_current] in Ty. rewrite K in Ty.
  destruct ok.
  2:{ assert (more = true /\ r' = r2) as [-> ->] by (split; congruence). split; [reflexivity|]. apply good_error; [exact Ty|]. apply (located_same k _ r2 Sm Lc). rewrite Ty. intros [G|[G|[G|[]]]]; discriminate. }
  assert (L2c : located k (r_current r2)) by (apply (located_same k _ r2 Sm Lc); rewrite Ty; intros [G|[G|[G|[]]]]; discriminate).
  assert (Dead : good (SValue d) k (length (cur tk)) r2). { exists (STag d). rewrite Ty. split; [apply F_value|]. split; [exact L2c|]. right. left. etransitivity; [exact Q3|exact RX]. }
  destruct (one_of _ _); [|assert (more = true /\ r' = r2) as [-> ->] by (split; congruence); split; [reflexivity|exact Dead]].
  destruct (skip_whitespace tk2) as [m tk4] eqn:W. destruct (skip_moves _ _ _ W) as (M4 & _ & _). pose proof (moves_length _ _ _ M4). destruct m; [|assert (more = true /\ r' = r2) as [-> ->] by (split; congruence); split; [reflexivity|exact Dead]].
  assert (S4 : stands (k + 1) tk4) by exact (stands_moves _ _ _ S2 M4). cbn [r_depth r_root with_current] in Q4, Q6.
  destruct (N.eqb_spec (chr (cur tk4)) 62) as [Z4|Z4].
  - assert (M5 : moved tk4 (advance tk4 1) [62] 0) by (apply advance1; [exact Z4|discriminate|discriminate]). pose proof (moves_length _ _ _ (moves_of _ _ _ _ M5)). injection H as <- <-. split; [reflexivity|].
    exists (STag d). cbn [r_current with_tk with_depth with_context]. rewrite Ty. split; [apply F_value|]. split; [exact L2c|]. right. right. split; [cbn [nest r_root r_context r_depth with_tk with_depth with_context]; split; [congruence|left; repeat split; lia]|].
    cbn [lag]. split; [exact (stands_moves _ _ _ S4 (moves_of _ _ _ _ M5))|right; cbn [with_tk r_tk]; lia].
  - destruct (chr (cur tk4) =? 47); injection H as <- <-; (split; [reflexivity|]); exists (STag d); cbn [r_current with_current with_tk with_root with_depth with_context with_tag]; rewrite Ty; (split; [apply F_value|]); (split; [exact L2c|]); right; right;
      (split; [cbn [nest r_root r_context r_depth with_tk with_tag with_context]; split; [congruence|right; split; [reflexivity|congruence]]|]); cbn [lag]; (split; [exact S4|right; cbn [with_tk r_tk]; lia]).
Qed.

Lemma post_root_good : forall k r more r', r_root r = true -> r_depth r = 0 -> reset k r -> stands k (r_tk r) -> post_root alloc r (r_tk r) = Some (more, r') -> more = true /\ good SEpilog k (length (cur (r_tk r))) r'.
Proof.
  intros k r more r' Rt Hd (RX & RT & RL) Sd H. unfold post_root in H. destruct (skip_whitespace (r_tk r)) as [m tk2] eqn:W. destruct (skip_moves _ _ _ W) as (M2 & Em & _ & _). pose proof (moves_length _ _ _ M2).
  pose proof (stands_moves _ _ _ Sd M2) as S2. destruct m.
  2:{ injection H as <- <-. split; [reflexivity|]. exists SEnd. cbn [r_current with_tk with_context with_current t_type]. split; [apply F_eof|]. split; [exists tk2; split; [exact S2|]; split; [reflexivity|]; intros [G|[G|[G|[]]]]; discriminate|]. right. right. split; [split; [reflexivity|]; split; [destruct (N.eqb_spec (chr (cur tk2)) 0) as [E0|]; [exact E0|discriminate Em]|reflexivity]|]. split; [cbn [lag]; rewrite N.add_0_r; exact S2|left; reflexivity]. }
  assert (Misc : forall t, In t [Tcomment; Tpi] -> follows SEpilog t SEpilog) by (intros t Ht; apply F_misc; [right; left; reflexivity|exact Ht]).
  destruct (starts [60; 33; 45; 45] (cur tk2)) eqn:Z2.
  { apply advance_starts in Z2; [|intros K; repeat destruct K as [K|K]; try discriminate; exact K]. cbn [length] in Z2. pose proof (stands_moves _ _ _ S2 (moves_of _ _ _ _ Z2)) as S3.
    assert (L3 : (length (cur (advance tk2 4)) < length (cur tk2))%nat) by (destruct Z2 as [Z2 _]; rewrite Z2, app_length; cbn [length]; lia).
    destruct (parse_comment (advance tk2 4)) as [t tk3] eqn:P. destruct (comment_moves _ _ _ P) as (Lt & M3 & K). pose proof (moves_length _ _ _ M3).
    set (r2 := if is_error t then _ else _) in H. destruct (unescape_current_token alloc r2) as [[ok r3]|] eqn:U; [|discriminate]. destruct (unescape_same _ _ _ _ U) as [Sm Ty]. pose proof Sm as (Q1 & Q2 & Q3 & Q4 & Q5 & Q6 & _).
    assert (R2 : r_current r2 = t /\ r_tk r2 = r_tk r /\ r_root r2 = true /\ r_depth r2 = 0) by (unfold r2; destruct (is_error t); repeat split; assumption). destruct R2 as (R2a & R2b & R2c & R2d).
    assert (Lc : ~ In (t_type t) [Topen; Tattr_name; Tpi] -> located k (r_current r2)) by (intros N0; rewrite R2a; apply (located_plain k (advance tk2 4)); assumption).
    destruct K as [K|[K B]].
    - assert (Ty' : t_type (r_current r3) = Terror) by (destruct ok; [rewrite Ty, R2a; exact K|exact Ty]).
      assert (L3c : located k (r_current r3)) by (apply (located_same k r2 r3 Sm); [apply Lc; rewrite K|rewrite Ty']; intros [G|[G|[G|[]]]]; discriminate).
      destruct ok; [assert (more = true /\ r' = with_tk r3 tk3) as [-> ->] by (split; congruence)|assert (more = true /\ r' = r3) as [-> ->] by (split; congruence)]; (split; [reflexivity|]); apply good_error; assumption.
    - destruct ok.
      + assert (more = true /\ r' = with_tk r3 tk3) as [-> ->] by (split; congruence). split; [reflexivity|]. rewrite R2a, K in Ty. exists SEpilog. cbn [r_current with_tk]. rewrite Ty. split; [apply Misc; left; reflexivity|].
        split; [apply (located_same k r2 r3 Sm); [apply Lc; rewrite K|rewrite Ty]; intros [G|[G|[G|[]]]]; discriminate|]. right. right.
        assert (X2 : r_context r2 = Xpost_root) by (unfold r2, is_error; rewrite K; reflexivity).
        split; [cbn [nest r_root r_context r_depth with_tk]; repeat split; congruence|]. cbn [lag]. rewrite N.add_0_r. split; [exact (stands_moves _ _ _ S3 M3)|right; cbn [with_tk r_tk]; lia].
      + assert (more = true /\ r' = r3) as [-> ->] by (split; congruence). split; [reflexivity|]. apply good_error; [exact Ty|]. apply (located_same k r2 r3 Sm); [apply Lc; rewrite K|rewrite Ty]; intros [G|[G|[G|[]]]]; discriminate. }
  destruct (starts [60; 63] (cur tk2)) eqn:Z3.
  { apply advance_starts in Z3; [|intros K; repeat destruct K as [K|K]; try discriminate; exact K]. cbn [length] in Z3. pose proof (stands_moves _ _ _ S2 (moves_of _ _ _ _ Z3)) as S3.
    assert (L3 : (length (cur (advance tk2 2)) < length (cur tk2))%nat) by (destruct Z3 as [Z3 _]; rewrite Z3, app_length; cbn [length]; lia).
    destruct (parse_pi (advance tk2 2)) as [t tk3] eqn:P. destruct (pi_moves _ _ _ P) as (Lt & M3 & K). pose proof (moves_length _ _ _ M3). unfold is_error in H. destruct K as [K|[K B]]; rewrite K in H.
    - assert (more = true /\ r' = with_current (with_current r (make_error tk2)) t) as [-> ->] by (split; congruence). split; [reflexivity|]. apply good_error; [exact K|]. apply (located_plain k (advance tk2 2)); [exact S3|exact Lt|cbn [r_current with_current]; rewrite K; intros [G|[G|[G|[]]]]; discriminate].
    - destruct (is_valid_xml_string (t_text t)) as [ok|]; [|discriminate]. destruct ok.
      + injection H as <- <-. split; [reflexivity|]. exists SEpilog. cbn [r_current with_tk with_context with_current]. rewrite K. split; [apply Misc; right; left; reflexivity|]. split; [exists (advance tk2 2); split; [exact S3|]; split; [exact Lt|]; intros _; exact B|].
        right. right. split; [cbn [nest r_root r_context r_depth with_tk with_context with_current]; repeat split; assumption|]. cbn [lag]. rewrite N.add_0_r. split; [exact (stands_moves _ _ _ S3 M3)|right; cbn [with_tk r_tk]; lia].
      + injection H as <- <-. split; [reflexivity|]. apply good_error; [reflexivity|]. apply (located_plain k (advance tk2 2)); [exact S3|exact Lt|intros [G|[G|[G|[]]]]; discriminate]. }
  injection H as <- <-. split; [reflexivity|]. apply good_error; [reflexivity|apply located_error; exact S2].
Qed.

Lemma call_good : forall st k r more r', nest st r -> st <> SEnd -> stands k (r_tk r) -> next_token alloc r = Some (more, r') -> more = true /\ good st k (length (cur (r_tk r))) r'.
Proof.
  intros st k r more r' Ne NE Sd H. unfold next_token in H. set (r1 := with_current (with_context r Xerror) (make_error (r_tk r))) in H.
  assert (Rs : reset k r1) by (split; [reflexivity|]; split; [reflexivity|]; apply located_error; exact Sd).
  destruct st as [|d|d|d| | |]; cbn [nest] in Ne.
  - destruct Ne as ([X|X] & D & R); rewrite X in H.
    + assert (I : inside SProlog r1) by (left; repeat split; assumption). destruct (skip_whitespace (r_tk r)) as [m tk2] eqn:W. destruct (skip_moves _ _ _ W) as (M & _ & _). pose proof (moves_length _ _ _ M).
      destruct m; [|assert (more = true /\ r' = r1) as [-> ->] by (split; congruence); split; [reflexivity|]; apply good_error; apply Rs].
      destruct (chr (cur tk2) =? 60); [|assert (more = true /\ r' = r1) as [-> ->] by (split; congruence); split; [reflexivity|]; apply good_error; apply Rs].
      apply (content_good SProlog k _ r1 tk2 more r' I Rs (stands_moves _ _ _ Sd M)); assumption.
    + apply (content_good SProlog k _ r1 (r_tk r) more r'); [left; repeat split; assumption|exact Rs|exact Sd|apply le_n|exact H].
  - destruct Ne as (R & [(X & D & P)|(X & D)]); rewrite X in H.
    + apply (content_good (STag d) k _ r1 (r_tk r) more r'); [right; exists d; repeat split; try assumption; left; reflexivity|exact Rs|exact Sd|apply le_n|exact H].
    + apply (inside_tag_good d k r1 (r_tk r) more r'); assumption.
  - destruct Ne as (R & X & D). rewrite X in H. apply (attribute_good d k r1 (r_tk r) more r'); assumption.
  - destruct Ne as (R & X & D & P). rewrite X in H. apply (content_good (SBody d) k _ r1 (r_tk r) more r'); [right; exists d; repeat split; try assumption; right; reflexivity|exact Rs|exact Sd|apply le_n|exact H].
  - destruct Ne as (R & X & D). rewrite X in H. apply (post_root_good k r1 more r'); assumption.
  - contradiction.
  - contradiction.
Qed.
Lemma call_over : forall r more r', r_context r = Xerror \/ r_context r = Xeof -> next_token alloc r = Some (more, r') -> more = false.
Proof. intros r more r' [X|X] H; unfold next_token in H; rewrite X in H; congruence. Qed.
End Calls.

(** ** Sequences of calls *)
Section Runs.
Variable alloc : nat -> bool.
Variable doc : list N.

(** Calls that return true, with the tokens they deliver. *)
Inductive calls : reader -> list token -> reader -> Prop :=
| R_nil r : calls r [] r
| R_cons r r1 ts r2 : next_token alloc r = Some (true, r1) -> calls r1 ts r2 -> calls r (r_current r1 :: ts) r2.
Lemma read_calls : forall fuel r ts r', read_all fuel alloc r = Some (ts, r') -> exists r1, calls r ts r1 /\ next_token alloc r1 = Some (false, r').
Proof.
  intros fuel. induction fuel as [|fuel IH]; intros r ts r' H; cbn [read_all] in H; [discriminate|]. destruct (next_token alloc r) as [[more r1]|] eqn:E; [|discriminate]. destruct more.
  - destruct (read_all fuel alloc r1) as [[ts1 r2]|] eqn:E1; [|discriminate]. assert (ts = r_current r1 :: ts1 /\ r' = r2) as [-> ->] by (split; congruence). destruct (IH _ _ _ E1) as (r3 & C & F). exists r3. split; [exact (R_cons r r1 ts1 r3 E C)|exact F].
  - assert (ts = [] /\ r' = r1) as [-> ->] by (split; congruence). exists r. split; [constructor|exact E].
Qed.
Lemma steps_calls : forall r evs r', steps alloc r evs r' -> exists ts, calls r ts r' /\ map ev ts = evs.
Proof. intros r evs r' H. induction H as [r|r r1 evs r2 E H (ts & C & M)]; [exists []; split; [constructor|reflexivity]|]. exists (r_current r1 :: ts). split; [exact (R_cons _ _ _ _ E C)|cbn [map]; rewrite M; reflexivity]. Qed.

Definition lags (ts : list token) : N := fold_right (fun t n => lag (t_type t) + n) 0 ts.

Lemma follows_fun : forall s t a b, follows s t a -> follows s t b -> a = b.
Proof.
  intros s t a b H K. destruct H; inversion K; subst; cbn [In] in *; try reflexivity;
  repeat match goal with
  | H : _ \/ _ |- _ => destruct H
  | H : False |- _ => destruct H
  end; subst; try discriminate; try congruence;
  repeat match goal with
  | H : STag _ = STag _ |- _ => injection H as H
  | H : SBody _ = SBody _ |- _ => injection H as H
  end; f_equal; lia.
Qed.

Lemma stop_follows : forall t s, follows SStop t s -> s = SStop.
Proof.
  intros t s F. inversion F as [s0 t0 I0| | | |d0 s0 t0 I0|d0 s0 I0|d0 s0 I0| | |]; subst; try reflexivity; cbn [In] in *.
  all: repeat match goal with H : _ \/ _ |- _ => destruct H | H : False |- _ => destruct H end; discriminate.
Qed.
Lemma stop_walk : forall ts s, walk SStop ts s -> s = SStop.
Proof.
  assert (G : forall s ts s', walk s ts s' -> s = SStop -> s' = SStop). { intros s ts s' W. induction W as [s|s t s1 ts s2 F W IH|ts]; intros Es; [exact Es| |reflexivity]. apply IH. subst s. exact (stop_follows _ _ F). }
  intros ts s W. exact (G _ _ _ W eq_refl).
Qed.
Lemma walk_cons : forall s t s1 ts s', walk s (t :: ts) s' -> follows s t s1 -> walk s1 ts s'.
Proof.
  intros s t s1 ts s' W F. inversion W as [|s0 t0 s2 ts0 s3 F0 W0|]; subst; [rewrite (follows_fun _ _ _ _ F F0); exact W0|]. rewrite (stop_follows _ _ F). constructor.
Qed.

Lemma run : forall r ts r', calls r ts r' -> forall st k, nest st r -> stands doc k (r_tk r) ->
  exists st', walk st (map t_type ts) st' /\ (st' = SStop \/ r_context r' = Xerror \/ nest st' r' /\ stands doc (k + lags ts) (r_tk r'))
    /\ (st' = SStop \/ (length ts <= length (cur (r_tk r)) + 1)%nat)
    /\ (forall a t b, ts = a ++ t :: b -> (exists s, walk st (map t_type a) s /\ s <> SStop) -> located doc (k + lags a) t).
Proof.
  intros r ts r' H. induction H as [r|r r1 ts r2 E H IH]; intros st k Ne Sd.
  - exists st. split; [constructor|]. split; [right; right; split; [exact Ne|cbn [lags fold_right]; rewrite N.add_0_r; exact Sd]|]. split; [right; cbn [length]; lia|]. intros a t b Q; destruct a; discriminate.
  - assert (NE : st <> SEnd) by (intros ->; cbn [nest] in Ne; pose proof (call_over alloc r true r1 (or_intror (proj1 Ne)) E); discriminate).
    destruct (call_good alloc doc st k r true r1 Ne NE Sd E) as [_ (st1 & F & L & K)].
    assert (Over : r_context r1 = Xerror \/ r_context r1 = Xeof -> ts = [] /\ r2 = r1).
    { intros O. inversion H as [x Q1 Q2 Q3|x r3 ts3 r4 E3 H3 Q1 Q2 Q3]; [split; reflexivity|]. pose proof (call_over alloc r1 true r3 O E3). discriminate. }
    assert (First : forall (P : N -> token -> Prop) a t b, r_current r1 :: ts = a ++ t :: b -> P k (r_current r1) -> (forall a', a = r_current r1 :: a' -> ts = a' ++ t :: b -> P (k + lags a) t) -> P (k + lags a) t).
    { intros P a t b Q P0 P1. destruct a as [|x a]; [cbn [app] in Q; assert (t = r_current r1) as -> by congruence; cbn [lags fold_right]; rewrite N.add_0_r; exact P0|]. cbn [app] in Q. assert (x = r_current r1) as -> by congruence. apply (P1 a); [reflexivity|congruence]. }
    destruct K as [->|[X|(Ne1 & Sd1 & K)]].
    + exists SStop. cbn [map]. split; [exact (W_cons _ _ _ _ _ F (W_stop _))|]. split; [left; reflexivity|]. split; [left; reflexivity|]. intros a t b Q (s & Wk & Ns). apply (First (located doc) a t b Q L). intros a' -> Q'. exfalso. apply Ns, (stop_walk (map t_type a')), (walk_cons _ _ _ _ _ Wk F).
    + destruct (Over (or_introl X)) as [-> ->]. exists st1. cbn [map]. split; [exact (W_cons _ _ _ _ _ F (W_nil _))|]. split; [right; left; exact X|]. split; [right; cbn [length]; lia|]. intros a t b Q _. apply (First (located doc) a t b Q L). intros a' _ Q'; destruct a'; discriminate.
    + destruct (IH st1 (k + lag (t_type (r_current r1))) Ne1 Sd1) as (st2 & W2 & E2 & L2 & P2). exists st2. cbn [map]. split; [exact (W_cons _ _ _ _ _ F W2)|]. cbn [lags fold_right]. fold (lags ts). rewrite N.add_assoc. split; [exact E2|]. split.
      * destruct K as [->|K]; [destruct (Over (or_intror (proj1 Ne1))) as [-> ->]; right; cbn [length]; lia|]. destruct L2 as [->|L2]; [left; reflexivity|right; cbn [length]; lia].
      * intros a t b Q (s & Wk & Ns). apply (First (located doc) a t b Q L). intros a' -> Q'. cbn [lags fold_right]. fold (lags a'). rewrite N.add_assoc. apply (P2 a' t b Q'). exists s. split; [exact (walk_cons _ _ _ _ _ Wk F)|exact Ns].
Qed.
End Runs.
