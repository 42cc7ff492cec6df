(** Null-terminated variants, prefixes and suffixes, case-insensitive search, words, reversal. *)
From Coq Require Import Arith NArith ZArith List Bool Lia.
From Coq Require Import ZifyBool ZifyNat ZifyN.
From Verif Require Import Base CTypeModel CodecModel StrModel StrSpec StrProofs StrMore.
Import ListNotations.
Local Open Scope N_scope.

Lemma first_unique : forall P first last p q, is_first P first last p -> is_first P first last q -> (first <= last)%nat -> p = q.
Proof.
  intros P first last p q [P1 P2] [Q1 Q2] L. destruct (lt_eq_lt_dec p q) as [[H|H]|H]; [|exact H|]; exfalso.
  - destruct P1 as [[? K]|?]; [exact (Q2 p ltac:(lia) K)|]. destruct Q1 as [[? ?]|?]; lia.
  - destruct Q1 as [[? K]|?]; [exact (P2 q ltac:(lia) K)|]. destruct P1 as [[? ?]|?]; lia.
Qed.
Lemma first_ext : forall (P Q : nat -> Prop) first last p, (forall k, (first <= k < last)%nat -> (P k <-> Q k)) -> (p <= last)%nat ->
  is_first P first last p -> is_first Q first last p.
Proof.
  intros P Q first last p H L [H1 H2]. split; [destruct H1 as [[? ?]|?]; [left; split; [assumption|apply H; [lia|assumption]]|right; assumption]|].
  intros k Hk K. apply (H2 k Hk). apply H; [lia|exact K].
Qed.
Lemma first_le : forall P first last p, is_first P first last p -> (first <= last)%nat -> (first <= p <= last)%nat.
Proof. intros P first last p [[[? ?]|?] _] L; lia. Qed.

(** ** Strings in memory *)
Lemma z_nil : forall m i, zstring m i [] -> nth_error m i = Some 0 /\ (i < length m)%nat.
Proof.
  intros m i (_ & pre & post & -> & <-). cbn [app]. split; [rewrite nth_error_app2, Nat.sub_diag by lia; reflexivity|]. rewrite app_length. cbn [length]. lia.
Qed.
Lemma z_cons : forall m i c s, zstring m i (c :: s) -> nth_error m i = Some c /\ c <> 0 /\ zstring m (S i) s.
Proof.
  intros m i c s (H & pre & post & -> & <-). split; [cbn [app]; rewrite nth_error_app2, Nat.sub_diag by lia; reflexivity|].
  split; [intros ->; apply H; left; reflexivity|]. split; [intros K; apply H; right; exact K|].
  exists (pre ++ [c]), post. split; [rewrite <- app_assoc; reflexivity|]. rewrite app_length. cbn [length]. lia.
Qed.
Lemma z_bound : forall m s i, zstring m i s -> (i + length s < length m)%nat.
Proof. intros m s i (_ & pre & post & -> & <-). rewrite !app_length. cbn [length]. lia. Qed.
Lemma z_end : forall m s i, zstring m i s -> nth_error m (i + length s) = Some 0.
Proof. intros m s i (_ & pre & post & -> & <-). rewrite nth_error_app2 by lia. replace (length pre + length s - length pre)%nat with (length s) by lia. rewrite nth_error_app2, Nat.sub_diag by lia. reflexivity. Qed.
Lemma z_sub : forall m s i, zstring m i s -> sub m i (i + length s) = s.
Proof.
  intros m s. induction s as [|c s IH]; intros i H; cbn [length]; [apply sub_nil; lia|]. destruct (z_cons m i c s H) as (E & _ & K).
  rewrite (sub_cons m i _ c) by (try exact E; lia). rewrite Nat.add_succ_r. f_equal. apply (IH (S i) K).
Qed.
Lemma z_valid : forall m s i, zstring m i s -> valid m i (i + length s).
Proof. intros m s i H. pose proof (z_bound _ _ _ H). split; lia. Qed.
Lemma z_skipn : forall (m : list N) c (s : list N) i, nth_error m i = Some c -> skipn i m = c :: skipn (S i) m.
Proof.
  intros m c s i. clear s. revert m. induction i as [|i IH]; intros [|x m] E; try discriminate; [cbn in *; congruence|]. cbn [nth_error] in E. cbn [skipn]. rewrite (IH m E). reflexivity.
Qed.
Lemma z_strlen : forall m s i, zstring m i s -> strlen m i = Some (length s).
Proof.
  intros m s. unfold strlen. induction s as [|c s IH]; intros i H.
  - destruct (z_nil m i H) as [E _]. rewrite (z_skipn m 0 [] i E). reflexivity.
  - destruct (z_cons m i c s H) as (E & N0 & K). rewrite (z_skipn m c [] i E). cbn [strlen_list]. destruct (N.eqb_spec c 0); [congruence|]. rewrite (IH (S i) K). reflexivity.
Qed.
(** A later position of the string is again a string. *)
Lemma z_later : forall m s i p, zstring m i s -> (i <= p <= i + length s)%nat -> zstring m p (sub m p (i + length s)).
Proof.
  intros m s. induction s as [|c s IH]; intros i p H L; cbn [length] in *.
  - replace p with i by lia. rewrite sub_nil by lia. exact H.
  - destruct (Nat.eq_dec p i) as [->|Q].
    + pose proof (z_sub m (c :: s) i H) as E. cbn [length] in E. rewrite E. exact H.
    + destruct (z_cons m i c s H) as (_ & _ & K). rewrite Nat.add_succ_r. apply (IH (S i) p K). lia.
Qed.
Lemma z_in : forall m s i k, zstring m i s -> (i <= k < i + length s)%nat -> exists c, nth_error m k = Some c /\ c <> 0 /\ In c s.
Proof.
  intros m s i k H L. pose proof (z_bound _ _ _ H). destruct (nth_ex m k ltac:(lia)) as (c & E). exists c. split; [exact E|].
  assert (I : In c s) by (rewrite <- (z_sub m s i H); apply sub_in; exists k; split; [lia|exact E]). split; [|exact I]. intros ->. destruct H as [H _]. exact (H I).
Qed.

(** ** Searches *)
Lemma find_char_z_spec : forall m s i c, zstring m i s ->
  exists p, tmsu_find_char_z m i c = Some p /\ is_first (fun k => nth_error m k = Some c) i (i + length s) p.
Proof.
  intros m s i c H. unfold tmsu_find_char_z.
  assert (K : exists k, tmsu_find_char (skipn i m) c = Some k /\ is_first (fun k => nth_error m k = Some c) i (i + length s) (i + k)).
  { revert i H. induction s as [|x s IH]; intros i H.
    - destruct (z_nil m i H) as [E _]. rewrite (z_skipn m 0 [] i E). cbn [tmsu_find_char length]. exists 0%nat. split; [reflexivity|]. split; [right; lia|intros k Hk; lia].
    - destruct (z_cons m i x s H) as (E & N0 & Hz). rewrite (z_skipn m x [] i E). cbn [tmsu_find_char length]. destruct (N.eqb_spec x 0); [congruence|].
      destruct (N.eqb_spec x c) as [->|Q].
      + exists 0%nat. split; [reflexivity|]. split; [left; split; [lia|rewrite Nat.add_0_r; exact E]|intros k Hk; lia].
      + destruct (IH (S i) Hz) as (k & Ek & K1 & K2). rewrite Ek. exists (S k). split; [reflexivity|]. rewrite Nat.add_succ_r. rewrite Nat.add_succ_r in *. cbn [plus] in *.
        split; [destruct K1 as [[? ?]|?]; [left; split; [lia|assumption]|right; lia]|].
        intros j Hj J. destruct (Nat.eq_dec j i) as [->|Qj]; [congruence|exact (K2 j ltac:(lia) J)]. }
  destruct K as (k & E & D). rewrite E. eexists. split; [reflexivity|exact D].
Qed.
Lemma find_char2_z_spec : forall m s i a b, zstring m i s ->
  exists p, tmsu_find_char2 m i a b = Some p /\ is_first (fun k => nth_error m k = Some a \/ nth_error m k = Some b) i (i + length s) p.
Proof.
  intros m s i a b H. unfold tmsu_find_char2.
  assert (K : exists k, find_char2_list (skipn i m) a b = Some k /\ is_first (fun k => nth_error m k = Some a \/ nth_error m k = Some b) i (i + length s) (i + k)).
  { revert i H. induction s as [|x s IH]; intros i H.
    - destruct (z_nil m i H) as [E _]. rewrite (z_skipn m 0 [] i E). cbn [find_char2_list length N.eqb]. exists 0%nat. split; [reflexivity|]. split; [right; lia|intros k Hk; lia].
    - destruct (z_cons m i x s H) as (E & N0 & Hz). rewrite (z_skipn m x [] i E). cbn [find_char2_list length]. destruct (N.eqb_spec x 0); [congruence|].
      destruct ((x =? a) || (x =? b)) eqn:Q.
      + exists 0%nat. split; [reflexivity|]. apply orb_true_iff in Q. rewrite !N.eqb_eq in Q. rewrite !Nat.add_0_r.
        split; [left; split; [lia|destruct Q; subst; auto]|intros k Hk; lia].
      + destruct (IH (S i) Hz) as (k & Ek & K1 & K2). rewrite Ek. exists (S k). split; [reflexivity|]. rewrite Nat.add_succ_r. rewrite Nat.add_succ_r in *. cbn [plus] in *.
        split; [destruct K1 as [[? ?]|?]; [left; split; [lia|assumption]|right; lia]|].
        intros j Hj J. destruct (Nat.eq_dec j i) as [->|Qj]; [|exact (K2 j ltac:(lia) J)].
        apply orb_false_iff in Q. rewrite !N.eqb_neq in Q. destruct J, Q; congruence. }
  destruct K as (k & E & D). rewrite E. eexists. split; [reflexivity|exact D].
Qed.
Lemma span_spec : forall m s i f fs (cont : bool), zstring m i s -> zstring m f fs ->
  exists k, span_list m (skipn i m) f (length fs) cont = Some k /\
    is_first (fun p => if cont then non_member m fs p else member m fs p) i (i + length s) (i + k).
Proof.
  intros m s i f fs cont H Hf. pose proof (z_bound _ _ _ Hf) as Bf. revert i H. induction s as [|x s IH]; intros i H.
  - destruct (z_nil m i H) as [E _]. rewrite (z_skipn m 0 [] i E). cbn [span_list length N.eqb]. exists 0%nat. split; [reflexivity|]. split; [right; lia|intros k Hk; lia].
  - destruct (z_cons m i x s H) as (E & N0 & Hz). rewrite (z_skipn m x [] i E). cbn [span_list length]. destruct (N.eqb_spec x 0); [congruence|].
    destruct (memchr_set m f (length fs) x ltac:(lia)) as (r & Er & Dr). rewrite Er. rewrite (z_sub m fs f Hf) in Dr. destruct (Bool.eqb (is_some r) cont) eqn:B.
    + apply Bool.eqb_prop in B. destruct (IH (S i) Hz) as (k & Ek & K1 & K2). rewrite Ek. exists (S k). split; [reflexivity|]. rewrite Nat.add_succ_r. rewrite Nat.add_succ_r in *. cbn [plus] in *.
      split; [destruct K1 as [[? ?]|?]; [left; split; [lia|assumption]|right; lia]|].
      intros j Hj J. destruct (Nat.eq_dec j i) as [->|Qj]; [|exact (K2 j ltac:(lia) J)].
      destruct cont; destruct J as (c & Ec & Ic); rewrite E in Ec; injection Ec as <-.
      * apply Ic. apply Dr. exact B.
      * apply Dr in Ic. congruence.
    + exists 0%nat. split; [reflexivity|]. rewrite !Nat.add_0_r. split; [|intros k Hk; lia]. left. split; [lia|]. apply Bool.eqb_false_iff in B. destruct cont.
      * exists x. split; [exact E|]. intros I. apply Dr in I. congruence.
      * exists x. split; [exact E|]. apply Dr. destruct (is_some r); congruence.
Qed.
Lemma find_first_of_z_spec : forall m s i f fs, zstring m i s -> zstring m f fs ->
  exists p, tmsu_find_first_of m i f = Some p /\ is_first (member m fs) i (i + length s) p.
Proof.
  intros m s i f fs H Hf. unfold tmsu_find_first_of. rewrite (z_strlen m fs f Hf). destruct (span_spec m s i f fs false H Hf) as (k & E & D). rewrite E.
  eexists. split; [reflexivity|exact D].
Qed.
Lemma find_first_not_of_z_spec : forall m s i f fs, zstring m i s -> zstring m f fs ->
  exists p, tmsu_find_first_not_of m i f = Some p /\ is_first (non_member m fs) i (i + length s) p.
Proof.
  intros m s i f fs H Hf. unfold tmsu_find_first_not_of. rewrite (z_strlen m fs f Hf). destruct (span_spec m s i f fs true H Hf) as (k & E & D). rewrite E.
  eexists. split; [reflexivity|exact D].
Qed.
Lemma last_z_loop_spec : forall m n i f fs (cont : bool), zstring m f fs -> (i + n < length m)%nat ->
  exists r, is_last (fun p => if cont then non_member m fs p else member m fs p) (S i) (S i + n) r /\
    last_z_loop m n i f (length fs) cont = Some (match r with Some p => p | None => i end).
Proof.
  intros m n i f fs cont Hf. pose proof (z_bound _ _ _ Hf) as Bf. induction n as [|n IH]; intros H.
  - exists None. split; [intros k Hk; lia|reflexivity].
  - cbn [last_z_loop]. destruct (nth_ex m (i + S n) ltac:(lia)) as (x & E). rewrite E.
    destruct (memchr_set m f (length fs) x ltac:(lia)) as (r & Er & Dr). rewrite Er. rewrite (z_sub m fs f Hf) in Dr. destruct (Bool.eqb (is_some r) cont) eqn:B.
    + apply Bool.eqb_prop in B. destruct (IH ltac:(lia)) as (q & Dq & Eq). exists q. split; [|exact Eq].
      assert (Nn : ~ (if cont then non_member m fs (i + S n) else member m fs (i + S n))).
      { destruct cont; intros (c & Ec & Ic); rewrite E in Ec; injection Ec as <-.
        - apply Ic. apply Dr. exact B.
        - apply Dr in Ic. congruence. }
      destruct q as [q|].
      * destruct Dq as (D1 & D2 & D3). split; [lia|]. split; [exact D2|]. intros j Hj J. destruct (Nat.eq_dec j (i + S n)) as [->|Q]; [exact (Nn J)|]. exact (D3 j ltac:(lia) J).
      * intros j Hj J. destruct (Nat.eq_dec j (i + S n)) as [->|Q]; [exact (Nn J)|]. exact (Dq j ltac:(lia) J).
    + exists (Some (i + S n)%nat). split; [|reflexivity]. split; [lia|]. split; [|intros j Hj; lia]. apply Bool.eqb_false_iff in B. destruct cont.
      * exists x. split; [exact E|]. intros I. apply Dr in I. congruence.
      * exists x. split; [exact E|]. apply Dr. destruct (is_some r); congruence.
Qed.
Lemma find_last_z_spec : forall m s i f fs (cont : bool), zstring m i s -> zstring m f fs -> s <> [] ->
  exists r, is_last (fun p => if cont then non_member m fs p else member m fs p) (S i) (i + length s) r /\
    find_last_z m cont i f = Some (match r with Some p => p | None => i end).
Proof.
  intros m s i f fs cont H Hf Q. unfold find_last_z. rewrite (z_strlen m s i H), (z_strlen m fs f Hf). destruct s as [|x s]; [congruence|]. cbn [length].
  pose proof (z_bound _ _ _ H) as B. cbn [length] in B. destruct (last_z_loop_spec m (length s) i f fs cont Hf ltac:(lia)) as (r & D & E). exists r. split; [|exact E].
  rewrite Nat.add_succ_r. exact D.
Qed.

(** ** strncmp, strcmp and the case-insensitive ones *)
Definition up (s : list N) : list N := map to_upper s.
Lemma strncmp_spec : forall m n s t a b, zstring m a s -> zstring m b t ->
  exists r, strncmp m a b n = Some r /\ orders lex_lt (firstn n s) (firstn n t) r.
Proof.
  intros m n. induction n as [|n IH]; intros s t a b Hs Ht; cbn [strncmp].
  - exists 0%Z. split; [reflexivity|]. apply orders_intro. right. left. auto.
  - destruct s as [|x s]; destruct t as [|y t].
    + destruct (z_nil _ _ Hs) as [-> _]. destruct (z_nil _ _ Ht) as [-> _]. exists 0%Z. split; [reflexivity|]. apply orders_intro. right. left. auto.
    + destruct (z_nil _ _ Hs) as [-> _]. destruct (z_cons _ _ _ _ Ht) as (-> & N0 & _). destruct (N.eqb_spec 0 y); [congruence|]. eexists. split; [reflexivity|].
      apply orders_intro. left. split; [lia|]. cbn [firstn]. constructor.
    + destruct (z_nil _ _ Ht) as [-> _]. destruct (z_cons _ _ _ _ Hs) as (-> & N0 & _). destruct (N.eqb_spec x 0); [congruence|]. eexists. split; [reflexivity|].
      apply orders_intro. right. right. split; [lia|]. cbn [firstn]. constructor.
    + destruct (z_cons _ _ _ _ Hs) as (-> & N0 & Ks). destruct (z_cons _ _ _ _ Ht) as (-> & N1 & Kt). cbn [firstn]. destruct (N.eqb_spec x y) as [->|Q].
      * destruct (N.eqb_spec y 0); [congruence|]. destruct (IH s t (S a) (S b) Ks Kt) as (r & E & D). exists r. split; [exact E|].
        destruct D as (D1 & D2 & D3). apply orders_intro. destruct (Z.lt_trichotomy r 0) as [L | [L | L]].
        -- left. split; [exact L|]. apply Lex_tail. tauto.
        -- right. left. split; [exact L|]. f_equal. tauto.
        -- right. right. split; [exact L|]. apply Lex_tail. tauto.
      * eexists. split; [reflexivity|]. apply (orders_diff []). exact Q.
Qed.
Lemma strcmp_spec : forall m fuel s t a b, zstring m a s -> zstring m b t -> (length s < fuel)%nat ->
  exists r, strcmp_loop m fuel a b = Some r /\ orders lex_lt s t r.
Proof.
  intros m fuel. induction fuel as [|fuel IH]; intros s t a b Hs Ht F; [lia|]. cbn [strcmp_loop].
  destruct s as [|x s]; destruct t as [|y t].
  - destruct (z_nil _ _ Hs) as [-> _]. destruct (z_nil _ _ Ht) as [-> _]. exists 0%Z. split; [reflexivity|]. apply orders_intro. right. left. auto.
  - destruct (z_nil _ _ Hs) as [-> _]. destruct (z_cons _ _ _ _ Ht) as (-> & N0 & _). destruct (N.eqb_spec 0 y); [congruence|]. eexists. split; [reflexivity|].
    apply orders_intro. left. split; [lia|]. constructor.
  - destruct (z_nil _ _ Ht) as [-> _]. destruct (z_cons _ _ _ _ Hs) as (-> & N0 & _). destruct (N.eqb_spec x 0); [congruence|]. eexists. split; [reflexivity|].
    apply orders_intro. right. right. split; [lia|]. constructor.
  - destruct (z_cons _ _ _ _ Hs) as (-> & N0 & Ks). destruct (z_cons _ _ _ _ Ht) as (-> & N1 & Kt). cbn [length] in F. destruct (N.eqb_spec x y) as [->|Q].
    + destruct (N.eqb_spec y 0); [congruence|]. destruct (IH s t (S a) (S b) Ks Kt ltac:(lia)) as (r & E & D). exists r. split; [exact E|].
      destruct D as (D1 & D2 & D3). apply orders_intro. destruct (Z.lt_trichotomy r 0) as [L | [L | L]].
      * left. split; [exact L|]. apply Lex_tail. tauto.
      * right. left. split; [exact L|]. f_equal. tauto.
      * right. right. split; [exact L|]. apply Lex_tail. tauto.
    + eexists. split; [reflexivity|]. apply (orders_diff []). exact Q.
Qed.
Lemma upper_nonzero : forall c, c <> 0 -> to_upper c <> 0.
Proof. intros c H. unfold to_upper, is_lower. destruct ((97 <=? c) && (c <=? 122)) eqn:E; [|exact H]. lia. Qed.
Lemma upper_zero : to_upper 0 = 0. Proof. reflexivity. Qed.
Lemma stricmp_spec : forall m fuel s t a b, zstring m a s -> zstring m b t -> (length s < fuel)%nat ->
  exists r, stricmp_loop m fuel a b = Some r /\ orders lex_lt (up s) (up t) r.
Proof.
  intros m fuel. induction fuel as [|fuel IH]; intros s t a b Hs Ht F; [lia|]. cbn [stricmp_loop].
  destruct s as [|x s]; destruct t as [|y t].
  - destruct (z_nil _ _ Hs) as [-> _]. destruct (z_nil _ _ Ht) as [-> _]. exists 0%Z. split; [reflexivity|]. apply orders_intro. right. left. auto.
  - destruct (z_nil _ _ Hs) as [-> _]. destruct (z_cons _ _ _ _ Ht) as (-> & N0 & _). cbn [N.eqb negb andb]. eexists. split; [reflexivity|]. rewrite upper_zero.
    pose proof (upper_nonzero y N0). apply orders_intro. left. split; [lia|]. constructor.
  - destruct (z_nil _ _ Ht) as [-> _]. destruct (z_cons _ _ _ _ Hs) as (-> & N0 & _). cbn [N.eqb negb andb]. rewrite andb_false_r. cbn [andb]. eexists. split; [reflexivity|]. rewrite upper_zero.
    pose proof (upper_nonzero x N0). apply orders_intro. right. right. split; [lia|]. constructor.
  - destruct (z_cons _ _ _ _ Hs) as (-> & N0 & Ks). destruct (z_cons _ _ _ _ Ht) as (-> & N1 & Kt). cbn [length] in F.
    destruct (N.eqb_spec x 0); [congruence|]. destruct (N.eqb_spec y 0); [congruence|]. cbn [negb andb up map].
    destruct (Z.eqb_spec (Z.of_N (to_upper x) - Z.of_N (to_upper y)) 0) as [Q|Q].
    + assert (Q2 : to_upper x = to_upper y) by lia. rewrite Q2. destruct (IH s t (S a) (S b) Ks Kt ltac:(lia)) as (r & E & D). exists r. split; [exact E|].
      destruct D as (D1 & D2 & D3). apply orders_intro. destruct (Z.lt_trichotomy r 0) as [L | [L | L]].
      * left. split; [exact L|]. apply Lex_tail. tauto.
      * right. left. split; [exact L|]. f_equal. tauto.
      * right. right. split; [exact L|]. apply Lex_tail. tauto.
    + eexists. split; [reflexivity|]. apply (orders_diff []). lia.
Qed.
(** What tmsu_strnicmp computes, on lists. *)
Definition diff (x y : N) : Z := (Z.of_N (to_upper x) - Z.of_N (to_upper y))%Z.
Fixpoint nicmp (s t : list N) (n : nat) : Z :=
  match s, t with
  | x :: s', y :: t' =>
    match n with
    | O => diff x y
    | S n' => if (diff x y =? 0)%Z then nicmp s' t' n' else match n' with O => 0%Z | _ => diff x y end
    end
  | _, _ => match n with O => 0%Z | _ => diff (hd 0 s) (hd 0 t) end
  end.
Lemma strnicmp_list : forall m fuel s t a b n, zstring m a s -> zstring m b t -> (length s < fuel)%nat ->
  strnicmp_loop m fuel a b (N.of_nat n) = Some (nicmp s t n).
Proof.
  intros m fuel. induction fuel as [|fuel IH]; intros s t a b n Hs Ht F; [lia|]. cbn [strnicmp_loop].
  assert (Zn : (N.of_nat n =? 0) = match n with O => true | _ => false end) by (destruct n; cbn; lia).
  destruct s as [|x s]; destruct t as [|y t].
  - destruct (z_nil _ _ Hs) as [-> _]. destruct (z_nil _ _ Ht) as [-> _]. cbn [N.eqb negb andb nicmp hd]. rewrite Zn. destruct n; reflexivity.
  - destruct (z_nil _ _ Hs) as [-> _]. destruct (z_cons _ _ _ _ Ht) as (-> & N0 & _). cbn [N.eqb negb andb nicmp hd]. rewrite Zn. destruct n; reflexivity.
  - destruct (z_nil _ _ Ht) as [-> _]. destruct (z_cons _ _ _ _ Hs) as (-> & N0 & _). cbn [N.eqb negb andb nicmp hd]. rewrite andb_false_r, Zn. destruct n; reflexivity.
  - destruct (z_cons _ _ _ _ Hs) as (-> & N0 & Ks). destruct (z_cons _ _ _ _ Ht) as (-> & N1 & Kt). cbn [length] in F.
    destruct (N.eqb_spec x 0); [congruence|]. destruct (N.eqb_spec y 0); [congruence|]. cbn [negb andb nicmp]. rewrite Zn. destruct n as [|n]; [reflexivity|].
    fold (diff x y). replace (N.of_nat (S n) - 1) with (N.of_nat n) by lia. destruct (diff x y =? 0)%Z; [apply IH; try assumption; lia|].
    destruct n as [|n]; [reflexivity|]. destruct (N.eqb_spec (N.of_nat (S n)) 0); [lia|reflexivity].
Qed.
Lemma strnicmp_spec : forall m s t a b n, zstring m a s -> zstring m b t -> tmsu_strnicmp m a b (N.of_nat n) = Some (nicmp s t n).
Proof. intros m s t a b n Hs Ht. apply strnicmp_list; try assumption. pose proof (z_bound _ _ _ Hs). lia. Qed.
Lemma diff_zero : forall x y, (diff x y =? 0)%Z = true <-> to_upper x = to_upper y.
Proof. intros x y. unfold diff. rewrite Z.eqb_eq. lia. Qed.
Lemma nicmp_orders : forall s t n, ~ In 0 s -> ~ In 0 t ->
  (firstn (n - 1) (up s) = firstn (n - 1) (up t) -> firstn (n + 1) (up s) = firstn (n + 1) (up t)) ->
  orders lex_lt (firstn n (up s)) (firstn n (up t)) (nicmp s t n).
Proof.
  assert (O0 : forall a, orders lex_lt a a 0) by (intros a; apply orders_intro; right; left; auto).
  induction s as [|x s IH]; intros t n Hs Ht H.
  - destruct t as [|y t]; cbn [nicmp hd up map].
    + rewrite firstn_nil. destruct n; apply O0.
    + destruct n; [apply O0|]. cbn [firstn]. unfold diff. rewrite upper_zero. pose proof (upper_nonzero y ltac:(intros ->; apply Ht; left; reflexivity)).
      apply orders_intro. left. split; [lia|constructor].
  - destruct t as [|y t].
    + cbn [nicmp hd up map]. destruct n; [apply O0|]. cbn [firstn]. unfold diff. rewrite upper_zero. pose proof (upper_nonzero x ltac:(intros ->; apply Hs; left; reflexivity)).
      apply orders_intro. right. right. split; [lia|constructor].
    + cbn [nicmp up map]. destruct n as [|n].
      * cbn [firstn]. cbn [Nat.sub plus firstn up map] in H. specialize (H eq_refl). injection H as H. unfold diff. rewrite H, Z.sub_diag. apply O0.
      * cbn [firstn]. cbn [Nat.sub plus firstn up map] in H. rewrite Nat.sub_0_r in H. destruct (diff x y =? 0)%Z eqn:D.
        -- apply diff_zero in D. rewrite D in *. assert (K : orders lex_lt (firstn n (up s)) (firstn n (up t)) (nicmp s t n)).
           { apply IH; [intros K; apply Hs; right; exact K|intros K; apply Ht; right; exact K|]. destruct n as [|n].
             - intros _. cbn [firstn] in H. specialize (H eq_refl). injection H as H. exact H.
             - cbn [Nat.sub firstn] in *. rewrite Nat.sub_0_r. intros K. assert (H' : to_upper y :: firstn (S n + 1) (up s) = to_upper y :: firstn (S n + 1) (up t)) by (apply H; f_equal; exact K).
               injection H' as H'. exact H'. }
           destruct K as (D1 & D2 & D3). apply orders_intro. destruct (Z.lt_trichotomy (nicmp s t n) 0) as [L | [L | L]].
           ++ left. split; [exact L|]. apply Lex_tail. tauto.
           ++ right. left. split; [exact L|]. f_equal. tauto.
           ++ right. right. split; [exact L|]. apply Lex_tail. tauto.
        -- assert (Q : to_upper x <> to_upper y) by (intros K; apply diff_zero in K; congruence). destruct n as [|n].
           ++ exfalso. cbn [firstn] in H. specialize (H eq_refl). injection H as H _. congruence.
           ++ apply (orders_diff []). exact Q.
Qed.
Lemma nicmp_prefix : forall p s, ~ In 0 p -> (nicmp s p (length p) = 0%Z <-> (length p <= length s)%nat /\ firstn (length p - 1) (up s) = firstn (length p - 1) (up p)).
Proof.
  induction p as [|y p IH]; intros s Hp.
  - cbn [length Nat.sub firstn]. assert (nicmp s [] 0 = 0%Z) as -> by (destruct s; reflexivity). split; [intros _; split; [lia|reflexivity]|reflexivity].
  - assert (Hy : to_upper y <> 0) by (apply upper_nonzero; intros ->; apply Hp; left; reflexivity). cbn [length Nat.sub]. rewrite Nat.sub_0_r. destruct s as [|x s].
    + cbn [nicmp hd length]. unfold diff. rewrite upper_zero. split; [intros K; lia|intros [K _]; lia].
    + cbn [nicmp length up map]. specialize (IH s ltac:(intros K; apply Hp; right; exact K)). destruct (diff x y =? 0)%Z eqn:D.
      * apply diff_zero in D. rewrite IH. destruct p as [|z p]; [cbn [length Nat.sub firstn]; split; (intros [? ?]; split; [lia|reflexivity])|].
        cbn [length Nat.sub firstn]. rewrite Nat.sub_0_r, D. split; intros [K1 K2]; (split; [lia|]); [f_equal; exact K2|injection K2 as K2; exact K2].
      * assert (Q : to_upper x <> to_upper y) by (intros K; apply diff_zero in K; congruence). destruct p as [|z p].
        -- cbn [length firstn]. split; [intros _; split; [lia|reflexivity]|reflexivity].
        -- cbn [length firstn]. unfold diff. split; [intros K; lia|]. intros [_ K]. injection K as K _. congruence.
Qed.
