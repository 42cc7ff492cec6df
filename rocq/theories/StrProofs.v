(** Lemmas about string searching. *)
From Coq Require Import Arith NArith ZArith List Bool Lia.
From Coq Require Import ZifyBool ZifyNat ZifyN.
From Verif Require Import Base CTypeModel CodecModel StrModel StrSpec.
Import ListNotations.
Local Open Scope N_scope.

(** ** Ranges *)
Lemma sub_length : forall m i j, valid m i j -> length (sub m i j) = (j - i)%nat.
Proof. intros m i j [H1 H2]. unfold sub. rewrite firstn_length, skipn_length. lia. Qed.
Lemma nth_skipn : forall (m : list N) i k, nth_error (skipn i m) k = nth_error m (i + k).
Proof. induction m as [|x m IH]; intros [|i] k; cbn [skipn plus]; try reflexivity; [destruct k; reflexivity|]. apply IH. Qed.
Lemma nth_firstn : forall (l : list N) n k, (k < n)%nat -> nth_error (firstn n l) k = nth_error l k.
Proof. induction l as [|x l IH]; intros [|n] [|k] H; cbn; try lia; try reflexivity. apply IH. lia. Qed.
Lemma sub_nth : forall m i j k, (i + k < j)%nat -> nth_error (sub m i j) k = nth_error m (i + k).
Proof. intros m i j k H. unfold sub. rewrite nth_firstn by lia. apply nth_skipn. Qed.
Lemma sub_in : forall m i j c, In c (sub m i j) <-> exists k, (i <= k < j)%nat /\ nth_error m k = Some c.
Proof.
  intros m i j c. split.
  - intros H. apply In_nth_error in H. destruct H as (k & H).
    assert (K : (k < length (sub m i j))%nat) by (apply nth_error_Some; congruence).
    assert (K2 : (i + k < j)%nat) by (unfold sub in K; rewrite firstn_length in K; lia).
    rewrite sub_nth in H by exact K2. exists (i + k)%nat. split; [lia|exact H].
  - intros (k & Hk & H). replace k with (i + (k - i))%nat in H by lia. rewrite <- (sub_nth m i j) in H by lia. eapply nth_error_In. exact H.
Qed.
Lemma nth_ex : forall (m : list N) k, (k < length m)%nat -> exists c, nth_error m k = Some c.
Proof. intros m k H. destruct (nth_error m k) as [c|] eqn:E; [exists c; reflexivity|]. apply nth_error_None in E. lia. Qed.
Lemma sub_cons : forall m i j c, (i < j)%nat -> nth_error m i = Some c -> sub m i j = c :: sub m (S i) j.
Proof.
  intros m i j c H E. unfold sub. replace (j - i)%nat with (S (j - S i)) by lia.
  assert (S1 : skipn i m = c :: skipn (S i) m).
  { clear H. revert m E. induction i as [|i IH]; intros [|x m] E; try discriminate; [cbn in *; congruence|]. cbn [skipn nth_error] in *. rewrite (IH m E). reflexivity. }
  rewrite S1. reflexivity.
Qed.
Lemma sub_nil : forall m i j, (j <= i)%nat -> sub m i j = [].
Proof. intros m i j H. unfold sub. replace (j - i)%nat with 0%nat by lia. reflexivity. Qed.
Lemma skipn_plus : forall (l : list N) a b, skipn a (skipn b l) = skipn (a + b) l.
Proof.
  intros l a b. revert l. induction b as [|b IH]; intros l; [rewrite Nat.add_0_r; reflexivity|].
  destruct l as [|x l]; [rewrite !skipn_nil; reflexivity|]. rewrite Nat.add_succ_r. cbn [skipn]. apply IH.
Qed.
Lemma firstn_plus : forall (l : list N) a b, firstn (a + b) l = firstn a l ++ firstn b (skipn a l).
Proof. induction l as [|x l IH]; intros [|a] b; cbn [plus firstn skipn app]; try reflexivity; [rewrite firstn_nil; reflexivity|]. rewrite IH. reflexivity. Qed.
Lemma sub_app : forall m i j k, (i <= j <= k)%nat -> sub m i k = sub m i j ++ sub m j k.
Proof.
  intros m i j k H. unfold sub. replace (k - i)%nat with ((j - i) + (k - j))%nat by lia. rewrite firstn_plus, skipn_plus.
  replace (j - i + i)%nat with j by lia. reflexivity.
Qed.
Lemma sub_eq : forall m a b n, (a + n <= length m)%nat -> (b + n <= length m)%nat ->
  (sub m a (a + n) = sub m b (b + n) <-> forall k, (k < n)%nat -> nth_error m (a + k) = nth_error m (b + k)).
Proof.
  intros m a b n. revert a b. induction n as [|n IH]; intros a b Ha Hb.
  - rewrite !sub_nil by lia. split; [intros _ k Hk; lia|reflexivity].
  - destruct (nth_ex m a ltac:(lia)) as (x & Ex). destruct (nth_ex m b ltac:(lia)) as (y & Ey).
    rewrite (sub_cons m a _ x) by (try exact Ex; lia). rewrite (sub_cons m b _ y) by (try exact Ey; lia).
    replace (a + S n)%nat with (S a + n)%nat by lia. replace (b + S n)%nat with (S b + n)%nat by lia.
    specialize (IH (S a) (S b) ltac:(lia) ltac:(lia)). split.
    + intros H k Hk. injection H as -> H. destruct k as [|k]; [rewrite !Nat.add_0_r; congruence|].
      rewrite IH in H. rewrite !Nat.add_succ_r. apply H. lia.
    + intros H. f_equal.
      * specialize (H 0%nat ltac:(lia)). rewrite !Nat.add_0_r in H. congruence.
      * apply IH. intros k Hk. specialize (H (S k) ltac:(lia)). rewrite !Nat.add_succ_r in H. exact H.
Qed.
Lemma distance_ok : forall a b, (a <= b)%nat -> distance a b = Some (b - a)%nat.
Proof. intros a b H. unfold distance. destruct (Nat.leb_spec a b); [reflexivity|lia]. Qed.

(** ** memchr, memcmp *)
Lemma memchr_spec : forall m n i c, (i + n <= length m)%nat -> exists r, memchr m i n c = Some r /\
  match r with
  | Some p => (i <= p < i + n)%nat /\ nth_error m p = Some c /\ forall k, (i <= k < p)%nat -> nth_error m k <> Some c
  | None => forall k, (i <= k < i + n)%nat -> nth_error m k <> Some c
  end.
Proof.
  intros m n. induction n as [|n IH]; intros i c H; cbn [memchr].
  - exists None. split; [reflexivity|]. intros k Hk. lia.
  - destruct (nth_ex m i ltac:(lia)) as (x & E). rewrite E. destruct (N.eqb_spec x c) as [->|Q].
    + exists (Some i). split; [reflexivity|]. split; [lia|]. split; [exact E|]. intros k Hk. lia.
    + destruct (IH (S i) c ltac:(lia)) as (r & Er & D). exists r. split; [exact Er|]. destruct r as [p|].
      * destruct D as (D1 & D2 & D3). split; [lia|]. split; [exact D2|]. intros k Hk. destruct (Nat.eq_dec k i) as [->|Qk]; [rewrite E; congruence|apply D3; lia].
      * intros k Hk. destruct (Nat.eq_dec k i) as [->|Qk]; [rewrite E; congruence|apply D; lia].
Qed.
Lemma memchr_set : forall m f n c, (f + n <= length m)%nat -> exists r, memchr m f n c = Some r /\ (is_some r = true <-> In c (sub m f (f + n))).
Proof.
  intros m f n c H. destruct (memchr_spec m n f c H) as (r & E & D). exists r. split; [exact E|]. rewrite sub_in. destruct r as [p|]; cbn [is_some].
  - split; [intros _; exists p; split; [lia|apply D]|reflexivity].
  - split; [discriminate|]. intros (k & Hk & Q). destruct (D k Hk Q).
Qed.
Lemma memcmp_spec : forall m n a b, (a + n <= length m)%nat -> (b + n <= length m)%nat ->
  exists r, memcmp m a b n = Some r /\
   ((r = 0%Z /\ sub m a (a + n) = sub m b (b + n)) \/
    exists k x y, (k < n)%nat /\ sub m a (a + k) = sub m b (b + k) /\ nth_error m (a + k) = Some x /\ nth_error m (b + k) = Some y /\ x <> y /\ r = (Z.of_N x - Z.of_N y)%Z).
Proof.
  intros m n. induction n as [|n IH]; intros a b Ha Hb; cbn [memcmp].
  - exists 0%Z. split; [reflexivity|]. left. split; [reflexivity|]. rewrite !sub_nil by lia. reflexivity.
  - destruct (nth_ex m a ltac:(lia)) as (x & Ex). destruct (nth_ex m b ltac:(lia)) as (y & Ey). rewrite Ex, Ey.
    destruct (N.eqb_spec x y) as [->|Q].
    + destruct (IH (S a) (S b) ltac:(lia) ltac:(lia)) as (r & E & D). exists r. split; [exact E|].
      replace (a + S n)%nat with (S a + n)%nat by lia. replace (b + S n)%nat with (S b + n)%nat by lia.
      destruct D as [[-> D]|(k & u & v & Hk & D & D1 & D2 & D3 & D4)].
      * left. split; [reflexivity|]. rewrite (sub_cons m a _ y), (sub_cons m b _ y) by (try assumption; lia). f_equal. exact D.
      * right. exists (S k), u, v. split; [lia|]. replace (a + S k)%nat with (S a + k)%nat by lia. replace (b + S k)%nat with (S b + k)%nat by lia.
        repeat split; try assumption. rewrite (sub_cons m a _ y), (sub_cons m b _ y) by (try assumption; lia). f_equal. exact D.
    + exists (Z.of_N x - Z.of_N y)%Z. split; [reflexivity|]. right. exists 0%nat, x, y. rewrite !Nat.add_0_r. repeat split; try assumption; try lia.
      rewrite !sub_nil by lia. reflexivity.
Qed.
Lemma memcmp_zero : forall m n a b, (a + n <= length m)%nat -> (b + n <= length m)%nat ->
  exists r, memcmp m a b n = Some r /\ (r = 0%Z <-> sub m a (a + n) = sub m b (b + n)).
Proof.
  intros m n a b Ha Hb. destruct (memcmp_spec m n a b Ha Hb) as (r & E & D). exists r. split; [exact E|].
  destruct D as [[-> D]|(k & x & y & Hk & _ & D1 & D2 & D3 & ->)]; [split; auto|]. split; [intros Q; exfalso; lia|].
  intros Q. rewrite (sub_eq m a b n Ha Hb) in Q. specialize (Q k Hk). congruence.
Qed.

(** ** Characters *)
Lemma find_char_n_spec : forall m first last c, valid m first last ->
  exists p, tmsu_find_char_n m first last c = Some p /\ is_first (fun k => nth_error m k = Some c) first last p.
Proof.
  intros m first last c [H1 H2]. unfold tmsu_find_char_n. destruct (Nat.eqb_spec first last) as [->|Q].
  - exists last. split; [reflexivity|]. split; [right; reflexivity|]. intros k Hk. lia.
  - rewrite distance_ok by exact H1. destruct (memchr_spec m (last - first) first c ltac:(lia)) as (r & E & D). rewrite E.
    eexists. split; [reflexivity|]. destruct r as [p|].
    + destruct D as (D1 & D2 & D3). split; [left; split; [lia|exact D2]|exact D3].
    + split; [right; reflexivity|]. intros k Hk. apply D. lia.
Qed.
Lemma find_char2_n_spec : forall m first last a b, valid m first last ->
  exists p, tmsu_find_char2_n m first last a b = Some p /\ is_first (fun k => nth_error m k = Some a \/ nth_error m k = Some b) first last p.
Proof.
  intros m first last a b [H1 H2]. unfold tmsu_find_char2_n. rewrite distance_ok by exact H1. destruct (Nat.eqb_spec (last - first) 0) as [Q|Q].
  - exists last. split; [reflexivity|]. split; [right; reflexivity|]. intros k Hk. lia.
  - destruct (memchr_spec m (last - first) first a ltac:(lia)) as (ra & Ea & Da). rewrite Ea.
    destruct (memchr_spec m (last - first) first b ltac:(lia)) as (rb & Eb & Db). rewrite Eb.
    eexists. split; [reflexivity|].
    destruct ra as [pa|]; destruct rb as [pb|].
    + destruct Da as (A1 & A2 & A3). destruct Db as (B1 & B2 & B3). destruct (Nat.ltb_spec pa pb).
      * split; [left; split; [lia|left; exact A2]|]. intros k Hk [K|K]; [eapply A3|eapply B3]; try exact K; lia.
      * split; [left; split; [lia|right; exact B2]|]. intros k Hk [K|K]; [eapply A3|eapply B3]; try exact K; lia.
    + destruct Da as (A1 & A2 & A3). destruct (Nat.ltb_spec pa last); [|lia].
      split; [left; split; [lia|left; exact A2]|]. intros k Hk [K|K]; [eapply A3|eapply Db]; try exact K; lia.
    + destruct Db as (B1 & B2 & B3). destruct (Nat.ltb_spec last pb); [lia|].
      split; [left; split; [lia|right; exact B2]|]. intros k Hk [K|K]; [eapply Da|eapply B3]; try exact K; lia.
    + rewrite Nat.ltb_irrefl. split; [right; reflexivity|]. intros k Hk [K|K]; [eapply Da|eapply Db]; try exact K; lia.
Qed.
Lemma last_char_loop_spec : forall m n first c nf, (first + n <= length m)%nat ->
  exists r, is_last (fun k => nth_error m k = Some c) first (first + n) r /\
    last_char_loop m first n c nf = Some (match r with Some p => Some p | None => nf end).
Proof.
  intros m n. induction n as [|n IH]; intros first c nf H; cbn [last_char_loop].
  - exists None. split; [|reflexivity]. intros k Hk. lia.
  - destruct (nth_ex m (first + n) ltac:(lia)) as (x & E). rewrite E. destruct (N.eqb_spec x c) as [->|Q].
    + exists (Some (first + n)%nat). split; [|reflexivity]. split; [lia|]. split; [exact E|]. intros k Hk. lia.
    + destruct (IH first c nf ltac:(lia)) as (r & D & Er). exists r. split; [|exact Er]. destruct r as [p|].
      * destruct D as (D1 & D2 & D3). split; [lia|]. split; [exact D2|]. intros k Hk. destruct (Nat.eq_dec k (first + n)) as [->|Qk]; [rewrite E; congruence|apply D3; lia].
      * intros k Hk. destruct (Nat.eq_dec k (first + n)) as [->|Qk]; [rewrite E; congruence|apply D; lia].
Qed.
Lemma find_last_char_n_ex_spec : forall m first last c nf, valid m first last ->
  exists r, is_last (fun k => nth_error m k = Some c) first last r /\
    tmsu_find_last_char_n_ex m first last c nf = Some (match r with Some p => Some p | None => nf end).
Proof.
  intros m first last c nf [H1 H2]. unfold tmsu_find_last_char_n_ex. rewrite distance_ok by exact H1.
  destruct (last_char_loop_spec m (last - first) first c nf ltac:(lia)) as (r & D & E). exists r. split; [|exact E].
  replace (first + (last - first))%nat with last in D by lia. exact D.
Qed.

(** ** Substrings *)
Lemma find_loop_spec : forall m fuel cur search_last c f1 n1 last, (cur <= search_last)%nat -> (search_last + n1 <= length m)%nat ->
  (f1 + n1 <= length m)%nat -> (search_last - cur < fuel)%nat ->
  exists p, find_loop m fuel cur search_last c f1 n1 last = Some p /\
    ((p = last /\ forall k, (cur <= k < search_last)%nat -> ~ (nth_error m k = Some c /\ sub m (S k) (S k + n1) = sub m f1 (f1 + n1))) \/
     is_first (fun k => nth_error m k = Some c /\ sub m (S k) (S k + n1) = sub m f1 (f1 + n1)) cur search_last p /\ (p < search_last)%nat).
Proof.
  intros m fuel. induction fuel as [|fuel IH]; intros cur sl c f1 n1 last Hc Hs Hf Hfu; [lia|]. cbn [find_loop].
  destruct (find_char_n_spec m cur sl c ltac:(split; lia)) as (p & E & D). rewrite E. destruct D as [D1 D2].
  destruct (Nat.eqb_spec p sl) as [->|Q].
  - exists last. split; [reflexivity|]. left. split; [reflexivity|]. intros k Hk [K _]. exact (D2 k Hk K).
  - destruct D1 as [[D1 D3]|D1]; [|congruence].
    destruct (memcmp_zero m n1 (S p) f1 ltac:(lia) Hf) as (r & Er & Dr). rewrite Er. destruct (Z.eqb_spec r 0) as [Z|Z].
    + exists p. split; [reflexivity|]. right. split; [|lia]. split; [left; split; [lia|split; [exact D3|apply Dr; exact Z]]|].
      intros k Hk [K _]. exact (D2 k Hk K).
    + destruct (IH (S p) sl c f1 n1 last ltac:(lia) Hs Hf ltac:(lia)) as (q & Eq & Dq). exists q. split; [exact Eq|].
      assert (Np : ~ (nth_error m p = Some c /\ sub m (S p) (S p + n1) = sub m f1 (f1 + n1))) by (intros [_ K]; apply Z; apply Dr; exact K).
      destruct Dq as [[-> Dq]|[[Dq1 Dq2] Dq3]].
      * left. split; [reflexivity|]. intros k Hk K. destruct (le_lt_dec k p) as [L|L]; [|apply (Dq k ltac:(lia) K)].
        destruct (Nat.eq_dec k p) as [->|Qk]; [exact (Np K)|]. exact (D2 k ltac:(lia) (proj1 K)).
      * right. split; [|exact Dq3]. split; [destruct Dq1 as [[? ?]|?]; [left; split; [lia|assumption]|lia]|].
        intros k Hk K. destruct (le_lt_dec k p) as [L|L]; [|apply (Dq2 k ltac:(lia) K)].
        destruct (Nat.eq_dec k p) as [->|Qk]; [exact (Np K)|]. exact (D2 k ltac:(lia) (proj1 K)).
Qed.
Lemma occurs_head : forall m last f fl c p, valid m f fl -> (f < fl)%nat -> (last <= length m)%nat -> nth_error m f = Some c -> (p + (fl - f) <= last)%nat ->
  (occurs m last (sub m f fl) p <-> nth_error m p = Some c /\ sub m (S p) (S p + (fl - f - 1)) = sub m (S f) (S f + (fl - f - 1))).
Proof.
  intros m last f fl c p Hv Hf Hl Ec Hp. unfold occurs. rewrite sub_length by exact Hv. destruct Hv as [V1 V2].
  rewrite (sub_cons m f fl c Hf Ec). destruct (nth_ex m p ltac:(lia)) as (x & Ex). rewrite (sub_cons m p _ x) by (try exact Ex; lia).
  rewrite Ex. replace (p + (fl - f))%nat with (S p + (fl - f - 1))%nat by lia. replace (S f + (fl - f - 1))%nat with fl by lia.
  split.
  - intros [_ H]. injection H as -> H. split; [reflexivity|exact H].
  - intros [H1 H2]. split; [lia|]. congruence.
Qed.
Lemma find_n_spec : forall m first last f fl, valid m first last -> valid m f fl ->
  exists p, tmsu_find_n m first last f fl = Some p /\ is_first (occurs m last (sub m f fl)) first last p.
Proof.
  intros m first last f fl [A1 A2] [B1 B2]. unfold tmsu_find_n. rewrite !distance_ok by assumption.
  destruct (Nat.eqb_spec (fl - f) 0) as [Z|Z].
  { exists first. split; [reflexivity|]. split; [|intros k Hk; lia]. destruct (Nat.eq_dec first last) as [->|Q]; [right; reflexivity|left].
    split; [lia|]. unfold occurs. rewrite (sub_nil m f fl) by lia. cbn [length]. rewrite Nat.add_0_r. split; [lia|]. apply sub_nil. lia. }
  destruct (Nat.ltb_spec (last - first) (fl - f)) as [L|L].
  { exists last. split; [reflexivity|]. split; [right; reflexivity|]. intros k Hk [K _]. rewrite sub_length in K by (split; assumption). lia. }
  destruct (nth_ex m f ltac:(lia)) as (c & Ec). rewrite Ec. set (n1 := (fl - f - 1)%nat). set (sl := (last - n1)%nat).
  destruct (find_loop_spec m (S (sl - first)) first sl c (S f) n1 last ltac:(unfold sl, n1; lia) ltac:(unfold sl, n1; lia) ltac:(unfold n1; lia) ltac:(lia)) as (p & E & D).
  exists p. split; [exact E|].
  assert (O : forall k, (k < sl)%nat -> (occurs m last (sub m f fl) k <-> nth_error m k = Some c /\ sub m (S k) (S k + n1) = sub m (S f) (S f + n1))).
  { intros k Hk. apply occurs_head; [split; assumption|lia|assumption|assumption|unfold sl, n1 in Hk; lia]. }
  assert (O2 : forall k, (sl <= k)%nat -> ~ occurs m last (sub m f fl) k).
  { intros k Hk [K _]. rewrite sub_length in K by (split; assumption). unfold sl, n1 in Hk. lia. }
  destruct D as [[-> D]|[[D1 D2] D3]].
  - split; [right; reflexivity|]. intros k Hk K. destruct (le_lt_dec sl k) as [Q|Q]; [exact (O2 k Q K)|]. apply (D k ltac:(lia)). apply O; assumption.
  - split.
    + left. destruct D1 as [[? D1]|?]; [|lia]. split; [unfold sl in D3; lia|]. apply O; assumption.
    + intros k Hk K. apply (D2 k Hk). apply O; [lia|exact K].
Qed.

Lemma find_last_loop_spec : forall m fuel first prev c f1 n1 nf, (first <= prev)%nat -> (prev + n1 <= length m)%nat ->
  (f1 + n1 <= length m)%nat -> (prev - first < fuel)%nat ->
  exists r, is_last (fun k => nth_error m k = Some c /\ sub m (S k) (S k + n1) = sub m f1 (f1 + n1)) first prev r /\
    find_last_loop m fuel first prev c f1 n1 nf = Some (match r with Some p => Some p | None => nf end).
Proof.
  intros m fuel. induction fuel as [|fuel IH]; intros first prev c f1 n1 nf Hc Hs Hf Hfu; [lia|]. cbn [find_last_loop]. unfold tmsu_find_last_char_n.
  destruct (find_last_char_n_ex_spec m first prev c (Some prev) ltac:(split; lia)) as (r & D & E). rewrite E. destruct r as [p|].
  - destruct D as (D1 & D2 & D3). destruct (Nat.eqb_spec p prev); [lia|].
    destruct (memcmp_zero m n1 (S p) f1 ltac:(lia) Hf) as (z & Er & Dr). rewrite Er. destruct (Z.eqb_spec z 0) as [Z|Z].
    + exists (Some p). split; [|reflexivity]. split; [lia|]. split; [split; [exact D2|apply Dr; exact Z]|]. intros k Hk [K _]. exact (D3 k Hk K).
    + destruct (IH first p c f1 n1 nf ltac:(lia) ltac:(lia) Hf ltac:(lia)) as (q & Dq & Eq). exists q. split; [|exact Eq].
      assert (Np : ~ (nth_error m p = Some c /\ sub m (S p) (S p + n1) = sub m f1 (f1 + n1))) by (intros [_ K]; apply Z; apply Dr; exact K).
      destruct q as [q|].
      * destruct Dq as (Q1 & Q2 & Q3). split; [lia|]. split; [exact Q2|]. intros k Hk K. destruct (le_lt_dec k p) as [L|L]; [|exact (D3 k ltac:(lia) (proj1 K))].
        destruct (Nat.eq_dec k p) as [->|Qk]; [exact (Np K)|]. exact (Q3 k ltac:(lia) K).
      * intros k Hk K. destruct (le_lt_dec k p) as [L|L]; [|exact (D3 k ltac:(lia) (proj1 K))].
        destruct (Nat.eq_dec k p) as [->|Qk]; [exact (Np K)|]. exact (Dq k ltac:(lia) K).
  - rewrite Nat.eqb_refl. exists None. split; [|reflexivity]. intros k Hk [K _]. exact (D k Hk K).
Qed.
Lemma find_last_n_spec : forall m first last f fl nf, valid m first last -> valid m f fl -> (f < fl)%nat ->
  exists r, is_last (occurs m last (sub m f fl)) first last r /\
    tmsu_find_last_n_ex m first last f fl nf = Some (match r with Some p => Some p | None => nf end).
Proof.
  intros m first last f fl nf [A1 A2] [B1 B2] Hn. unfold tmsu_find_last_n_ex. rewrite !distance_ok by assumption.
  destruct (Nat.eqb_spec (fl - f) 0) as [Z|Z]; [lia|].
  destruct (Nat.ltb_spec (last - first) (fl - f)) as [L|L].
  { exists None. split; [|reflexivity]. intros k Hk [K _]. rewrite sub_length in K by (split; assumption). lia. }
  destruct (nth_ex m f ltac:(lia)) as (c & Ec). rewrite Ec. set (n1 := (fl - f - 1)%nat). set (sl := (last - n1)%nat).
  destruct (find_last_loop_spec m (S (sl - first)) first sl c (S f) n1 nf ltac:(unfold sl, n1; lia) ltac:(unfold sl, n1; lia) ltac:(unfold n1; lia) ltac:(lia)) as (r & D & E).
  exists r. split; [|exact E].
  assert (O : forall k, (k < sl)%nat -> (occurs m last (sub m f fl) k <-> nth_error m k = Some c /\ sub m (S k) (S k + n1) = sub m (S f) (S f + n1))).
  { intros k Hk. apply occurs_head; [split; assumption|lia|assumption|assumption|unfold sl, n1 in Hk; lia]. }
  assert (O2 : forall k, (sl <= k)%nat -> ~ occurs m last (sub m f fl) k).
  { intros k Hk [K _]. rewrite sub_length in K by (split; assumption). unfold sl, n1 in Hk. lia. }
  destruct r as [p|].
  - destruct D as (D1 & D2 & D3). split; [unfold sl in D1; lia|]. split; [apply O; [lia|exact D2]|]. intros k Hk K.
    destruct (le_lt_dec sl k) as [Q|Q]; [exact (O2 k Q K)|]. apply (D3 k ltac:(lia)). apply O; assumption.
  - intros k Hk K. destruct (le_lt_dec sl k) as [Q|Q]; [exact (O2 k Q K)|]. apply (D k ltac:(lia)). apply O; assumption.
Qed.

(** ** Sets *)
Lemma scan_of_spec : forall m n i f fn cont, (i + n <= length m)%nat -> (f + fn <= length m)%nat ->
  exists p, scan_of m n i f fn cont = Some p /\
    is_first (fun k => if cont then non_member m (sub m f (f + fn)) k else member m (sub m f (f + fn)) k) i (i + n) p.
Proof.
  intros m n. induction n as [|n IH]; intros i f fn cont H Hf; cbn [scan_of].
  - exists i. split; [reflexivity|]. split; [right; lia|]. intros k Hk. lia.
  - destruct (nth_ex m i ltac:(lia)) as (x & E). rewrite E. destruct (memchr_set m f fn x Hf) as (r & Er & Dr). rewrite Er.
    destruct (Bool.eqb (is_some r) cont) eqn:B.
    + apply Bool.eqb_prop in B. destruct (IH (S i) f fn cont ltac:(lia) Hf) as (p & Ep & D1 & D2). exists p. split; [exact Ep|].
      split; [destruct D1 as [[? ?]|?]; [left; split; [lia|assumption]|right; lia]|].
      intros k Hk K. destruct (Nat.eq_dec k i) as [->|Q]; [|exact (D2 k ltac:(lia) K)].
      destruct cont; destruct K as (c & Ec & Ic); rewrite E in Ec; injection Ec as <-.
      * apply Ic. apply Dr. exact B.
      * apply Dr in Ic. congruence.
    + exists i. split; [reflexivity|]. split; [|intros k Hk; lia]. left. split; [lia|]. apply Bool.eqb_false_iff in B.
      destruct cont.
      * exists x. split; [exact E|]. intros I. apply Dr in I. congruence.
      * exists x. split; [exact E|]. apply Dr. destruct (is_some r); congruence.
Qed.
Lemma find_first_of_n_spec : forall m first last f fl, valid m first last -> valid m f fl -> (f < fl)%nat ->
  exists p, tmsu_find_first_of_n m first last f fl = Some p /\ is_first (member m (sub m f fl)) first last p.
Proof.
  intros m first last f fl [A1 A2] [B1 B2] Hn. unfold tmsu_find_first_of_n. rewrite !distance_ok by assumption.
  destruct (Nat.eqb_spec f fl); [lia|]. destruct (scan_of_spec m (last - first) first f (fl - f) false ltac:(lia) ltac:(lia)) as (p & E & D).
  exists p. split; [exact E|]. replace (f + (fl - f))%nat with fl in D by lia. replace (first + (last - first))%nat with last in D by lia. exact D.
Qed.
Lemma find_first_not_of_n_spec : forall m first last f fl, valid m first last -> valid m f fl ->
  exists p, tmsu_find_first_not_of_n m first last f fl = Some p /\ is_first (non_member m (sub m f fl)) first last p.
Proof.
  intros m first last f fl [A1 A2] [B1 B2]. unfold tmsu_find_first_not_of_n. rewrite !distance_ok by assumption.
  destruct (Nat.eqb_spec (fl - f) 0) as [Z|Z].
  - exists first. split; [reflexivity|]. split; [|intros k Hk; lia]. destruct (Nat.eq_dec first last) as [->|Q]; [right; reflexivity|left].
    split; [lia|]. destruct (nth_ex m first ltac:(lia)) as (c & E). exists c. split; [exact E|]. rewrite sub_nil by lia. intros [].
  - destruct (scan_of_spec m (last - first) first f (fl - f) true ltac:(lia) ltac:(lia)) as (p & E & D).
    exists p. split; [exact E|]. replace (f + (fl - f))%nat with fl in D by lia. replace (first + (last - first))%nat with last in D by lia. exact D.
Qed.
Lemma scan_back_spec : forall m n first f fn cont, (first + n <= length m)%nat -> (f + fn <= length m)%nat ->
  exists k, scan_back m n first f fn cont = Some k /\ (k <= n)%nat /\
    is_last (fun p => if cont then non_member m (sub m f (f + fn)) p else member m (sub m f (f + fn)) p) first (first + n)
      (if (k =? 0)%nat then None else Some (first + k - 1)%nat).
Proof.
  intros m n. induction n as [|n IH]; intros first f fn cont H Hf; cbn [scan_back].
  - exists 0%nat. split; [reflexivity|]. split; [lia|]. intros k Hk. lia.
  - destruct (nth_ex m (first + n) ltac:(lia)) as (x & E). rewrite E. destruct (memchr_set m f fn x Hf) as (r & Er & Dr). rewrite Er.
    destruct (Bool.eqb (is_some r) cont) eqn:B.
    + apply Bool.eqb_prop in B. destruct (IH first f fn cont ltac:(lia) Hf) as (k & Ek & Lk & D). exists k. split; [exact Ek|]. split; [lia|].
      assert (Nn : ~ (if cont then non_member m (sub m f (f + fn)) (first + n) else member m (sub m f (f + fn)) (first + n))).
      { destruct cont; intros (c & Ec & Ic); rewrite E in Ec; injection Ec as <-.
        - apply Ic. apply Dr. exact B.
        - apply Dr in Ic. congruence. }
      destruct (k =? 0)%nat.
      * intros j Hj J. destruct (Nat.eq_dec j (first + n)) as [->|Q]; [exact (Nn J)|]. exact (D j ltac:(lia) J).
      * destruct D as (D1 & D2 & D3). split; [lia|]. split; [exact D2|]. intros j Hj J. destruct (Nat.eq_dec j (first + n)) as [->|Q]; [exact (Nn J)|]. exact (D3 j ltac:(lia) J).
    + exists (S n). split; [reflexivity|]. split; [lia|]. cbn [Nat.eqb]. replace (first + S n - 1)%nat with (first + n)%nat by lia. split; [lia|].
      split; [|intros j Hj; lia]. apply Bool.eqb_false_iff in B. destruct cont.
      * exists x. split; [exact E|]. intros I. apply Dr in I. congruence.
      * exists x. split; [exact E|]. apply Dr. destruct (is_some r); congruence.
Qed.
Lemma find_last_set_spec : forall m (cont : bool) first last f fl nf, valid m first last -> valid m f fl ->
  exists r, is_last (fun p => if cont then non_member m (sub m f fl) p else member m (sub m f fl) p) first last r /\
    find_last_n_ex m cont first last f fl nf = Some (match r with Some p => Some p | None => nf end).
Proof.
  intros m cont first last f fl nf [A1 A2] [B1 B2]. unfold find_last_n_ex. destruct (Nat.eqb_spec first last) as [->|Q].
  - exists None. split; [|reflexivity]. intros k Hk. lia.
  - rewrite !distance_ok by assumption. destruct (scan_back_spec m (last - first) first f (fl - f) cont ltac:(lia) ltac:(lia)) as (k & E & L & D).
    rewrite E. replace (f + (fl - f))%nat with fl in D by lia. replace (first + (last - first))%nat with last in D by lia.
    exists (if (k =? 0)%nat then None else Some (first + k - 1)%nat). split; [exact D|]. destruct (k =? 0)%nat; reflexivity.
Qed.
