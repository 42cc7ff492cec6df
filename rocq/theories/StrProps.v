(** Properties C20-C27 and C67-C71: string searching, tokenizing, trimming and comparison of tm_stringutil.h. *)
From Coq Require Import Arith NArith ZArith String List Bool Lia.
From Coq Require Import ZifyBool ZifyNat ZifyN.
From Verif Require Import Base CTypeModel CodecModel DigitsSpec DigitsProofs StrModel StrSpec StrProofs StrMore StrHuman StrZ StrRest.
Import ListNotations.
Local Open Scope N_scope.

Definition bytes (m : list N) : Prop := Forall (fun c => c < 256) m.

(** ** C20: substring search *)
Theorem C20_find : forall m first last f fl, valid m first last -> valid m f fl ->
  exists p, tmsu_find_n m first last f fl = Some p /\ is_first (occurs m last (sub m f fl)) first last p.
Proof. exact find_n_spec. Qed.
Example C20_find_case : tmsu_find_n (bytes_of "abcabcabdabcabd|abcabd") 0 15 16 22 = Some 3%nat.
Proof. vm_compute. reflexivity. Qed.

(** For needles that are not empty; the not-found value is the caller's. *)
Theorem C20_find_last_partial : forall m first last f fl nf, valid m first last -> valid m f fl -> (f < fl)%nat ->
  exists r, is_last (occurs m last (sub m f fl)) first last r /\
    tmsu_find_last_n_ex m first last f fl nf = Some (match r with Some p => Some p | None => nf end).
Proof. exact find_last_n_spec. Qed.
Theorem C20_find_last_end_partial : forall m first last f fl, valid m first last -> valid m f fl -> (f < fl)%nat ->
  exists r, is_last (occurs m last (sub m f fl)) first last r /\
    tmsu_find_last_n m first last f fl = Some (match r with Some p => p | None => last end).
Proof.
  intros m first last f fl V W H. destruct (find_last_n_spec m first last f fl (Some last) V W H) as (r & D & E). exists r. split; [exact D|].
  unfold tmsu_find_last_n. rewrite E. destruct r; reflexivity.
Qed.
Example C20_find_last_case : tmsu_find_last_n (bytes_of "abcabdabcabdab|abcabd") 0 14 15 21 = Some 6%nat.
Proof. vm_compute. reflexivity. Qed.
(** The empty needle occurs last at the end, the function answers with the start. *)
Theorem C20_find_last_empty_refuted : exists m first last f, valid m first last /\ valid m f f /\
  occurs m last (sub m f f) last /\ tmsu_find_last_n m first last f f = Some first /\ (first < last)%nat.
Proof. exists [97; 98], 0%nat, 2%nat, 0%nat. repeat split; cbn; auto; lia. Qed.

(** ** C21: character searches *)
Theorem C21_find_char : forall m first last c, valid m first last ->
  exists p, tmsu_find_char_n m first last c = Some p /\ is_first (fun k => nth_error m k = Some c) first last p.
Proof. exact find_char_n_spec. Qed.
Theorem C21_find_char2 : forall m first last a b, valid m first last ->
  exists p, tmsu_find_char2_n m first last a b = Some p /\ is_first (fun k => nth_error m k = Some a \/ nth_error m k = Some b) first last p.
Proof. exact find_char2_n_spec. Qed.
Theorem C21_find_last_char : forall m first last c nf, valid m first last ->
  exists r, is_last (fun k => nth_error m k = Some c) first last r /\
    tmsu_find_last_char_n_ex m first last c nf = Some (match r with Some p => Some p | None => nf end).
Proof. exact find_last_char_n_ex_spec. Qed.
(** For sets that are not empty. *)
Theorem C21_find_first_of_partial : forall m first last f fl, valid m first last -> valid m f fl -> (f < fl)%nat ->
  exists p, tmsu_find_first_of_n m first last f fl = Some p /\ is_first (member m (sub m f fl)) first last p.
Proof. exact find_first_of_n_spec. Qed.
Theorem C21_find_first_not_of : forall m first last f fl, valid m first last -> valid m f fl ->
  exists p, tmsu_find_first_not_of_n m first last f fl = Some p /\ is_first (non_member m (sub m f fl)) first last p.
Proof. exact find_first_not_of_n_spec. Qed.
Theorem C21_find_last_of : forall m first last f fl nf, valid m first last -> valid m f fl ->
  exists r, is_last (member m (sub m f fl)) first last r /\
    tmsu_find_last_of_n_ex m first last f fl nf = Some (match r with Some p => Some p | None => nf end).
Proof. intros m. exact (find_last_set_spec m false). Qed.
Theorem C21_find_last_not_of : forall m first last f fl nf, valid m first last -> valid m f fl ->
  exists r, is_last (non_member m (sub m f fl)) first last r /\
    tmsu_find_last_not_of_n_ex m first last f fl nf = Some (match r with Some p => Some p | None => nf end).
Proof. intros m. exact (find_last_set_spec m true). Qed.
Example C21_case : let m := bytes_of "key = value; |=;" in
  tmsu_find_first_of_n m 0 13 14 16 = Some 4%nat /\ tmsu_find_first_not_of_n m 0 13 0 4 = Some 4%nat /\
  tmsu_find_last_of_n m 0 13 14 16 = Some 11%nat /\ tmsu_find_last_not_of_n m 0 13 11 13 = Some 10%nat /\
  tmsu_find_char2_n m 0 13 61 118 = Some 4%nat /\ tmsu_find_last_char_n m 0 13 101 = Some 10%nat.
Proof. vm_compute. repeat split. Qed.
(** With an empty set the search stops at the first character instead of the end. *)
Theorem C21_empty_set_refuted : exists m first last f, valid m first last /\ valid m f f /\
  (forall k, ~ member m (sub m f f) k) /\ tmsu_find_first_of_n m first last f f = Some first /\ first <> last.
Proof.
  exists [97; 98], 0%nat, 2%nat, 0%nat. split; [split; cbn; lia|]. split; [split; cbn; lia|]. split; [intros k (c & _ & []) |]. split; [reflexivity|discriminate].
Qed.

(** ** C22: escape aware search *)
Theorem C22_find_char_unescaped : forall m first last c esc, valid m first last ->
  exists p, tmsu_find_char_unescaped_n m first last c esc = Some p /\ is_first (unescaped m first last [c] esc) first last p.
Proof. exact find_char_unescaped_n_spec. Qed.
(** For sets that are not empty. *)
Theorem C22_find_first_of_unescaped_partial : forall m first last f fl esc, valid m first last -> valid m f fl -> (f < fl)%nat ->
  exists p, tmsu_find_first_of_unescaped_n m first last f fl esc = Some p /\ is_first (unescaped m first last (sub m f fl) esc) first last p.
Proof. exact find_first_of_unescaped_n_spec. Qed.
(** The reader is deterministic: a position begins a unit or is the second character of exactly one. *)
Theorem C22_units : forall m first esc i, (first <= i <= length m)%nat ->
  (unit_at m first esc i /\ ~ exists i', i = S i' /\ unit_at m first esc i' /\ nth_error m i' = Some esc) \/
  (~ unit_at m first esc i /\ exists i', i = S i' /\ unit_at m first esc i' /\ nth_error m i' = Some esc).
Proof.
  intros m first esc i H. destruct (unit_total m first esc i H) as [U|(j & -> & U & E)].
  - left. split; [exact U|]. intros (j & -> & V & E). exact (unit_excl _ _ _ _ V E U).
  - right. split; [exact (unit_excl _ _ _ _ U E)|]. exists j. auto.
Qed.
Example C22_case : let m := bytes_of "a\\\xx\\xb|x\b" in
  tmsu_find_char_unescaped_n m 0 9 120 92 = Some 5%nat /\ tmsu_find_char_unescaped_n m 0 9 92 92 = Some 3%nat /\
  tmsu_find_first_of_unescaped_n m 0 9 10 13 92 = Some 3%nat.
Proof. vm_compute. repeat split. Qed.
Theorem C22_empty_set_refuted : exists m first last f esc, valid m first last /\ valid m f f /\
  (forall k, ~ unescaped m first last (sub m f f) esc k) /\ tmsu_find_first_of_unescaped_n m first last f f esc = Some first /\ first <> last.
Proof.
  exists [97; 98], 0%nat, 2%nat, 0%nat, 92. split; [split; cbn; lia|]. split; [split; cbn; lia|]. split; [intros k [_ (c & _ & [] & _)]|]. split; [reflexivity|discriminate].
Qed.

(** ** C23: tokens *)
(** The calls up to and including the one that reports failure yield exactly the pieces, for non-empty delimiter sets. *)
Theorem C23_tokens_partial : forall m first last f fl, valid m first last -> valid m f fl -> (f < fl)%nat ->
  exists ts, token_calls m f fl last first ts /\ pieces (sub m f fl) (sub m first last) (texts m ts) /\
    Forall (fun t => first <= fst t /\ fst t <= snd t /\ snd t <= last)%nat ts.
Proof. intros m first last f fl [V1 V2] W H. apply (token_calls_spec m f fl last W H V2 (last - first) first); lia. Qed.
Theorem C23_skip_empty_partial : forall m first last f fl, valid m first last -> valid m f fl -> (f < fl)%nat ->
  exists ts ps, skip_calls m f fl last first ts /\ pieces (sub m f fl) (sub m first last) ps /\ texts m ts = filter nonempty ps.
Proof. intros m first last f fl [V1 V2] W H. apply (skip_calls_spec m f fl last W H V2 (last - first) first); lia. Qed.
Theorem C23_pieces_unique : forall D s ps ps', pieces D s ps -> pieces D s ps' -> ps = ps'.
Proof. intros D s ps ps' H H'. eapply pieces_unique; eassumption. Qed.
Example C23_case : let m := bytes_of ",ab,,c,|," in
  token_calls m 8 9 7 0 [(0, 0); (1, 3); (4, 4); (5, 6); (7, 7)]%nat /\ skip_calls m 8 9 7 0 [(1, 3); (5, 6)]%nat.
Proof.
  cbn zeta. split.
  - eapply Calls_more; [vm_compute; reflexivity|]. eapply Calls_more; [vm_compute; reflexivity|]. eapply Calls_more; [vm_compute; reflexivity|].
    eapply Calls_more; [vm_compute; reflexivity|]. eapply Calls_last. vm_compute. reflexivity.
  - eapply Skip_more; [vm_compute; reflexivity|]. eapply Skip_more; [vm_compute; reflexivity|]. eapply Skip_end. vm_compute. reflexivity.
Qed.
(** The last piece comes with the answer "no token": a loop that runs while the answer is true never sees it. *)
Theorem C23_last_token_refuted : exists m first last f fl, valid m first last /\ valid m f fl /\ (f < fl)%nat /\ (first < last)%nat /\
  exists out first', tmsu_next_token_n m first last f fl = Some (false, out, first') /\ pieces (sub m f fl) (sub m first last) [sub m first last].
Proof.
  exists (bytes_of "abc,"), 0%nat, 3%nat, 3%nat, 4%nat. split; [split; cbn; lia|]. split; [split; cbn; lia|]. split; [lia|]. split; [lia|].
  exists (0, 3)%nat, 3%nat. split; [vm_compute; reflexivity|]. constructor. intros c I J. cbn in I, J. lia.
Qed.
(** With an empty set next_token_n drops a character per call, and the skipping variant never advances. *)
Theorem C23_empty_delimiters_refuted : exists m first last f, valid m first last /\ valid m f f /\ (first < last)%nat /\
  tmsu_next_token_n m first last f f = Some (true, (first, first), S first) /\
  tmsu_next_token_skip_empty_n m first last f f = Some (Some (first, first), first).
Proof. exists (bytes_of "abc"), 0%nat, 3%nat, 0%nat. repeat split; cbn; lia. Qed.

(** ** C24: trimming; the characters of [ws, wl) are the whitespace characters. *)
Theorem C24_trim_left : forall m ws wl first last, valid m first last -> valid m ws wl ->
  exists p, tmsu_trim_left_n m ws wl first last = Some p /\ is_first (non_member m (sub m ws wl)) first last p.
Proof. intros m ws wl first last V W. apply find_first_not_of_n_spec; assumption. Qed.
Theorem C24_trim_right : forall m ws wl first last, valid m first last -> valid m ws wl ->
  exists p, tmsu_trim_right_n m ws wl first last = Some p /\ (first <= p <= last)%nat /\ (p = first \/ non_member m (sub m ws wl) (p - 1)) /\
    forall k, (p <= k < last)%nat -> ~ non_member m (sub m ws wl) k.
Proof. exact trim_right_spec. Qed.
(** For texts with at least one character that is kept. *)
Theorem C24_trim_partial : forall m ws wl first last, valid m first last -> valid m ws wl ->
  (exists k, (first <= k < last)%nat /\ non_member m (sub m ws wl) k) ->
  exists l r, tmsu_trim_n m ws wl first last = Some (l, r) /\ (first <= l < r)%nat /\ (r <= last)%nat /\
    non_member m (sub m ws wl) l /\ non_member m (sub m ws wl) (r - 1) /\
    (forall k, (first <= k < l)%nat -> ~ non_member m (sub m ws wl) k) /\ (forall k, (r <= k < last)%nat -> ~ non_member m (sub m ws wl) k).
Proof.
  intros m ws wl first last V W H. destruct (trim_n_spec m ws wl first last V W H) as (l & r & E & El & Er & L & R). exists l, r. split; [exact E|]. split; [exact L|]. split; [exact R|].
  destruct (C24_trim_left m ws wl first last V W) as (l' & E2 & L1 & L2). rewrite El in E2. injection E2 as <-.
  destruct (trim_right_spec m ws wl first last V W) as (r' & E3 & R0 & R1 & R2). rewrite Er in E3. injection E3 as <-.
  split; [destruct L1 as [[_ K]|K]; [exact K|lia]|]. split; [destruct R1 as [K|K]; [lia|exact K]|]. split; assumption.
Qed.
Example C24_case : tmsu_trim_n (bytes_of "  a b  | ") 8 9 0 7 = Some (2, 5)%nat /\ tmsu_trim_n (bytes_of "ab| ") 3 4 0 0 = Some (0, 0)%nat.
Proof. vm_compute. auto. Qed.
(** Every non-empty text of whitespace makes tmsu_trim_n build a view whose end is before its start. *)
Theorem C24_trim_blank_refuted : (forall m ws wl first last, valid m first last -> valid m ws wl -> (first < last)%nat ->
    (forall k, (first <= k < last)%nat -> ~ non_member m (sub m ws wl) k) -> tmsu_trim_n m ws wl first last = None) /\
  exists m ws wl first last, valid m first last /\ valid m ws wl /\ (first < last)%nat /\ tmsu_trim_n m ws wl first last = None.
Proof.
  split; [exact trim_n_blank|]. exists [32; 32], 0%nat, 1%nat, 0%nat, 2%nat. split; [split; cbn; lia|]. split; [split; cbn; lia|]. split; [lia|reflexivity].
Qed.

(** ** C25: comparison *)
Theorem C25_compare : forall m a al b bl, valid m a al -> valid m b bl ->
  exists r, tmsu_compare_n m a al b bl = Some r /\ orders lex_lt (sub m a al) (sub m b bl) r.
Proof. exact compare_n_spec. Qed.
Theorem C25_compare_ignore_case : forall m a al b bl, valid m a al -> valid m b bl ->
  exists r, tmsu_compare_ignore_case_ansi_n m a al b bl = Some r /\ orders lex_lt (map to_upper (sub m a al)) (map to_upper (sub m b bl)) r.
Proof. exact compare_ic_spec. Qed.
Theorem C25_equals : forall m a al b bl, valid m a al -> valid m b bl ->
  exists r, tmsu_equals_n m a al b bl = Some r /\ (r = true <-> sub m a al = sub m b bl) /\ (r = true <-> tmsu_compare_n m a al b bl = Some 0%Z).
Proof.
  intros m a al b bl Va Vb. destruct (equals_n_spec m a al b bl Va Vb) as (r & E & D). exists r. split; [exact E|]. split; [exact D|].
  destruct (compare_n_spec m a al b bl Va Vb) as (z & Ez & _ & Dz & _). rewrite Ez, D, <- Dz. split; congruence.
Qed.
Theorem C25_equals_ignore_case : forall m a al b bl, valid m a al -> valid m b bl ->
  exists r, tmsu_equals_ignore_case_ansi_n m a al b bl = Some r /\ (r = true <-> map to_upper (sub m a al) = map to_upper (sub m b bl)) /\
    (r = true <-> tmsu_compare_ignore_case_ansi_n m a al b bl = Some 0%Z).
Proof.
  intros m a al b bl Va Vb. destruct (equals_ic_spec m a al b bl Va Vb) as (r & E & D). exists r. split; [exact E|]. split; [exact D|].
  destruct (compare_ic_spec m a al b bl Va Vb) as (z & Ez & _ & Dz & _). rewrite Ez, D, <- Dz. split; congruence.
Qed.
(** The order the results describe is a strict total order. *)
Theorem C25_order : (forall a, ~ lex_lt a a) /\ (forall a b c, lex_lt a b -> lex_lt b c -> lex_lt a c) /\ (forall a b, lex_lt a b \/ a = b \/ lex_lt b a).
Proof. split; [exact lex_irrefl|]. split; [exact lex_trans|exact lex_total]. Qed.
Lemma orders_swap : forall a b r s, orders lex_lt a b r -> orders lex_lt b a s -> Z.sgn s = (- Z.sgn r)%Z.
Proof.
  intros a b r s (R1 & R2 & R3) (S1 & S2 & S3). destruct (lex_total a b) as [L | [L | L]].
  - apply R1 in L as L1. apply S3 in L. lia.
  - assert (r = 0%Z) by tauto. assert (s = 0%Z) by (apply S2; symmetry; exact L). lia.
  - apply R3 in L as L1. apply S1 in L. lia.
Qed.
Lemma orders_trans : forall a b c r s t, orders lex_lt a b r -> orders lex_lt b c s -> orders lex_lt a c t -> (r <= 0)%Z -> (s <= 0)%Z -> (t <= 0)%Z /\ (t = 0%Z -> r = 0%Z /\ s = 0%Z).
Proof.
  intros a b c r s t (R1 & R2 & R3) (S1 & S2 & S3) (T1 & T2 & T3) Hr Hs.
  destruct (Z.eq_dec r 0) as [Er|Er].
  - assert (a = b) by tauto. subst b. destruct (Z.eq_dec s 0) as [Es|Es].
    + assert (t = 0%Z) by tauto. lia.
    + assert (lex_lt a c) by (apply S1; lia). assert (t < 0)%Z by tauto. lia.
  - assert (La : lex_lt a b) by (apply R1; lia). assert (lex_lt a c).
    { destruct (Z.eq_dec s 0) as [Es|Es]; [assert (b = c) by tauto; subst; exact La|]. eapply lex_trans; [exact La|apply S1; lia]. }
    assert (t < 0)%Z by tauto. lia.
Qed.
Theorem C25_antisymmetric : forall m a al b bl r s, valid m a al -> valid m b bl ->
  tmsu_compare_n m a al b bl = Some r -> tmsu_compare_n m b bl a al = Some s -> Z.sgn s = (- Z.sgn r)%Z.
Proof.
  intros m a al b bl r s Va Vb Er Es. destruct (compare_n_spec m a al b bl Va Vb) as (r' & E1 & D1). destruct (compare_n_spec m b bl a al Vb Va) as (s' & E2 & D2).
  rewrite Er in E1. injection E1 as <-. rewrite Es in E2. injection E2 as <-. eapply orders_swap; eassumption.
Qed.
Theorem C25_transitive : forall m a al b bl c cl r s t, valid m a al -> valid m b bl -> valid m c cl ->
  tmsu_compare_n m a al b bl = Some r -> tmsu_compare_n m b bl c cl = Some s -> tmsu_compare_n m a al c cl = Some t ->
  (r <= 0)%Z -> (s <= 0)%Z -> (t <= 0)%Z /\ (t = 0%Z -> r = 0%Z /\ s = 0%Z).
Proof.
  intros m a al b bl c cl r s t Va Vb Vc Er Es Et. destruct (compare_n_spec m a al b bl Va Vb) as (r' & E1 & D1). destruct (compare_n_spec m b bl c cl Vb Vc) as (s' & E2 & D2).
  destruct (compare_n_spec m a al c cl Va Vc) as (t' & E3 & D3). rewrite Er in E1. injection E1 as <-. rewrite Es in E2. injection E2 as <-. rewrite Et in E3. injection E3 as <-.
  eapply orders_trans; eassumption.
Qed.
Theorem C25_ignore_case_antisymmetric : forall m a al b bl r s, valid m a al -> valid m b bl ->
  tmsu_compare_ignore_case_ansi_n m a al b bl = Some r -> tmsu_compare_ignore_case_ansi_n m b bl a al = Some s -> Z.sgn s = (- Z.sgn r)%Z.
Proof.
  intros m a al b bl r s Va Vb. rewrite !compare_ic_upper. apply C25_antisymmetric; apply valid_map; assumption.
Qed.
Theorem C25_ignore_case_transitive : forall m a al b bl c cl r s t, valid m a al -> valid m b bl -> valid m c cl ->
  tmsu_compare_ignore_case_ansi_n m a al b bl = Some r -> tmsu_compare_ignore_case_ansi_n m b bl c cl = Some s -> tmsu_compare_ignore_case_ansi_n m a al c cl = Some t ->
  (r <= 0)%Z -> (s <= 0)%Z -> (t <= 0)%Z /\ (t = 0%Z -> r = 0%Z /\ s = 0%Z).
Proof.
  intros m a al b bl c cl r s t Va Vb Vc. rewrite !compare_ic_upper. apply C25_transitive; apply valid_map; assumption.
Qed.
Example C25_case : let m := bytes_of "abcABDab" in
  tmsu_compare_n m 0 3 3 6 = Some 32%Z /\ tmsu_compare_ignore_case_ansi_n m 0 3 3 6 = Some (-1)%Z /\ tmsu_compare_n m 6 8 0 3 = Some (-1)%Z /\
  tmsu_compare_n m 6 8 0 2 = Some 0%Z /\ tmsu_equals_n m 6 8 0 2 = Some true /\ tmsu_equals_ignore_case_ansi_n m 6 8 3 5 = Some true.
Proof. vm_compute. repeat split. Qed.

(** ** C26: bounded case-insensitive comparison of null-terminated strings *)
(** Right when the first difference is neither at the last compared character nor at the one after it. *)
Theorem C26_strnicmp_partial : forall m a s b t n, zstring m a s -> zstring m b t ->
  (firstn (n - 1) (up s) = firstn (n - 1) (up t) -> firstn (n + 1) (up s) = firstn (n + 1) (up t)) ->
  exists r, tmsu_strnicmp m a b (N.of_nat n) = Some r /\ orders lex_lt (firstn n (up s)) (firstn n (up t)) r.
Proof.
  intros m a s b t n Hs Ht H. exists (nicmp s t n). split; [apply strnicmp_spec; assumption|]. apply nicmp_orders; [apply Hs|apply Ht|exact H].
Qed.
Definition z_mem (s t : string) : list N := bytes_of s ++ [0] ++ bytes_of t ++ [0].
Lemma z_mem_ok : forall s t, ~ In 0 (bytes_of s) -> ~ In 0 (bytes_of t) ->
  zstring (z_mem s t) 0 (bytes_of s) /\ zstring (z_mem s t) (S (List.length (bytes_of s))) (bytes_of t).
Proof.
  intros s t Hs Ht. unfold z_mem. split.
  - split; [exact Hs|]. exists [], (bytes_of t ++ [0]). split; reflexivity.
  - split; [exact Ht|]. exists (bytes_of s ++ [0]), []. split; [rewrite <- app_assoc; reflexivity|]. rewrite app_length. cbn [List.length]. lia.
Qed.
Example C26_case : tmsu_strnicmp (z_mem "HeLLo" "heLp!") 0 6 5 = Some (-4)%Z /\ tmsu_strnicmp (z_mem "HeLLo" "helL") 0 6 3 = Some 0%Z /\
  tmsu_strnicmp (z_mem "He" "helL") 0 3 4 = Some (-76)%Z.
Proof. vm_compute. repeat split. Qed.
(** The n-th character is ignored, and with equal first n characters the next one decides. *)
Theorem C26_strnicmp_refuted :
  (exists m a s b t n, zstring m a s /\ zstring m b t /\ firstn n (up s) <> firstn n (up t) /\ tmsu_strnicmp m a b (N.of_nat n) = Some 0%Z) /\
  (exists m a s b t n, zstring m a s /\ zstring m b t /\ firstn n (up s) = firstn n (up t) /\ tmsu_strnicmp m a b (N.of_nat n) = Some (-1)%Z).
Proof.
  split.
  - exists (z_mem "ab" "ac"), 0%nat, (bytes_of "ab"), 3%nat, (bytes_of "ac"), 2%nat.
    destruct (z_mem_ok "ab" "ac" ltac:(cbn; lia) ltac:(cbn; lia)) as [A B]. split; [exact A|]. split; [exact B|]. split; [vm_compute; discriminate|vm_compute; reflexivity].
  - exists (z_mem "abc" "abd"), 0%nat, (bytes_of "abc"), 4%nat, (bytes_of "abd"), 2%nat.
    destruct (z_mem_ok "abc" "abd" ltac:(cbn; lia) ltac:(cbn; lia)) as [A B]. split; [exact A|]. split; [exact B|]. split; vm_compute; reflexivity.
Qed.
(** What the prefix test decides: the text is long enough and agrees with the prefix on all but its last character. *)
Theorem C26_starts_with_ignore_case_partial : forall m i s f p, zstring m i s -> zstring m f p ->
  exists b, tmsu_starts_with_ignore_case_ansi m i f = Some b /\
    (b = true <-> (List.length p <= List.length s)%nat /\ firstn (List.length p - 1) (up s) = firstn (List.length p - 1) (up p)).
Proof.
  intros m i s f p Hs Hp. unfold tmsu_starts_with_ignore_case_ansi. rewrite (z_strlen _ _ _ Hp), (strnicmp_spec m s p i f _ Hs Hp). eexists. split; [reflexivity|].
  rewrite Z.eqb_eq. apply nicmp_prefix. apply Hp.
Qed.
Example C26_starts_case : tmsu_starts_with_ignore_case_ansi (z_mem "Content-Length" "content-") 0 15 = Some true /\
  tmsu_starts_with_ignore_case_ansi (z_mem "Con" "content-") 0 4 = Some false /\ tmsu_starts_with_ignore_case_ansi (z_mem "Context" "content-") 0 8 = Some false.
Proof. vm_compute. repeat split. Qed.
Theorem C26_starts_with_ignore_case_refuted : exists m i s f p, zstring m i s /\ zstring m f p /\
  firstn (List.length p) (up s) <> up p /\ tmsu_starts_with_ignore_case_ansi m i f = Some true.
Proof.
  exists (z_mem "https" "httpz"), 0%nat, (bytes_of "https"), 6%nat, (bytes_of "httpz").
  destruct (z_mem_ok "https" "httpz" ltac:(cbn; lia) ltac:(cbn; lia)) as [A B]. split; [exact A|]. split; [exact B|]. split; [vm_compute; discriminate|vm_compute; reflexivity].
Qed.

(** ** C27: natural order *)
(** On texts without superfluous leading zeros and without too large numbers the order is that of the keys. *)
Theorem C27_keys_partial : forall m a al b bl ka kb, bytes m -> valid m a al -> valid m b bl ->
  human_keys (sub m a al) ka -> human_keys (sub m b bl) kb ->
  exists r, tmsu_human_compare_ansi_n m a al b bl = Some r /\ orders lex_lt ka kb r.
Proof. exact human_compare_spec. Qed.
Theorem C27_transitive_partial : forall m a al b bl c cl ka kb kc r s t, bytes m -> valid m a al -> valid m b bl -> valid m c cl ->
  human_keys (sub m a al) ka -> human_keys (sub m b bl) kb -> human_keys (sub m c cl) kc ->
  tmsu_human_compare_ansi_n m a al b bl = Some r -> tmsu_human_compare_ansi_n m b bl c cl = Some s -> tmsu_human_compare_ansi_n m a al c cl = Some t ->
  (r <= 0)%Z -> (s <= 0)%Z -> (t <= 0)%Z /\ (t = 0%Z -> r = 0%Z /\ s = 0%Z).
Proof.
  intros m a al b bl c cl ka kb kc r s t Hm Va Vb Vc Ka Kb Kc Er Es Et. destruct (human_compare_spec m a al b bl ka kb Hm Va Vb Ka Kb) as (r' & E1 & D1).
  destruct (human_compare_spec m b bl c cl kb kc Hm Vb Vc Kb Kc) as (s' & E2 & D2). destruct (human_compare_spec m a al c cl ka kc Hm Va Vc Ka Kc) as (t' & E3 & D3).
  rewrite Er in E1. injection E1 as <-. rewrite Es in E2. injection E2 as <-. rewrite Et in E3. injection E3 as <-. eapply orders_trans; eassumption.
Qed.
(** Swapping the arguments negates the result, for all texts (undefined if and only if undefined). *)
Theorem C27_antisymmetric : forall m a al b bl, (a <= al)%nat -> (b <= bl)%nat ->
  tmsu_human_compare_ansi_n m b bl a al = option_map Z.opp (tmsu_human_compare_ansi_n m a al b bl).
Proof. exact human_compare_swap. Qed.
Lemma HK_char_e : forall c k s ks, is_digit c = false -> k = to_upper c -> human_keys s ks -> human_keys (c :: s) (k :: ks).
Proof. intros c k s ks H -> K. constructor; assumption. Qed.
Example C27_case : let m := bytes_of "file9.txtFILE10.txt" in tmsu_human_compare_ansi_n m 0 9 9 19 = Some (-1)%Z /\
  human_keys (sub m 0 9) [70; 73; 76; 69; 265; 46; 84; 88; 84] /\ human_keys (sub m 9 19) [70; 73; 76; 69; 266; 46; 84; 88; 84].
Proof.
  cbn zeta. split; [vm_compute; reflexivity|].
  assert (T : human_keys (bytes_of ".txt") [46; 84; 88; 84]) by (cbn [bytes_of map]; do 4 (apply HK_char_e; [reflexivity|reflexivity|]); constructor).
  split.
  - change (human_keys (102 :: 105 :: 108 :: 101 :: [57] ++ bytes_of ".txt") [70; 73; 76; 69; 9 + 256; 46; 84; 88; 84]). do 4 (apply HK_char_e; [reflexivity|reflexivity|]).
    apply HK_run; [repeat constructor| |lia|reflexivity|exact T]. repeat split; [repeat constructor; lia|discriminate|cbn; discriminate].
  - change (human_keys (70 :: 73 :: 76 :: 69 :: [49; 48] ++ bytes_of ".txt") [70; 73; 76; 69; 10 + 256; 46; 84; 88; 84]). do 4 (apply HK_char_e; [reflexivity|reflexivity|]).
    apply HK_run; [repeat constructor| |lia|reflexivity|exact T]. repeat split; [repeat constructor; cbn; lia|discriminate|cbn; discriminate].
Qed.
(** Not transitive: "001" is level with "1xx" and with "1yy", but these two differ. *)
Theorem C27_transitive_refuted : exists m a al b bl c cl, bytes m /\ valid m a al /\ valid m b bl /\ valid m c cl /\
  tmsu_human_compare_ansi_n m b bl a al = Some 0%Z /\ tmsu_human_compare_ansi_n m a al c cl = Some 0%Z /\ tmsu_human_compare_ansi_n m b bl c cl = Some 1%Z.
Proof.
  exists (bytes_of "0011yy1xx"), 0%nat, 3%nat, 3%nat, 6%nat, 6%nat, 9%nat. split; [repeat constructor; cbn; lia|]. repeat split; cbn; lia.
Qed.
(** Digit runs from 2147483392 on overflow an int. *)
Theorem C27_overflow_refuted : exists m a al b bl, bytes m /\ valid m a al /\ valid m b bl /\ tmsu_human_compare_ansi_n m a al b bl = None.
Proof. exists (bytes_of "21474833921"), 0%nat, 10%nat, 10%nat, 11%nat. split; [repeat constructor; cbn; lia|]. repeat split; cbn; lia. Qed.

(** ** C67: null-terminated variants agree with the length based ones *)
Section Z.
Variables (m : list N) (i : nat) (s : list N) (f : nat) (t : list N).
Hypothesis Hs : zstring m i s.
Hypothesis Ht : zstring m f t.
Let e := (i + List.length s)%nat.
Let fe := (f + List.length t)%nat.

Theorem C67_find_char : forall c, tmsu_find_char_z m i c = tmsu_find_char_n m i e c.
Proof using Hs.
  clear Ht fe f t. intros c. destruct (find_char_z_spec m s i c Hs) as (p & E & D). destruct (find_char_n_spec m i e c (z_valid _ _ _ Hs)) as (q & E2 & D2). rewrite E, E2. f_equal.
  eapply first_unique; [exact D|exact D2|lia].
Qed.
Theorem C67_find_char2 : forall a b, tmsu_find_char2 m i a b = tmsu_find_char2_n m i e a b.
Proof using Hs.
  clear Ht fe f t. intros a b. destruct (find_char2_z_spec m s i a b Hs) as (p & E & D). destruct (find_char2_n_spec m i e a b (z_valid _ _ _ Hs)) as (q & E2 & D2). rewrite E, E2. f_equal.
  eapply first_unique; [exact D|exact D2|lia].
Qed.
Theorem C67_find_last_char : forall c, tmsu_find_last_char m i c = tmsu_find_last_char_n m i e c.
Proof using Hs. clear Ht fe f t. intros c. unfold tmsu_find_last_char. rewrite (z_strlen _ _ _ Hs). reflexivity. Qed.
Theorem C67_find : tmsu_find m i f = tmsu_find_n m i e f fe.
Proof using All.
  destruct (find_z_spec m s i f t Hs Ht) as (p & E & D). destruct (find_n_spec m i e f fe (z_valid _ _ _ Hs) (z_valid _ _ _ Ht)) as (q & E2 & D2). rewrite E, E2. f_equal.
  unfold fe in D2. rewrite (z_sub _ _ _ Ht) in D2. eapply first_unique; [exact D|exact D2|lia].
Qed.
Theorem C67_find_last : tmsu_find_last m i f = tmsu_find_last_n m i e f fe.
Proof using All. unfold tmsu_find_last. rewrite (z_strlen _ _ _ Hs), (z_strlen _ _ _ Ht). reflexivity. Qed.
(** Also right for an empty set, where the length based function is not. *)
Theorem C67_find_first_of : exists p, tmsu_find_first_of m i f = Some p /\ is_first (member m t) i e p.
Proof using All. apply find_first_of_z_spec; assumption. Qed.
Theorem C67_find_first_not_of : tmsu_find_first_not_of m i f = tmsu_find_first_not_of_n m i e f fe.
Proof using All.
  destruct (find_first_not_of_z_spec m s i f t Hs Ht) as (p & E & D). destruct (find_first_not_of_n_spec m i e f fe (z_valid _ _ _ Hs) (z_valid _ _ _ Ht)) as (q & E2 & D2). rewrite E, E2. f_equal.
  unfold fe in D2. rewrite (z_sub _ _ _ Ht) in D2. eapply first_unique; [exact D|exact D2|lia].
Qed.
(** The backward set searches agree when the string has a match. *)
Theorem C67_find_last_of_partial : (exists k, (i <= k < e)%nat /\ member m t k) -> tmsu_find_last_of m i f = tmsu_find_last_of_n m i e f fe.
Proof using All.
  intros (k & Hk & K). assert (Q : s <> []) by (intros ->; cbn in *; unfold e in Hk; cbn in Hk; lia).
  destruct (find_last_z_spec m s i f t false Hs Ht Q) as (r & D & E). unfold tmsu_find_last_of, tmsu_find_last_of_n. rewrite E.
  destruct (find_last_set_spec m false i e f fe (Some e) (z_valid _ _ _ Hs) (z_valid _ _ _ Ht)) as (r2 & D2 & E2). unfold tmsu_find_last_of_n_ex. rewrite E2.
  unfold fe in D2. rewrite (z_sub _ _ _ Ht) in D2. destruct r2 as [q|]; [|destruct (D2 k Hk K)]. f_equal. destruct D2 as (Q1 & Q2 & Q3). fold e in D. destruct r as [p|].
  - destruct D as (P1 & P2 & P3). destruct (lt_eq_lt_dec p q) as [[L|L]|L]; [destruct (P3 q ltac:(lia) Q2)|exact L|destruct (Q3 p ltac:(lia) P2)].
  - destruct (Nat.eq_dec q i) as [->|Qi]; [reflexivity|]. destruct (D q ltac:(lia) Q2).
Qed.
Theorem C67_find_last_not_of_partial : (exists k, (i <= k < e)%nat /\ non_member m t k) -> tmsu_find_last_not_of m i f = tmsu_find_last_not_of_n m i e f fe.
Proof using All.
  intros (k & Hk & K). assert (Q : s <> []) by (intros ->; cbn in *; unfold e in Hk; cbn in Hk; lia).
  destruct (find_last_z_spec m s i f t true Hs Ht Q) as (r & D & E). unfold tmsu_find_last_not_of, tmsu_find_last_not_of_n. rewrite E.
  destruct (find_last_set_spec m true i e f fe (Some e) (z_valid _ _ _ Hs) (z_valid _ _ _ Ht)) as (r2 & D2 & E2). unfold tmsu_find_last_not_of_n_ex. rewrite E2.
  unfold fe in D2. rewrite (z_sub _ _ _ Ht) in D2. destruct r2 as [q|]; [|destruct (D2 k Hk K)]. f_equal. destruct D2 as (Q1 & Q2 & Q3). fold e in D. destruct r as [p|].
  - destruct D as (P1 & P2 & P3). destruct (lt_eq_lt_dec p q) as [[L|L]|L]; [destruct (P3 q ltac:(lia) Q2)|exact L|destruct (Q3 p ltac:(lia) P2)].
  - destruct (Nat.eq_dec q i) as [->|Qi]; [reflexivity|]. destruct (D q ltac:(lia) Q2).
Qed.
(** Escape aware search, for strings that are not empty. *)
Theorem C67_find_char_unescaped_partial : forall c esc, s <> [] -> esc <> 0 -> tmsu_find_char_unescaped m i c esc = tmsu_find_char_unescaped_n m i e c esc.
Proof using Hs.
  clear Ht fe f t. intros c esc Q He. destruct (find_char_unescaped_z_spec m s i c esc Hs Q He) as (p & E & D).
  destruct (find_char_unescaped_n_spec m i e c esc (z_valid _ _ _ Hs)) as (q & E2 & D2). rewrite E, E2. f_equal. eapply first_unique; [exact D|exact D2|lia].
Qed.
Theorem C67_find_first_of_unescaped : forall esc, t <> [] -> esc <> 0 -> tmsu_find_first_of_unescaped m i f esc = tmsu_find_first_of_unescaped_n m i e f fe esc.
Proof using All.
  intros esc Q He. destruct (find_first_of_unescaped_z_spec m s i f t esc Hs Ht Q He) as (p & E & D).
  assert (L : (f < fe)%nat) by (unfold fe; destruct t; [congruence|cbn [List.length]; lia]).
  destruct (find_first_of_unescaped_n_spec m i e f fe esc (z_valid _ _ _ Hs) (z_valid _ _ _ Ht) L) as (q & E2 & D2). rewrite E, E2. f_equal.
  unfold fe in D2. rewrite (z_sub _ _ _ Ht) in D2. eapply first_unique; [exact D|exact D2|lia].
Qed.
Theorem C67_starts_with : tmsu_starts_with m i f = tmsu_starts_with_n m i e f fe.
Proof using All.
  unfold tmsu_starts_with. rewrite (z_strlen _ _ _ Ht). destruct (strncmp_spec m (List.length t) s t i f Hs Ht) as (r & E & _ & D & _). rewrite E. rewrite firstn_all in D.
  destruct (starts_with_n_spec m i e f fe (z_valid _ _ _ Hs) (z_valid _ _ _ Ht)) as (b & E2 & D2). rewrite E2. f_equal. unfold e, fe in D2. rewrite (z_sub _ _ _ Hs), (z_sub _ _ _ Ht) in D2.
  assert (K : firstn (List.length t) s = t <-> exists rest, s = t ++ rest).
  { split; [intros K; exists (skipn (List.length t) s); rewrite <- K at 1; rewrite firstn_skipn; reflexivity|]. intros (rest & ->). rewrite firstn_app, Nat.sub_diag, firstn_O, app_nil_r, firstn_all. reflexivity. }
  destruct (Z.eqb_spec r 0) as [Z|Z]; destruct b; try reflexivity; exfalso.
  - assert (false = true) by (apply D2, K, D, Z). discriminate.
  - apply Z, D, K, D2. reflexivity.
Qed.
Theorem C67_next_token : t <> [] -> tmsu_next_token m i f = tmsu_next_token_n m i e f fe.
Proof using All.
  intros Q. assert (L : (f < fe)%nat) by (unfold fe; destruct t; [congruence|cbn [List.length]; lia]). pose proof (z_valid _ _ _ Hs) as V. pose proof (z_valid _ _ _ Ht) as W. fold e in V. fold fe in W.
  unfold tmsu_next_token, tmsu_next_token_n. destruct (find_first_of_z_spec m s i f t Hs Ht) as (p & E & D). destruct (find_first_of_n_spec m i e f fe V W L) as (q & E2 & D2).
  unfold fe in D2. rewrite (z_sub _ _ _ Ht) in D2. fold e in D. assert (p = q) by (eapply first_unique; [exact D|exact D2|apply V]). subst q. rewrite E, E2.
  pose proof (first_le _ _ _ _ D ltac:(apply V)) as Lp. destruct V as [V1 V2], W as [W1 W2]. rewrite !distance_ok by lia. destruct (Nat.eqb_spec p e) as [->|Qp].
  - unfold e at 1. rewrite (z_end _ _ _ Hs). reflexivity.
  - destruct (z_in m s i p Hs ltac:(fold e; lia)) as (c & Ec & Nc & _). rewrite Ec. destruct (N.eqb_spec c 0); [congruence|reflexivity].
Qed.
Theorem C67_next_token_skip_empty : t <> [] -> tmsu_next_token_skip_empty m i f = tmsu_next_token_skip_empty_n m i e f fe.
Proof using All.
  intros Q. assert (L : (f < fe)%nat) by (unfold fe; destruct t; [congruence|cbn [List.length]; lia]). pose proof (z_valid _ _ _ Hs) as V. pose proof (z_valid _ _ _ Ht) as W. fold e in V. fold fe in W.
  unfold tmsu_next_token_skip_empty, tmsu_next_token_skip_empty_n. rewrite C67_find_first_not_of. destruct (find_first_not_of_n_spec m i e f fe V W) as (p & E & D). rewrite E.
  pose proof (first_le _ _ _ _ D ltac:(apply V)) as Lp. rewrite !distance_ok by (apply V || apply W). destruct (Nat.eqb_spec p e) as [->|Qp].
  - unfold e at 1. rewrite (z_end _ _ _ Hs). reflexivity.
  - destruct (z_in m s i p Hs ltac:(fold e; lia)) as (c & Ec & Nc & _). rewrite Ec. destruct (N.eqb_spec c 0); [congruence|].
    pose proof (z_later m s i p Hs Lp) as Hp. fold e in Hp. destruct (find_first_of_z_spec m _ p f t Hp Ht) as (q & Eq & Dq). rewrite sub_length in Dq by (split; [lia|apply V]).
    replace (p + (e - p))%nat with e in Dq by lia. destruct (find_first_of_n_spec m p e f fe ltac:(split; [lia|apply V]) W L) as (q' & Eq' & Dq').
    unfold fe in Dq'. rewrite (z_sub _ _ _ Ht) in Dq'. assert (q = q') by (eapply first_unique; [exact Dq|exact Dq'|lia]). subst q'. rewrite Eq, Eq'.
    pose proof (first_le _ _ _ _ Dq ltac:(lia)). rewrite distance_ok by lia. reflexivity.
Qed.
(** The comparisons order the same way as the length based ones; tmsu_compare_ignore_case_ansi the other way round. *)
Theorem C67_compare : exists r, tmsu_compare m i f = Some r /\ orders lex_lt s t r.
Proof using All. pose proof (z_bound _ _ _ Hs). apply strcmp_spec; [exact Hs|exact Ht|lia]. Qed.
Theorem C67_stricmp : exists r, tmsu_stricmp m i f = Some r /\ orders lex_lt (up s) (up t) r.
Proof using All. pose proof (z_bound _ _ _ Hs). apply stricmp_spec; [exact Hs|exact Ht|lia]. Qed.
Theorem C67_compare_ignore_case_partial : exists r, tmsu_compare_ignore_case_ansi m i f = Some r /\ orders lex_lt (up t) (up s) r.
Proof using All.
  destruct C67_stricmp as (r & E & D). exists (- r)%Z. unfold tmsu_compare_ignore_case_ansi. unfold tmsu_stricmp in E. rewrite E. split; [reflexivity|]. apply orders_opp. exact D.
Qed.
End Z.
Example C67_case : let m := z_mem "a,b\,,c" "," in zstring m 0 (bytes_of "a,b\,,c") /\ zstring m 8 (bytes_of ",") /\
  tmsu_find m 0 8 = Some 1%nat /\ tmsu_find_last_of m 0 8 = Some 5%nat /\ tmsu_find_char_unescaped m 2 44 92 = Some 5%nat /\ tmsu_compare m 0 8 = Some 53%Z.
Proof. cbn zeta. destruct (z_mem_ok "a,b\,,c" "," ltac:(cbn; lia) ltac:(cbn; lia)) as [A B]. split; [exact A|]. split; [exact B|]. vm_compute. repeat split. Qed.
(** On empty strings two of them read outside of the string; a backward search without match answers with the start;
    and tmsu_compare_ignore_case_ansi has the opposite sign of tmsu_compare_ignore_case_ansi_n. *)
Theorem C67_refuted :
  (exists m f t, zstring m 0 [] /\ zstring m f t /\ tmsu_find_last_of m 0 f = None) /\
  (exists m c esc, zstring m 0 [] /\ c <> esc /\ tmsu_find_char_unescaped m 0 c esc = None) /\
  (exists m s f t, zstring m 0 s /\ zstring m f t /\ (forall k, (k < List.length s)%nat -> ~ member m t k) /\ s <> [] /\ tmsu_find_last_of m 0 f = Some 0%nat) /\
  (exists m s f t, zstring m 0 s /\ zstring m f t /\ tmsu_compare_ignore_case_ansi m 0 f = Some 1%Z /\
     tmsu_compare_ignore_case_ansi_n m 0 (List.length s) f (f + List.length t) = Some (-1)%Z).
Proof.
  split; [|split; [|split]].
  - exists (z_mem "" "x"), 1%nat, (bytes_of "x"). destruct (z_mem_ok "" "x" ltac:(cbn; lia) ltac:(cbn; lia)) as [A B]. split; [exact A|]. split; [exact B|]. vm_compute. reflexivity.
  - exists [0], 120, 92. split; [split; [intros []|exists [], []; split; reflexivity]|]. split; [lia|]. vm_compute. reflexivity.
  - exists (z_mem "abc" "x"), (bytes_of "abc"), 4%nat, (bytes_of "x"). destruct (z_mem_ok "abc" "x" ltac:(cbn; lia) ltac:(cbn; lia)) as [A B]. split; [exact A|]. split; [exact B|].
    split; [|split; [discriminate|vm_compute; reflexivity]]. intros k Hk (c & Ec & [<-|[]]). cbn in Hk. destruct k as [|[|[|k]]]; try discriminate. lia.
  - exists (z_mem "abc" "ABD"), (bytes_of "abc"), 4%nat, (bytes_of "ABD"). destruct (z_mem_ok "abc" "ABD" ltac:(cbn; lia) ltac:(cbn; lia)) as [A B]. split; [exact A|]. split; [exact B|]. vm_compute. split; reflexivity.
Qed.

(** ** C68: word boundaries, for non-empty delimiter sets *)
Theorem C68_word_end : forall m ws wl first last f fl, valid m first last -> valid m ws wl -> valid m f fl -> (f < fl)%nat ->
  exists l q, tmsu_find_word_end_n_ex m ws wl first last f fl = Some q /\ (first <= l <= q)%nat /\ (q <= last)%nat /\
    (forall k, (first <= k < l)%nat -> ~ non_member m (sub m ws wl) k) /\ (l = last \/ non_member m (sub m ws wl) l) /\
    (forall k, (l <= k < q)%nat -> ~ member m (sub m f fl) k) /\ (q = last \/ member m (sub m f fl) q).
Proof.
  intros m ws wl first last f fl V W F Hf. unfold tmsu_find_word_end_n_ex. destruct (C24_trim_left m ws wl first last V W) as (l & E & D). rewrite E.
  pose proof (first_le _ _ _ _ D ltac:(apply V)) as L1. destruct (find_first_of_n_spec m l last f fl ltac:(split; [lia|apply V]) F Hf) as (q & Eq & Dq).
  pose proof (first_le _ _ _ _ Dq ltac:(lia)) as L2. exists l, q. destruct D as [D1 D2], Dq as [Q1 Q2]. repeat split; try lia; try assumption; [destruct D1 as [[_ K]|K]; auto|destruct Q1 as [[_ K]|K]; auto].
Qed.
Theorem C68_word_start : forall m ws wl first last f fl, valid m first last -> valid m ws wl -> valid m f fl ->
  exists p r, tmsu_find_word_start_n_ex m ws wl first last f fl = Some p /\ (first <= p <= r)%nat /\ (r <= last)%nat /\
    (forall k, (r <= k < last)%nat -> ~ non_member m (sub m ws wl) k) /\ (r = first \/ non_member m (sub m ws wl) (r - 1)) /\
    (forall k, (p <= k < r)%nat -> ~ member m (sub m f fl) k) /\ (p = first \/ member m (sub m f fl) (p - 1)).
Proof.
  intros m ws wl first last f fl V W F. unfold tmsu_find_word_start_n_ex. destruct (trim_right_spec m ws wl first last V W) as (r & E & R0 & R1 & R2). rewrite E.
  destruct (Nat.eqb_spec first r) as [<-|Q].
  - exists first, first. repeat split; try lia; try assumption; auto.
  - destruct (find_last_set_spec m false first r f fl None ltac:(split; [lia|destruct V; lia]) F) as (q & D & Eq). unfold tmsu_find_last_of_n_ex. rewrite Eq. destruct q as [q|].
    + destruct D as (D1 & D2 & D3). exists (S q), r. repeat split; try lia; try assumption. right. replace (S q - 1)%nat with q by lia. exact D2.
    + exists first, r. repeat split; try lia; try assumption; auto.
Qed.
Example C68_case : let m := bytes_of "  foo bar  | " in tmsu_find_word_end_n_ex m 12 13 0 11 12 13 = Some 5%nat /\ tmsu_find_word_start_n_ex m 12 13 0 11 12 13 = Some 6%nat.
Proof. vm_compute. auto. Qed.

(** ** C69: reversal and memrchr *)
Theorem C69_reverse : forall m str count, (str + count <= List.length m)%nat ->
  tmsu_strnrev m str count = Some (firstn str m ++ rev (sub m str (str + count)) ++ skipn (str + count) m).
Proof. exact strnrev_spec. Qed.
Theorem C69_memrchr : forall m p c len, (p + len <= List.length m)%nat -> c < 256 ->
  exists r, tmsu_memrchr m p c len = Some r /\ is_last (fun k => nth_error m k = Some c) p (p + len) r.
Proof. exact memrchr_spec. Qed.
Example C69_case : tmsu_strnrev (bytes_of "abcdefg") 1 4 = Some (bytes_of "aedcbfg") /\ tmsu_memrchr (bytes_of "abcabc") 0 98 4 = Some (Some 1%nat).
Proof. vm_compute. auto. Qed.

(** ** C70: prefixes and suffixes *)
Theorem C70_starts_with : forall m first last f fl, valid m first last -> valid m f fl ->
  exists b, tmsu_starts_with_n m first last f fl = Some b /\ (b = true <-> exists rest, sub m first last = sub m f fl ++ rest).
Proof. exact starts_with_n_spec. Qed.
Theorem C70_ends_with : forall m first last f fl, valid m first last -> valid m f fl ->
  exists b, tmsu_ends_with_n m first last f fl = Some b /\ (b = true <-> exists pre, sub m first last = pre ++ sub m f fl).
Proof. exact ends_with_n_spec. Qed.
Theorem C70_starts_with_ignore_case : forall m first last f fl, valid m first last -> valid m f fl ->
  exists b, tmsu_starts_with_ignore_case_ansi_n m first last f fl = Some b /\ (b = true <-> exists rest, up (sub m first last) = up (sub m f fl) ++ rest).
Proof. exact starts_with_ic_spec. Qed.
Theorem C70_ends_with_ignore_case : forall m first last f fl, valid m first last -> valid m f fl ->
  exists b, tmsu_ends_with_ignore_case_ansi_n m first last f fl = Some b /\ (b = true <-> exists pre, up (sub m first last) = pre ++ up (sub m f fl)).
Proof. exact ends_with_ic_spec. Qed.
Example C70_case : let m := bytes_of "image.PNG.png" in
  tmsu_ends_with_n m 0 9 9 13 = Some false /\ tmsu_ends_with_ignore_case_ansi_n m 0 9 9 13 = Some true /\ tmsu_starts_with_n m 0 9 0 5 = Some true.
Proof. vm_compute. auto. Qed.

(** ** C71: case-insensitive search *)
Theorem C71_find_char : forall m first last c, valid m first last ->
  exists p, tmsu_find_char_ignore_case_ansi_n m first last c = Some p /\ is_first (fun k => exists x, nth_error m k = Some x /\ to_upper x = to_upper c) first last p.
Proof. exact find_char_ic_spec. Qed.
Theorem C71_find : forall m first last f fl, valid m first last -> valid m f fl ->
  exists p, tmsu_find_ignore_case_ansi_n m first last f fl = Some p /\ is_first (occurs_ic m last (sub m f fl)) first last p.
Proof. exact find_ic_spec. Qed.
Theorem C71_find_z : forall m i s f t, zstring m i s -> zstring m f t ->
  exists p, tmsu_find_ignore_case_ansi m i f = Some p /\ is_first (occurs_ic m (i + List.length s) t) i (i + List.length s) p.
Proof.
  intros m i s f t Hs Ht. unfold tmsu_find_ignore_case_ansi. rewrite (z_strlen _ _ _ Hs), (z_strlen _ _ _ Ht).
  destruct (find_ic_spec m i (i + List.length s) f (f + List.length t) (z_valid _ _ _ Hs) (z_valid _ _ _ Ht)) as (p & E & D). exists p. split; [exact E|]. rewrite (z_sub _ _ _ Ht) in D. exact D.
Qed.
Example C71_case : tmsu_find_ignore_case_ansi_n (bytes_of "xHelHELLohello") 0 9 9 14 = Some 4%nat.
Proof. vm_compute. reflexivity. Qed.

Print Assumptions C20_find.
Print Assumptions C20_find_last_partial.
Print Assumptions C20_find_last_end_partial.
Print Assumptions C20_find_last_empty_refuted.
Print Assumptions C21_find_char.
Print Assumptions C21_find_char2.
Print Assumptions C21_find_last_char.
Print Assumptions C21_find_first_of_partial.
Print Assumptions C21_find_first_not_of.
Print Assumptions C21_find_last_of.
Print Assumptions C21_find_last_not_of.
Print Assumptions C21_empty_set_refuted.
Print Assumptions C22_find_char_unescaped.
Print Assumptions C22_find_first_of_unescaped_partial.
Print Assumptions C22_units.
Print Assumptions C22_empty_set_refuted.
Print Assumptions C23_tokens_partial.
Print Assumptions C23_skip_empty_partial.
Print Assumptions C23_pieces_unique.
Print Assumptions C23_last_token_refuted.
Print Assumptions C23_empty_delimiters_refuted.
Print Assumptions C24_trim_left.
Print Assumptions C24_trim_right.
Print Assumptions C24_trim_partial.
Print Assumptions C24_trim_blank_refuted.
Print Assumptions C25_compare.
Print Assumptions C25_compare_ignore_case.
Print Assumptions C25_equals.
Print Assumptions C25_equals_ignore_case.
Print Assumptions C25_order.
Print Assumptions C25_antisymmetric.
Print Assumptions C25_transitive.
Print Assumptions C25_ignore_case_antisymmetric.
Print Assumptions C25_ignore_case_transitive.
Print Assumptions C26_strnicmp_partial.
Print Assumptions C26_strnicmp_refuted.
Print Assumptions C26_starts_with_ignore_case_partial.
Print Assumptions C26_starts_with_ignore_case_refuted.
Print Assumptions C27_keys_partial.
Print Assumptions C27_transitive_partial.
Print Assumptions C27_antisymmetric.
Print Assumptions C27_transitive_refuted.
Print Assumptions C27_overflow_refuted.
Print Assumptions C67_find_char.
Print Assumptions C67_find_char2.
Print Assumptions C67_find_last_char.
Print Assumptions C67_find.
Print Assumptions C67_find_last.
Print Assumptions C67_find_first_of.
Print Assumptions C67_find_first_not_of.
Print Assumptions C67_find_last_of_partial.
Print Assumptions C67_find_last_not_of_partial.
Print Assumptions C67_find_char_unescaped_partial.
Print Assumptions C67_find_first_of_unescaped.
Print Assumptions C67_starts_with.
Print Assumptions C67_next_token.
Print Assumptions C67_next_token_skip_empty.
Print Assumptions C67_compare.
Print Assumptions C67_stricmp.
Print Assumptions C67_compare_ignore_case_partial.
Print Assumptions C67_refuted.
Print Assumptions C68_word_end.
Print Assumptions C68_word_start.
Print Assumptions C69_reverse.
Print Assumptions C69_memrchr.
Print Assumptions C70_starts_with.
Print Assumptions C70_ends_with.
Print Assumptions C70_starts_with_ignore_case.
Print Assumptions C70_ends_with_ignore_case.
Print Assumptions C71_find_char.
Print Assumptions C71_find.
Print Assumptions C71_find_z.
