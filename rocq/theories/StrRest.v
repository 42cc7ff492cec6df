(** Null-terminated substring and escape aware search, prefixes and suffixes, case-insensitive search, words, reversal. *)
From Coq Require Import Arith NArith ZArith List Bool Lia.
From Coq Require Import ZifyBool ZifyNat ZifyN.
From Verif Require Import Base CTypeModel CodecModel StrModel StrSpec StrProofs StrMore StrZ.
Import ListNotations.
Local Open Scope N_scope.

(** ** tmsu_find *)
Lemma sub_full : forall m i j, (length m <= j)%nat -> sub m i j = skipn i m.
Proof. intros m i j H. unfold sub. apply firstn_all2. rewrite skipn_length. lia. Qed.
Lemma firstn_sub : forall m i j n, firstn n (sub m i j) = sub m i (Nat.min (i + n) j).
Proof. intros m i j n. unfold sub. rewrite firstn_firstn. f_equal. lia. Qed.
Lemma find_z_loop_spec : forall m fuel s pos c f1 t1, zstring m pos s -> zstring m f1 t1 -> c <> 0 -> s <> [] -> (length s <= fuel)%nat ->
  exists p, find_z_loop m fuel pos c f1 (length t1) = Some p /\ is_first (occurs m (pos + length s) (c :: t1)) pos (pos + length s) p.
Proof.
  intros m fuel. induction fuel as [|fuel IH]; intros s pos c f1 t1 Hs Hf Hc Q F; [destruct s; [congruence|cbn [length] in F; lia]|]. cbn [find_z_loop].
  destruct (find_char_z_spec m s pos c Hs) as (p & E & D). rewrite E. pose proof (first_le _ _ _ _ D ltac:(lia)) as Lp. destruct D as [D1 D2].
  pose proof (z_later m s pos p Hs Lp) as Hp. set (e := (pos + length s)%nat) in *. pose proof (z_bound _ _ _ Hs) as B. fold e in B.
  assert (Lx : length (sub m p e) = (e - p)%nat) by (apply sub_length; split; lia).
  assert (Nb : forall k, (pos <= k < p)%nat -> ~ occurs m e (c :: t1) k).
  { intros k Hk [K1 K2]. cbn [length] in *. apply (D2 k Hk). destruct (nth_ex m k ltac:(lia)) as (y & Ey). rewrite (sub_cons m k _ y) in K2 by (try exact Ey; lia). congruence. }
  destruct (Nat.eq_dec p e) as [->|Qp].
  - rewrite sub_nil in Hp by lia. destruct (z_nil _ _ Hp) as [E0 _]. rewrite E0. cbn [N.eqb]. exists e. split; [reflexivity|]. split; [right; reflexivity|exact Nb].
  - destruct D1 as [[D1 D3]|D1]; [|congruence]. rewrite D3. destruct (N.eqb_spec c 0); [congruence|].
    assert (Hp2 : zstring m (S p) (sub m (S p) e)) by (apply (z_later m s pos (S p) Hs); lia).
    destruct (strncmp_spec m (length t1) (sub m (S p) e) t1 (S p) f1 Hp2 Hf) as (r & Er & _ & Dr & _). rewrite Er. rewrite firstn_all, firstn_sub in Dr.
    assert (O : occurs m e (c :: t1) p <-> r = 0%Z).
    { rewrite Dr. unfold occurs. cbn [length]. split.
      - intros [K1 K2]. rewrite (sub_cons m p _ c) in K2 by (try exact D3; lia). injection K2 as K2. rewrite Nat.min_l by lia. rewrite <- K2 at 2. f_equal. lia.
      - intros K. assert (Le : (S p + length t1 <= e)%nat).
        { destruct (le_lt_dec (S p + length t1) e); [assumption|]. rewrite Nat.min_r in K by lia. assert (K2 : length (sub m (S p) e) = length t1) by congruence.
          rewrite sub_length in K2 by (split; lia). lia. }
        rewrite Nat.min_l in K by lia. split; [lia|]. rewrite (sub_cons m p _ c) by (try exact D3; lia). rewrite Nat.add_succ_r. cbn [plus] in K. congruence. }
    destruct (Z.eqb_spec r 0) as [Z|Z].
    + exists p. split; [reflexivity|]. split; [left; split; [lia|apply O; exact Z]|exact Nb].
    + assert (No : forall k, (pos <= k < S p)%nat -> ~ occurs m e (c :: t1) k).
      { intros k Hk K. destruct (Nat.eq_dec k p) as [->|Qk]; [apply O in K; congruence|exact (Nb k ltac:(lia) K)]. }
      destruct (Nat.eq_dec (S p) e) as [Qe|Qe].
      * rewrite Qe. unfold e at 1 2. rewrite (z_end m s pos Hs). cbn [N.eqb]. exists e. split; [reflexivity|]. split; [right; reflexivity|]. intros k Hk. apply No. lia.
      * destruct (z_in m s pos (S p) Hs ltac:(fold e; lia)) as (y & Ey & Ny & _). rewrite Ey. destruct (N.eqb_spec y 0); [congruence|].
        assert (Ls : length (sub m (S p) e) = (e - S p)%nat) by (apply sub_length; split; lia).
        destruct (IH (sub m (S p) e) (S p) c f1 t1 Hp2 Hf Hc ltac:(intros K; rewrite K in Ls; cbn in Ls; lia) ltac:(lia)) as (q & Eq & Q1 & Q2).
        rewrite Ls in Q1, Q2. replace (S p + (e - S p))%nat with e in Q1, Q2 by lia. exists q. split; [exact Eq|].
        split; [destruct Q1 as [[? ?]|?]; [left; split; [lia|assumption]|right; assumption]|].
        intros k Hk K. destruct (le_lt_dec (S p) k); [exact (Q2 k ltac:(lia) K)|exact (No k ltac:(lia) K)].
Qed.
Lemma find_z_spec : forall m s i f t, zstring m i s -> zstring m f t ->
  exists p, tmsu_find m i f = Some p /\ is_first (occurs m (i + length s) t) i (i + length s) p.
Proof.
  intros m s i f t Hs Hf. unfold tmsu_find. destruct s as [|x s].
  - destruct (z_nil _ _ Hs) as [-> _]. cbn [N.eqb length]. rewrite Nat.add_0_r. exists i. split; [reflexivity|]. split; [right; reflexivity|intros k Hk; lia].
  - destruct (z_cons _ _ _ _ Hs) as (-> & N0 & _). destruct (N.eqb_spec x 0); [congruence|]. destruct t as [|c t].
    + destruct (z_nil _ _ Hf) as [-> _]. cbn [N.eqb]. exists i. split; [reflexivity|]. split; [|intros k Hk; lia]. left. cbn [length]. split; [lia|].
      unfold occurs. cbn [length]. split; [lia|]. apply sub_nil. lia.
    + destruct (z_cons _ _ _ _ Hf) as (-> & N1 & Kt). destruct (N.eqb_spec c 0); [congruence|]. rewrite (z_strlen _ _ _ Kt).
      apply find_z_loop_spec; [exact Hs|exact Kt|exact N1|discriminate|]. pose proof (z_bound _ _ _ Hs). lia.
Qed.

(** ** Escape aware, null-terminated *)
Lemma char_unescaped_z_loop_spec : forall m fuel first pos e c esc, zstring m first (sub m first e) -> (first <= pos < e)%nat -> (e < length m)%nat -> c <> esc -> (e - pos < fuel)%nat ->
  exists p, char_unescaped_z_loop m fuel first pos c esc = Some p /\
    is_first (fun k => unit_at m first esc k /\ nth_error m k = Some c) (S pos) e p.
Proof.
  intros m fuel. induction fuel as [|fuel IH]; intros first pos e c esc Hz H L Q F; [lia|]. cbn [char_unescaped_z_loop].
  assert (Ls : length (sub m first e) = (e - first)%nat) by (apply sub_length; split; lia).
  assert (Hp : zstring m (S pos) (sub m (S pos) e)).
  { pose proof (z_later m _ first (S pos) Hz ltac:(lia)) as K. rewrite Ls in K. replace (first + (e - first))%nat with e in K by lia. exact K. }
  assert (Lp : length (sub m (S pos) e) = (e - S pos)%nat) by (apply sub_length; split; lia).
  destruct (find_char_z_spec m _ (S pos) c Hp) as (p & E & D). rewrite Lp in D. replace (S pos + (e - S pos))%nat with e in D by lia. rewrite E.
  pose proof (first_le _ _ _ _ D ltac:(lia)) as Lpp. destruct D as [D1 D2]. destruct (Nat.eq_dec p e) as [->|Qp].
  - assert (E0 : nth_error m e = Some 0) by (replace e with (first + length (sub m first e))%nat by lia; apply z_end; exact Hz).
    rewrite E0. cbn [N.eqb]. exists e. split; [reflexivity|]. split; [right; reflexivity|]. intros k Hk [_ K]. exact (D2 k Hk K).
  - destruct D1 as [[D1 D3]|D1]; [|congruence].
    destruct (z_in m _ first p Hz ltac:(lia)) as (y & Ey & Ny & _). rewrite Ey. destruct (N.eqb_spec y 0); [congruence|].
    destruct (is_char_unescaped_spec m first esc first p ltac:(constructor) ltac:(lia)) as (b & Eb & Db). rewrite Eb. destruct b.
    + exists p. split; [reflexivity|]. split; [left; split; [lia|split; [apply Db; reflexivity|exact D3]]|]. intros k Hk [_ K]. exact (D2 k Hk K).
    + destruct (IH first p e c esc Hz ltac:(lia) L Q ltac:(lia)) as (q & Eq & Q1 & Q2). exists q. split; [exact Eq|].
      split; [destruct Q1 as [[? ?]|?]; [left; split; [lia|assumption]|right; assumption]|].
      intros k Hk [K1 K2]. destruct (Nat.eq_dec k p) as [->|Qk].
      * apply Db in K1. discriminate.
      * destruct (le_lt_dec k p); [exact (D2 k ltac:(lia) K2)|exact (Q2 k ltac:(lia) (conj K1 K2))].
Qed.
Lemma escape_char_z_loop_spec : forall m fuel first s pos esc, unit_at m first esc pos -> zstring m pos s -> esc <> 0 -> (length s < fuel)%nat ->
  exists p, escape_char_z_loop m fuel pos esc = Some p /\ is_first (unescaped m first (pos + length s) [esc] esc) pos (pos + length s) p.
Proof.
  intros m fuel. induction fuel as [|fuel IH]; intros first s pos esc U Hs He F; [lia|]. cbn [escape_char_z_loop].
  destruct (find_char_z_spec m s pos esc Hs) as (p & E & D). rewrite E. pose proof (first_le _ _ _ _ D ltac:(lia)) as Lp. destruct D as [D1 D2].
  set (last := (pos + length s)%nat) in *. pose proof (z_bound _ _ _ Hs) as B. fold last in B.
  assert (Nb : forall k, (pos <= k < p)%nat -> ~ unescaped m first last [esc] esc k) by (intros k Hk [_ (c & Ec & [<-|[]] & _)]; exact (D2 k Hk Ec)).
  destruct (Nat.eq_dec p last) as [->|Qp].
  - unfold last at 1 2. rewrite (z_end m s pos Hs). cbn [N.eqb]. exists last. split; [reflexivity|]. split; [right; reflexivity|exact Nb].
  - destruct D1 as [[D1 D3]|D1]; [|congruence]. rewrite D3. destruct (N.eqb_spec esc 0); [congruence|].
    assert (Up : unit_at m first esc p) by (eapply unit_plain_run; [exact U|lia|exact D2]).
    destruct (nth_ex m (S p) ltac:(lia)) as (y & Ey). rewrite Ey. destruct (N.eqb_spec y esc) as [->|Qy].
    + assert (L2 : (S p < last)%nat).
      { destruct (Nat.eq_dec (S p) last) as [K|K]; [|lia]. rewrite K in Ey. unfold last in Ey. rewrite (z_end m s pos Hs) in Ey. congruence. }
      pose proof (z_later m s pos (S (S p)) Hs ltac:(lia)) as Hp. fold last in Hp.
      assert (Ls : length (sub m (S (S p)) last) = (last - S (S p))%nat) by (apply sub_length; split; lia).
      destruct (IH first _ (S (S p)) esc ltac:(apply U_pair; assumption) Hp He ltac:(lia)) as (q & Eq & Q1 & Q2). rewrite Ls in Q1, Q2.
      replace (S (S p) + (last - S (S p)))%nat with last in Q1, Q2 by lia. exists q. split; [exact Eq|].
      split; [destruct Q1 as [[? ?]|?]; [left; split; [lia|assumption]|right; assumption]|].
      intros k Hk K. destruct (le_lt_dec k (S p)) as [L|L]; [|exact (Q2 k ltac:(lia) K)].
      destruct (Nat.eq_dec k (S p)) as [->|Qk]; [exact (unit_excl _ _ _ _ Up D3 (proj1 K))|].
      destruct (Nat.eq_dec k p) as [->|Qk2]; [|exact (Nb k ltac:(lia) K)].
      destruct K as [_ (c & Ec & _ & K)]. rewrite D3 in Ec. injection Ec as <-. apply (K eq_refl). split; [lia|exact Ey].
    + exists p. split; [reflexivity|]. split; [|exact Nb]. left. split; [lia|]. split; [exact Up|]. exists esc. split; [exact D3|].
      split; [left; reflexivity|]. intros _ [_ K]. congruence.
Qed.
Lemma find_char_unescaped_z_spec : forall m s i c esc, zstring m i s -> s <> [] -> esc <> 0 ->
  exists p, tmsu_find_char_unescaped m i c esc = Some p /\ is_first (unescaped m i (i + length s) [c] esc) i (i + length s) p.
Proof.
  intros m s i c esc Hs Q He. unfold tmsu_find_char_unescaped. pose proof (z_bound _ _ _ Hs) as B. destruct (N.eqb_spec c esc) as [->|Qc]; cbn [negb].
  - apply escape_char_z_loop_spec; [constructor|exact Hs|exact He|lia].
  - assert (L : (1 <= length s)%nat) by (destruct s; [congruence|cbn [length]; lia]).
    destruct (nth_ex m i ltac:(lia)) as (x & E). rewrite E. destruct (N.eqb_spec x c) as [->|Qx].
    + exists i. split; [reflexivity|]. split; [|intros k Hk; lia]. left. split; [lia|]. apply unescaped_single; [exact Qc|]. split; [constructor|exact E].
    + destruct (char_unescaped_z_loop_spec m (length m) i i (i + length s) c esc ltac:(rewrite (z_sub _ _ _ Hs); exact Hs) ltac:(lia) B Qc ltac:(lia)) as (p & Ep & P1 & P2).
      exists p. split; [exact Ep|]. split.
      * destruct P1 as [[? ?]|?]; [left; split; [lia|]; apply unescaped_single; assumption|right; assumption].
      * intros k Hk K. rewrite unescaped_single in K by exact Qc. destruct (Nat.eq_dec k i) as [->|Qk]; [destruct K; congruence|exact (P2 k ltac:(lia) K)].
Qed.
Lemma first_of_unescaped_z_loop_spec : forall m fuel first0 first pos s f fs esc, zstring m f fs -> unit_at m first0 esc first ->
  zstring m pos s -> (first <= pos)%nat -> esc <> 0 -> (length s < fuel)%nat ->
  (In esc fs -> forall k, (first <= k < pos)%nat -> nth_error m k <> Some esc) ->
  exists p, first_of_unescaped_z_loop m fuel first pos f esc = Some p /\ is_first (unescaped m first0 (pos + length s) fs esc) pos (pos + length s) p.
Proof.
  intros m fuel. induction fuel as [|fuel IH]; intros first0 first pos s f fs esc Hf U Hs H He F I; [lia|]. cbn [first_of_unescaped_z_loop].
  destruct (find_first_of_z_spec m s pos f fs Hs Hf) as (p & E & D). rewrite E. pose proof (first_le _ _ _ _ D ltac:(lia)) as Lp. destruct D as [D1 D2].
  set (last := (pos + length s)%nat) in *. pose proof (z_bound _ _ _ Hs) as B. fold last in B.
  assert (Nb : forall k, (pos <= k < p)%nat -> ~ unescaped m first0 last fs esc k).
  { intros k Hk [_ (c & Ec & Ic & _)]. apply (D2 k Hk). exists c. auto. }
  destruct (Nat.eq_dec p last) as [->|Qp].
  { unfold last at 1 2. rewrite (z_end m s pos Hs). cbn [N.eqb]. exists last. split; [reflexivity|]. split; [right; reflexivity|exact Nb]. }
  destruct D1 as [[D1 (x & Ex & Ix)]|D1]; [|congruence]. rewrite Ex.
  destruct (z_in m s pos p Hs ltac:(lia)) as (x' & Ex' & Nx & _). rewrite Ex in Ex'. injection Ex' as <-. destruct (N.eqb_spec x 0); [congruence|].
  destruct (N.eqb_spec x esc) as [->|Qx].
  - assert (Up : unit_at m first0 esc p).
    { eapply unit_plain_run; [exact U|lia|]. intros k Hk K. destruct (le_lt_dec pos k) as [Lk|Lk]; [|exact (I Ix k ltac:(lia) K)].
      apply (D2 k ltac:(lia)). exists esc. auto. }
    destruct (nth_ex m (S p) ltac:(lia)) as (y & Ey). rewrite Ey. destruct (N.eqb_spec y esc) as [->|Qy].
    + assert (L2 : (S p < last)%nat).
      { destruct (Nat.eq_dec (S p) last) as [K|K]; [|lia]. rewrite K in Ey. unfold last in Ey. rewrite (z_end m s pos Hs) in Ey. congruence. }
      pose proof (z_later m s pos (S (S p)) Hs ltac:(lia)) as Hp. fold last in Hp.
      assert (Ls : length (sub m (S (S p)) last) = (last - S (S p))%nat) by (apply sub_length; split; lia).
      destruct (IH first0 (S (S p)) (S (S p)) _ f fs esc Hf ltac:(apply U_pair; assumption) Hp ltac:(lia) He ltac:(lia) ltac:(intros _ k Hk; lia)) as (q & Eq & Q1 & Q2).
      rewrite Ls in Q1, Q2. replace (S (S p) + (last - S (S p)))%nat with last in Q1, Q2 by lia.
      exists q. split; [exact Eq|]. split; [destruct Q1 as [[? ?]|?]; [left; split; [lia|assumption]|right; assumption]|].
      intros k Hk K. destruct (le_lt_dec k (S p)) as [Lk|Lk]; [|exact (Q2 k ltac:(lia) K)].
      destruct (Nat.eq_dec k (S p)) as [->|Qk]; [exact (unit_excl _ _ _ _ Up Ex (proj1 K))|].
      destruct (Nat.eq_dec k p) as [->|Qk2]; [|exact (Nb k ltac:(lia) K)].
      destruct K as [_ (c & Ec & _ & K)]. rewrite Ex in Ec. injection Ec as <-. apply (K eq_refl). split; [lia|exact Ey].
    + exists p. split; [reflexivity|]. split; [|exact Nb]. left. split; [lia|]. split; [exact Up|]. exists esc. split; [exact Ex|].
      split; [exact Ix|]. intros _ [_ K]. congruence.
  - destruct (is_char_unescaped_spec m first0 esc first p U ltac:(lia)) as (b & Eb & Db). rewrite Eb. destruct b.
    + exists p. split; [reflexivity|]. split; [|exact Nb]. left. split; [lia|]. split; [apply Db; reflexivity|]. exists x. split; [exact Ex|]. split; [exact Ix|]. intros ->. congruence.
    + assert (I2 : In esc fs -> forall k, (first <= k < S p)%nat -> nth_error m k <> Some esc).
      { intros Ie k Hk K. destruct (le_lt_dec pos k) as [Lk|Lk]; [|exact (I Ie k ltac:(lia) K)].
        destruct (Nat.eq_dec k p) as [->|Qk]; [congruence|]. apply (D2 k ltac:(lia)). exists esc. auto. }
      pose proof (z_later m s pos (S p) Hs ltac:(lia)) as Hp. fold last in Hp.
      assert (Ls : length (sub m (S p) last) = (last - S p)%nat) by (apply sub_length; split; lia).
      destruct (IH first0 first (S p) _ f fs esc Hf U Hp ltac:(lia) He ltac:(lia) I2) as (q & Eq & Q1 & Q2).
      rewrite Ls in Q1, Q2. replace (S p + (last - S p))%nat with last in Q1, Q2 by lia.
      exists q. split; [exact Eq|]. split; [destruct Q1 as [[? ?]|?]; [left; split; [lia|assumption]|right; assumption]|].
      intros k Hk K. destruct (le_lt_dec k p) as [Lk|Lk]; [|exact (Q2 k ltac:(lia) K)].
      destruct (Nat.eq_dec k p) as [->|Qk]; [|exact (Nb k ltac:(lia) K)].
      destruct K as [K _]. apply Db in K. discriminate.
Qed.
Lemma find_first_of_unescaped_z_spec : forall m s i f fs esc, zstring m i s -> zstring m f fs -> fs <> [] -> esc <> 0 ->
  exists p, tmsu_find_first_of_unescaped m i f esc = Some p /\ is_first (unescaped m i (i + length s) fs esc) i (i + length s) p.
Proof.
  intros m s i f fs esc Hs Hf Q He. unfold tmsu_find_first_of_unescaped. destruct fs as [|x fs]; [congruence|]. destruct (z_cons _ _ _ _ Hf) as (-> & N0 & _).
  destruct (N.eqb_spec x 0); [congruence|]. apply first_of_unescaped_z_loop_spec; [exact Hf|constructor|exact Hs|lia|exact He| |intros _ k Hk; lia].
  pose proof (z_bound _ _ _ Hs). lia.
Qed.

(** ** Prefixes and suffixes *)
Lemma sub_prefix : forall m a b n needle, (a + n <= b)%nat -> (b <= length m)%nat -> length needle = n ->
  (sub m a (a + n) = needle <-> exists rest, sub m a b = needle ++ rest).
Proof.
  intros m a b n needle H L Hn. rewrite (sub_app m a (a + n) b) by lia. split.
  - intros <-. eexists. reflexivity.
  - intros (rest & E). assert (K : firstn n (sub m a (a + n) ++ sub m (a + n) b) = firstn n (needle ++ rest)) by congruence.
    assert (L1 : length (sub m a (a + n)) = n) by (rewrite sub_length by (split; lia); lia).
    rewrite !firstn_app, L1, Hn, Nat.sub_diag, !firstn_O, !app_nil_r in K. rewrite <- L1 in K at 1. rewrite firstn_all in K. rewrite <- Hn, firstn_all in K. rewrite Hn in K. exact K.
Qed.
Lemma sub_suffix : forall m a b n needle, (a + n <= b)%nat -> (b <= length m)%nat -> length needle = n ->
  (sub m (b - n) b = needle <-> exists pre, sub m a b = pre ++ needle).
Proof.
  intros m a b n needle H L Hn. rewrite (sub_app m a (b - n) b) by lia. split.
  - intros <-. eexists. reflexivity.
  - intros (pre & E). assert (Lp : length pre = (b - n - a)%nat).
    { assert (K : length (sub m a (b - n) ++ sub m (b - n) b) = length (pre ++ needle)) by congruence. rewrite !app_length, !sub_length in K by (split; lia). lia. }
    assert (K : skipn (b - n - a) (sub m a (b - n) ++ sub m (b - n) b) = skipn (b - n - a) (pre ++ needle)) by congruence.
    rewrite !skipn_app, sub_length, Lp, Nat.sub_diag in K by (split; lia). rewrite !skipn_O in K. rewrite <- Lp in K at 2. rewrite skipn_all in K.
    rewrite skipn_all2 in K by (rewrite sub_length by (split; lia); lia). exact K.
Qed.
Lemma starts_with_n_spec : forall m first last f fl, valid m first last -> valid m f fl ->
  exists b, tmsu_starts_with_n m first last f fl = Some b /\ (b = true <-> exists rest, sub m first last = sub m f fl ++ rest).
Proof.
  intros m first last f fl V W. unfold tmsu_starts_with_n. pose proof (sub_length _ _ _ V) as LV. pose proof (sub_length _ _ _ W) as LW. destruct V as [V1 V2], W as [W1 W2]. rewrite !distance_ok by assumption.
  destruct (Nat.ltb_spec (last - first) (fl - f)) as [L|L].
  - exists false. split; [reflexivity|]. split; [discriminate|]. intros (rest & E). rewrite E, app_length in LV. lia.
  - destruct (memcmp_zero m (fl - f) first f ltac:(lia) ltac:(lia)) as (r & E & D). rewrite E. eexists. split; [reflexivity|]. rewrite Z.eqb_eq, D.
    replace (f + (fl - f))%nat with fl by lia. apply sub_prefix; [lia|lia|exact LW].
Qed.
Lemma ends_with_n_spec : forall m first last f fl, valid m first last -> valid m f fl ->
  exists b, tmsu_ends_with_n m first last f fl = Some b /\ (b = true <-> exists pre, sub m first last = pre ++ sub m f fl).
Proof.
  intros m first last f fl V W. unfold tmsu_ends_with_n. pose proof (sub_length _ _ _ V) as LV. pose proof (sub_length _ _ _ W) as LW. destruct V as [V1 V2], W as [W1 W2]. rewrite !distance_ok by assumption.
  destruct (Nat.ltb_spec (last - first) (fl - f)) as [L|L].
  - exists false. split; [reflexivity|]. split; [discriminate|]. intros (rest & E). rewrite E, app_length in LV. lia.
  - destruct (memcmp_zero m (fl - f) (last - (fl - f)) f ltac:(lia) ltac:(lia)) as (r & E & D). rewrite E. eexists. split; [reflexivity|]. rewrite Z.eqb_eq, D.
    replace (f + (fl - f))%nat with fl by lia. replace (last - (fl - f) + (fl - f))%nat with last by lia. apply sub_suffix; [lia|lia|exact LW].
Qed.
Lemma compare_n_zero : forall m a al b bl, valid m a al -> valid m b bl ->
  exists r, tmsu_compare_n m a al b bl = Some r /\ ((r =? 0)%Z = true <-> sub m a al = sub m b bl).
Proof. intros m a al b bl Va Vb. destruct (compare_n_spec m a al b bl Va Vb) as (r & E & _ & D & _). exists r. split; [exact E|]. rewrite Z.eqb_eq. exact D. Qed.
Lemma starts_with_ic_spec : forall m first last f fl, valid m first last -> valid m f fl ->
  exists b, tmsu_starts_with_ignore_case_ansi_n m first last f fl = Some b /\ (b = true <-> exists rest, up (sub m first last) = up (sub m f fl) ++ rest).
Proof.
  intros m first last f fl V W. unfold tmsu_starts_with_ignore_case_ansi_n. unfold up. rewrite <- !sub_map. rewrite <- valid_map in V, W.
  set (m' := map to_upper m) in *. pose proof (sub_length _ _ _ V) as LV. pose proof (sub_length _ _ _ W) as LW. pose proof V as V0. pose proof W as W0. destruct V as [V1 V2], W as [W1 W2]. rewrite !distance_ok by assumption. rewrite compare_ic_upper. fold m'.
  destruct (Nat.ltb_spec (last - first) (fl - f)) as [L|L].
  - exists false. split; [reflexivity|]. split; [discriminate|]. intros (rest & E). rewrite E, app_length in LV. lia.
  - destruct (compare_n_zero m' first (first + (fl - f)) f fl ltac:(split; lia) W0) as (r & E & D). rewrite E. eexists. split; [reflexivity|]. rewrite D. apply sub_prefix; [lia|lia|exact LW].
Qed.
Lemma ends_with_ic_spec : forall m first last f fl, valid m first last -> valid m f fl ->
  exists b, tmsu_ends_with_ignore_case_ansi_n m first last f fl = Some b /\ (b = true <-> exists pre, up (sub m first last) = pre ++ up (sub m f fl)).
Proof.
  intros m first last f fl V W. unfold tmsu_ends_with_ignore_case_ansi_n. unfold up. rewrite <- !sub_map. rewrite <- valid_map in V, W.
  set (m' := map to_upper m) in *. pose proof (sub_length _ _ _ V) as LV. pose proof (sub_length _ _ _ W) as LW. pose proof V as V0. pose proof W as W0. destruct V as [V1 V2], W as [W1 W2]. rewrite !distance_ok by assumption. rewrite compare_ic_upper. fold m'.
  destruct (Nat.ltb_spec (last - first) (fl - f)) as [L|L].
  - exists false. split; [reflexivity|]. split; [discriminate|]. intros (rest & E). rewrite E, app_length in LV. lia.
  - destruct (compare_n_zero m' (last - (fl - f)) last f fl ltac:(split; lia) W0) as (r & E & D). rewrite E. eexists. split; [reflexivity|]. rewrite D. apply sub_suffix; [lia|lia|exact LW].
Qed.

(** ** Case-insensitive search *)
Lemma upper_eq : forall c x, (if to_upper c =? to_lower c then x = c else x = to_upper c \/ x = to_lower c) <-> to_upper x = to_upper c.
Proof.
  intros c x. unfold to_upper, to_lower, is_upper, is_lower.
  destruct ((97 <=? c) && (c <=? 122)) eqn:A; destruct ((65 <=? c) && (c <=? 90)) eqn:B; destruct ((97 <=? x) && (x <=? 122)) eqn:C; try lia;
  match goal with |- context [if ?e then _ else _] => destruct e eqn:?; lia end.
Qed.
Lemma find_char_ic_spec : forall m first last c, valid m first last ->
  exists p, tmsu_find_char_ignore_case_ansi_n m first last c = Some p /\ is_first (fun k => exists x, nth_error m k = Some x /\ to_upper x = to_upper c) first last p.
Proof.
  intros m first last c V. unfold tmsu_find_char_ignore_case_ansi_n. pose proof V as [V1 V2]. rewrite distance_ok by exact V1.
  destruct (Nat.eqb_spec (last - first) 0) as [Z|Z]; [exists last; split; [reflexivity|]; split; [right; reflexivity|intros k Hk; lia]|].
  destruct (to_upper c =? to_lower c) eqn:E.
  - assert (K : forall x, x = c <-> to_upper x = to_upper c) by (intros x; pose proof (upper_eq c x) as K; rewrite E in K; exact K).
    destruct (find_char_n_spec m first last c V) as (p & Ep & D). unfold tmsu_find_char_n in Ep. rewrite distance_ok in Ep by exact V1. destruct (Nat.eqb_spec first last); [lia|].
    exists p. split; [exact Ep|]. eapply first_ext; [|pose proof (first_le _ _ _ _ D ltac:(lia)); lia|exact D]. intros k Hk. cbn beta. split.
    + intros Q. exists c. auto.
    + intros (x & Ex & Q). apply K in Q. congruence.
  - assert (K : forall x, (x = to_upper c \/ x = to_lower c) <-> to_upper x = to_upper c) by (intros x; pose proof (upper_eq c x) as K; rewrite E in K; exact K).
    destruct (find_char2_n_spec m first last (to_upper c) (to_lower c) V) as (p & Ep & D). exists p. split; [exact Ep|].
    eapply first_ext; [|pose proof (first_le _ _ _ _ D ltac:(lia)); lia|exact D]. intros k Hk. cbn beta. split.
    + intros [Q|Q]; eexists; (split; [exact Q|]); apply K; auto.
    + intros (x & Ex & Q). apply K in Q. destruct Q; subst; auto.
Qed.
Lemma find_char_ic_upper : forall m first last c, valid m first last ->
  tmsu_find_char_ignore_case_ansi_n m first last c = tmsu_find_char_n (map to_upper m) first last (to_upper c).
Proof.
  intros m first last c V. destruct (find_char_ic_spec m first last c V) as (p & E & D).
  destruct (find_char_n_spec (map to_upper m) first last (to_upper c) ltac:(apply valid_map; exact V)) as (q & E2 & D2). rewrite E, E2. f_equal.
  eapply first_unique; [exact D| |apply V]. eapply first_ext; [|pose proof (first_le _ _ _ _ D2 ltac:(apply V)); lia|exact D2].
  intros k Hk. cbn beta. rewrite nth_error_map. destruct (nth_error m k) as [x|]; cbn [option_map].
  - split; [intros Q; injection Q as Q; exists x; auto|intros (y & Ey & Q); injection Ey as <-; congruence].
  - split; [discriminate|intros (y & Ey & _); discriminate].
Qed.
Lemma find_ic_loop_upper : forall m fuel cur sl c f1 fl last, (cur <= sl)%nat -> (sl + (fl - f1) <= length m)%nat -> valid m f1 fl ->
  find_ic_loop m fuel cur sl c f1 fl (fl - f1) last = find_loop (map to_upper m) fuel cur sl (to_upper c) f1 (fl - f1) last.
Proof.
  intros m fuel. induction fuel as [|fuel IH]; intros cur sl c f1 fl last H L V; cbn [find_ic_loop find_loop]; [reflexivity|].
  rewrite find_char_ic_upper by (split; lia).
  destruct (find_char_n_spec (map to_upper m) cur sl (to_upper c) ltac:(apply valid_map; split; lia)) as (p & E & D). rewrite E. pose proof (first_le _ _ _ _ D ltac:(lia)) as Lp.
  destruct (Nat.eqb_spec p sl) as [->|Q]; [reflexivity|]. rewrite compare_ic_upper. destruct V as [V1 V2].
  destruct (compare_n_zero (map to_upper m) (S p) (S p + (fl - f1)) f1 fl ltac:(apply valid_map; split; lia) ltac:(apply valid_map; split; lia)) as (r & Er & Dr). rewrite Er.
  destruct (memcmp_zero (map to_upper m) (fl - f1) (S p) f1 ltac:(rewrite map_length; lia) ltac:(rewrite map_length; lia)) as (r2 & Er2 & Dr2). rewrite Er2.
  replace (f1 + (fl - f1))%nat with fl in Dr2 by lia. rewrite <- Dr2, <- Z.eqb_eq in Dr.
  destruct (r =? 0)%Z; destruct (r2 =? 0)%Z; [reflexivity|intuition discriminate|intuition discriminate|]. apply IH; [lia|exact L|split; assumption].
Qed.
Lemma find_ic_spec : forall m first last f fl, valid m first last -> valid m f fl ->
  exists p, tmsu_find_ignore_case_ansi_n m first last f fl = Some p /\ is_first (occurs_ic m last (sub m f fl)) first last p.
Proof.
  intros m first last f fl V W. assert (E : tmsu_find_ignore_case_ansi_n m first last f fl = tmsu_find_n (map to_upper m) first last f fl).
  { unfold tmsu_find_ignore_case_ansi_n, tmsu_find_n. destruct V as [V1 V2], W as [W1 W2]. rewrite !distance_ok by assumption.
    destruct (Nat.eqb_spec (fl - f) 0); [reflexivity|]. destruct (Nat.ltb_spec (last - first) (fl - f)); [reflexivity|]. rewrite nth_error_map.
    destruct (nth_error m f) as [c|]; [|reflexivity]. cbn [option_map]. replace (fl - f - 1)%nat with (fl - S f)%nat by lia. apply find_ic_loop_upper; [lia|lia|split; lia]. }
  destruct (find_n_spec (map to_upper m) first last f fl ltac:(apply valid_map; exact V) ltac:(apply valid_map; exact W)) as (p & E2 & D). exists p. split; [congruence|].
  eapply first_ext; [|pose proof (first_le _ _ _ _ D ltac:(apply V)); lia|exact D]. intros k Hk. cbn beta. unfold occurs, occurs_ic. rewrite !sub_map, map_length. reflexivity.
Qed.

(** ** Reversal, memrchr *)
Lemma write_nth : forall (l : list N) i c, (i < length l)%nat -> exists l', write l i c = Some l' /\ length l' = length l /\
  forall k, nth_error l' k = if (k =? i)%nat then Some c else nth_error l k.
Proof.
  induction l as [|x l IH]; intros i c H; cbn [length] in H; [lia|]. destruct i as [|i]; cbn [write].
  - eexists. split; [reflexivity|]. split; [reflexivity|]. intros [|k]; reflexivity.
  - destruct (IH i c ltac:(lia)) as (l' & E & L & D). rewrite E. eexists. split; [reflexivity|]. split; [cbn [length]; lia|]. intros [|k]; [reflexivity|]. cbn [nth_error Nat.eqb]. apply D.
Qed.
Lemma rev_loop_spec : forall fuel m str i j, (str + j < length m)%nat -> (j < i + fuel)%nat -> (1 <= fuel)%nat ->
  exists m', rev_loop fuel m str i j = Some m' /\ length m' = length m /\
    forall k, nth_error m' k = if ((str + i <=? k)%nat && (k <=? str + j)%nat)%bool then nth_error m (str + (i + j) - (k - str)) else nth_error m k.
Proof.
  induction fuel as [|fuel IH]; intros m str i j H F F1; [lia|]. cbn [rev_loop]. destruct (Nat.ltb_spec i j) as [L|L].
  - destruct (nth_ex m (str + i) ltac:(lia)) as (x & Ex). destruct (nth_ex m (str + j) ltac:(lia)) as (y & Ey). rewrite Ex, Ey.
    destruct (write_nth m (str + i) y ltac:(lia)) as (m1 & E1 & L1 & D1). rewrite E1. destruct (write_nth m1 (str + j) x ltac:(lia)) as (m2 & E2 & L2 & D2). rewrite E2.
    destruct (IH m2 str (S i) (j - 1)%nat ltac:(lia) ltac:(lia) ltac:(lia)) as (m' & E & L' & D). rewrite E. exists m'. split; [reflexivity|]. split; [lia|].
    intros k. rewrite D. destruct (Nat.leb_spec (str + S i) k); destruct (Nat.leb_spec k (str + (j - 1))); destruct (Nat.leb_spec (str + i) k); destruct (Nat.leb_spec k (str + j)); cbn [andb]; try lia; rewrite D2, D1;
    repeat match goal with |- context [(?a =? ?b)%nat] => destruct (Nat.eqb_spec a b) end; try lia; try reflexivity;
    rewrite <- ?Ex, <- ?Ey; f_equal; lia.
  - exists m. split; [reflexivity|]. split; [reflexivity|]. intros k. destruct (Nat.leb_spec (str + i) k); destruct (Nat.leb_spec k (str + j)); cbn [andb]; try reflexivity. f_equal. lia.
Qed.
Lemma nth_ext_eq : forall (a b : list N), (forall k, nth_error a k = nth_error b k) -> a = b.
Proof.
  induction a as [|x a IH]; intros [|y b] H; [reflexivity|specialize (H 0%nat); discriminate|specialize (H 0%nat); discriminate|].
  f_equal; [specialize (H 0%nat); cbn in H; congruence|]. apply IH. intros k. exact (H (S k)).
Qed.
Lemma nth_rev : forall (l : list N) k, (k < length l)%nat -> nth_error (rev l) k = nth_error l (length l - 1 - k).
Proof.
  induction l as [|x l IH]; intros k H; cbn [length] in H; [lia|]. cbn [rev length]. destruct (Nat.eq_dec k (length l)) as [->|Q].
  - rewrite nth_error_app2 by (rewrite rev_length; lia). rewrite rev_length, Nat.sub_diag. replace (S (length l) - 1 - length l)%nat with 0%nat by lia. reflexivity.
  - rewrite nth_error_app1 by (rewrite rev_length; lia). rewrite IH by lia. replace (S (length l) - 1 - k)%nat with (S (length l - 1 - k)) by lia. reflexivity.
Qed.
Lemma strnrev_spec : forall m str count, (str + count <= length m)%nat ->
  tmsu_strnrev m str count = Some (firstn str m ++ rev (sub m str (str + count)) ++ skipn (str + count) m).
Proof.
  intros m str count H. unfold tmsu_strnrev. destruct (Nat.eqb_spec count 0) as [->|Q].
  - rewrite Nat.add_0_r, sub_nil by lia. cbn [rev app]. rewrite firstn_skipn. reflexivity.
  - destruct (rev_loop_spec count m str 0 (count - 1) ltac:(lia) ltac:(lia) ltac:(lia)) as (m' & E & L & D). rewrite E. f_equal.
    assert (Ls : length (sub m str (str + count)) = count) by (rewrite sub_length by (split; lia); lia).
    apply nth_ext_eq. intros k. rewrite D. rewrite Nat.add_0_r. destruct (Nat.leb_spec str k) as [L1|L1]; cbn [andb].
    + rewrite nth_error_app2 by (rewrite firstn_length; lia). rewrite firstn_length. replace (Nat.min str (length m)) with str by lia.
      destruct (Nat.leb_spec k (str + (count - 1))) as [L2|L2].
      * rewrite nth_error_app1 by (rewrite rev_length; lia). rewrite nth_rev by lia. rewrite Ls, sub_nth by lia. f_equal. lia.
      * rewrite nth_error_app2 by (rewrite rev_length; lia). rewrite rev_length, Ls, nth_skipn. f_equal. lia.
    + rewrite nth_error_app1 by (rewrite firstn_length; lia). rewrite nth_firstn by lia. reflexivity.
Qed.
Lemma memrchr_spec : forall m p c len, (p + len <= length m)%nat -> c < 256 ->
  exists r, tmsu_memrchr m p c len = Some r /\ is_last (fun k => nth_error m k = Some c) p (p + len) r.
Proof.
  intros m p c len H Hc. unfold tmsu_memrchr. destruct (N.ltb_spec 255 c); [lia|].
  assert (E : forall n, memrchr_loop m p n c = last_char_loop m p n c None).
  { induction n as [|n IH]; [reflexivity|]. cbn [memrchr_loop last_char_loop]. rewrite IH. reflexivity. }
  rewrite E. destruct (last_char_loop_spec m len p c None H) as (r & D & Er). exists r. split; [rewrite Er; destruct r; reflexivity|exact D].
Qed.
