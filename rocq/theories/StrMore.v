(** Escape aware search, tokenizing, trimming, comparison. *)
From Coq Require Import Arith NArith ZArith List Bool Lia.
From Coq Require Import ZifyBool ZifyNat ZifyN.
From Verif Require Import Base CTypeModel CodecModel StrModel StrSpec StrProofs.
Import ListNotations.
Local Open Scope N_scope.

(** ** Units *)
Lemma unit_ge : forall m first esc p, unit_at m first esc p -> (first <= p)%nat.
Proof. intros m first esc p H. induction H; lia. Qed.
Lemma unit_excl : forall m first esc p, unit_at m first esc p -> nth_error m p = Some esc -> ~ unit_at m first esc (S p).
Proof.
  intros m first esc p. induction p as [p IH] using lt_wf_ind. intros U E U2. inversion U2 as [Q|p0 c U0 E0 N0 Q|p0 U0 E0 Q].
  - pose proof (unit_ge _ _ _ _ U). lia.
  - subst p0. congruence.
  - assert (Hp : p = S p0) by lia. rewrite Hp in U. exact (IH p0 ltac:(lia) U0 E0 U).
Qed.
Lemma unit_total : forall m first esc i, (first <= i <= length m)%nat ->
  unit_at m first esc i \/ exists i', i = S i' /\ unit_at m first esc i' /\ nth_error m i' = Some esc.
Proof.
  intros m first esc i. induction i as [|i IH]; intros H.
  - left. replace first with 0%nat by lia. constructor.
  - destruct (Nat.eq_dec first (S i)) as [->|Q]; [left; constructor|].
    destruct (nth_ex m i ltac:(lia)) as (c & E). destruct (IH ltac:(lia)) as [U|(j & -> & U & Ej)].
    + destruct (N.eq_dec c esc) as [->|Qc]; [right; exists i; auto|left; eapply U_plain; eassumption].
    + left. apply U_pair; assumption.
Qed.
Lemma unit_step : forall m first esc i c, (first <= i)%nat -> nth_error m i = Some c -> c <> esc -> unit_at m first esc (S i).
Proof.
  intros m first esc i c H E Q. assert (L : (i < length m)%nat) by (apply nth_error_Some; congruence).
  destruct (unit_total m first esc i ltac:(lia)) as [U|(j & -> & U & Ej)]; [eapply U_plain; eassumption|apply U_pair; assumption].
Qed.
Lemma unit_plain_run : forall m first esc a b, unit_at m first esc a -> (a <= b <= length m)%nat ->
  (forall k, (a <= k < b)%nat -> nth_error m k <> Some esc) -> unit_at m first esc b.
Proof.
  intros m first esc a b U. induction b as [|b IH]; intros H D.
  - replace a with 0%nat in U by lia. exact U.
  - destruct (Nat.eq_dec a (S b)) as [<-|Q]; [exact U|]. destruct (nth_ex m b ltac:(lia)) as (c & E).
    eapply U_plain; [apply IH; [lia|intros k Hk; apply D; lia]|exact E|]. intros ->. exact (D b ltac:(lia) E).
Qed.
Lemma escape_run_spec : forall m first0 esc first n, unit_at m first0 esc first -> (first + n <= length m)%nat ->
  exists k, escape_run m first n esc = Some k /\ (Nat.even k = true <-> unit_at m first0 esc (first + n)).
Proof.
  intros m first0 esc first n U. induction n as [|n IH]; intros H; cbn [escape_run].
  - exists 0%nat. rewrite Nat.add_0_r. split; [reflexivity|]. cbn [Nat.even]. split; [intros _; exact U|reflexivity].
  - destruct (nth_ex m (first + n) ltac:(lia)) as (x & E). rewrite E. destruct (IH ltac:(lia)) as (k & Ek & Dk).
    pose proof (unit_ge _ _ _ _ U) as G. rewrite Nat.add_succ_r. destruct (N.eqb_spec x esc) as [->|Q].
    + rewrite Ek. exists (S k). split; [reflexivity|]. rewrite Nat.even_succ, <- Nat.negb_even. destruct (Nat.even k).
      * cbn [negb]. split; [discriminate|]. intros U2. exfalso. eapply unit_excl; [apply Dk; reflexivity|exact E|exact U2].
      * cbn [negb]. split; [intros _|reflexivity]. destruct (unit_total m first0 esc (first + n) ltac:(lia)) as [V|(j & Hj & V & Ej)].
        -- exfalso. apply Dk in V. discriminate.
        -- rewrite Hj. apply U_pair; assumption.
    + exists 0%nat. split; [reflexivity|]. cbn [Nat.even]. split; [intros _|reflexivity]. eapply unit_step; [lia|exact E|exact Q].
Qed.
Lemma is_char_unescaped_spec : forall m first0 esc first p, unit_at m first0 esc first -> (first <= p <= length m)%nat ->
  exists b, tmsu_is_char_unescaped m first p esc = Some b /\ (b = true <-> unit_at m first0 esc p).
Proof.
  intros m first0 esc first p U H. unfold tmsu_is_char_unescaped.
  destruct (escape_run_spec m first0 esc first (p - first) U ltac:(lia)) as (k & E & D). rewrite E. eexists. split; [reflexivity|].
  replace (first + (p - first))%nat with p in D by lia. exact D.
Qed.

(** ** find_char_unescaped_n *)
Lemma unescaped_single : forall m first last c esc p, c <> esc ->
  (unescaped m first last [c] esc p <-> unit_at m first esc p /\ nth_error m p = Some c).
Proof.
  intros m first last c esc p Q. split.
  - intros [U (x & E & [<-|[]] & _)]. auto.
  - intros [U E]. split; [exact U|]. exists c. split; [exact E|]. split; [left; reflexivity|]. intros ->. congruence.
Qed.
Lemma char_unescaped_loop_spec : forall m fuel first pos last c esc, (first <= pos < last)%nat -> (last <= length m)%nat -> c <> esc -> (last - pos < fuel)%nat ->
  exists p, char_unescaped_loop m fuel first pos last c esc = Some p /\
    is_first (fun k => unit_at m first esc k /\ nth_error m k = Some c) (S pos) last p.
Proof.
  intros m fuel. induction fuel as [|fuel IH]; intros first pos last c esc H L Q F; [lia|]. cbn [char_unescaped_loop].
  destruct (find_char_n_spec m (S pos) last c ltac:(split; lia)) as (p & E & D1 & D2). rewrite E. destruct (Nat.eqb_spec p last) as [->|Qp].
  - exists last. split; [reflexivity|]. split; [right; reflexivity|]. intros k Hk [_ K]. exact (D2 k Hk K).
  - destruct D1 as [[D1 D3]|D1]; [|congruence].
    destruct (is_char_unescaped_spec m first esc first p ltac:(constructor) ltac:(lia)) as (b & Eb & Db). rewrite Eb. destruct b.
    + exists p. split; [reflexivity|]. split; [left; split; [lia|split; [apply Db; reflexivity|exact D3]]|]. intros k Hk [_ K]. exact (D2 k Hk K).
    + destruct (IH first p last c esc ltac:(lia) L Q ltac:(lia)) as (q & Eq & Q1 & Q2). exists q. split; [exact Eq|].
      split; [destruct Q1 as [[? ?]|?]; [left; split; [lia|assumption]|right; assumption]|].
      intros k Hk [K1 K2]. destruct (Nat.eq_dec k p) as [->|Qk].
      * apply Db in K1. discriminate.
      * destruct (le_lt_dec k p); [exact (D2 k ltac:(lia) K2)|exact (Q2 k ltac:(lia) (conj K1 K2))].
Qed.
Lemma escape_char_loop_spec : forall m fuel first pos last esc, unit_at m first esc pos -> (pos <= last <= length m)%nat -> (last - pos < fuel)%nat ->
  exists p, escape_char_loop m fuel pos last esc = Some p /\ is_first (unescaped m first last [esc] esc) pos last p.
Proof.
  intros m fuel. induction fuel as [|fuel IH]; intros first pos last esc U H F; [lia|]. cbn [escape_char_loop].
  destruct (find_char_n_spec m pos last esc ltac:(split; lia)) as (p & E & D1 & D2). rewrite E.
  assert (Nb : forall k, (pos <= k < p)%nat -> ~ unescaped m first last [esc] esc k) by (intros k Hk [_ (c & Ec & [<-|[]] & _)]; exact (D2 k Hk Ec)).
  destruct (Nat.eqb_spec p last) as [->|Qp]; [exists last; split; [reflexivity|]; split; [right; reflexivity|exact Nb]|].
  destruct D1 as [[D1 D3]|D1]; [|congruence].
  assert (Up : unit_at m first esc p) by (eapply unit_plain_run; [exact U|lia|exact D2]).
  destruct (Nat.eqb_spec (S p) last) as [Ql|Ql].
  - exists p. split; [reflexivity|]. split; [|exact Nb]. left. split; [lia|]. split; [exact Up|]. exists esc. split; [exact D3|].
    split; [left; reflexivity|]. intros _ [K _]. lia.
  - destruct (nth_ex m (S p) ltac:(lia)) as (y & Ey). rewrite Ey. destruct (N.eqb_spec y esc) as [->|Qy].
    + destruct (IH first (S (S p)) last esc ltac:(apply U_pair; assumption) ltac:(lia) ltac:(lia)) as (q & Eq & Q1 & Q2). exists q. split; [exact Eq|].
      split; [destruct Q1 as [[? ?]|?]; [left; split; [lia|assumption]|right; assumption]|].
      intros k Hk K. destruct (le_lt_dec k (S p)) as [L|L]; [|exact (Q2 k ltac:(lia) K)].
      destruct (Nat.eq_dec k (S p)) as [->|Qk]; [exact (unit_excl _ _ _ _ Up D3 (proj1 K))|].
      destruct (Nat.eq_dec k p) as [->|Qk2]; [|exact (Nb k ltac:(lia) K)].
      destruct K as [_ (c & Ec & _ & K)]. rewrite D3 in Ec. injection Ec as <-. apply (K eq_refl). split; [lia|exact Ey].
    + exists p. split; [reflexivity|]. split; [|exact Nb]. left. split; [lia|]. split; [exact Up|]. exists esc. split; [exact D3|].
      split; [left; reflexivity|]. intros _ [_ K]. congruence.
Qed.
Lemma find_char_unescaped_n_spec : forall m first last c esc, valid m first last ->
  exists p, tmsu_find_char_unescaped_n m first last c esc = Some p /\ is_first (unescaped m first last [c] esc) first last p.
Proof.
  intros m first last c esc [H1 H2]. unfold tmsu_find_char_unescaped_n. rewrite distance_ok by exact H1.
  destruct (Nat.eqb_spec first last) as [->|Q]; [exists last; split; [reflexivity|]; split; [right; reflexivity|intros k Hk; lia]|].
  destruct (N.eqb_spec c esc) as [->|Qc]; cbn [negb].
  - apply escape_char_loop_spec; [constructor|lia|lia].
  - destruct (nth_ex m first ltac:(lia)) as (x & E). rewrite E. destruct (N.eqb_spec x c) as [->|Qx].
    + exists first. split; [reflexivity|]. split; [|intros k Hk; lia]. left. split; [lia|]. apply unescaped_single; [exact Qc|]. split; [constructor|exact E].
    + destruct (char_unescaped_loop_spec m (S (last - first)) first first last c esc ltac:(lia) H2 Qc ltac:(lia)) as (p & Ep & P1 & P2).
      exists p. split; [exact Ep|]. split.
      * destruct P1 as [[? ?]|?]; [left; split; [lia|]; apply unescaped_single; assumption|right; assumption].
      * intros k Hk K. rewrite unescaped_single in K by exact Qc. destruct (Nat.eq_dec k first) as [->|Qk]; [destruct K; congruence|exact (P2 k ltac:(lia) K)].
Qed.
Lemma first_of_unescaped_loop_spec : forall m fuel first0 first pos last f fl esc, valid m f fl -> (f < fl)%nat -> unit_at m first0 esc first ->
  (first <= pos <= last)%nat -> (last <= length m)%nat -> (last - pos < fuel)%nat ->
  (In esc (sub m f fl) -> forall k, (first <= k < pos)%nat -> nth_error m k <> Some esc) ->
  exists p, first_of_unescaped_loop m fuel first pos last f fl esc = Some p /\ is_first (unescaped m first0 last (sub m f fl) esc) pos last p.
Proof.
  intros m fuel. induction fuel as [|fuel IH]; intros first0 first pos last f fl esc V Hf U H L F I; [lia|]. cbn [first_of_unescaped_loop].
  destruct (find_first_of_n_spec m pos last f fl ltac:(split; lia) V Hf) as (p & E & D1 & D2). rewrite E.
  assert (Nb : forall k, (pos <= k < p)%nat -> ~ unescaped m first0 last (sub m f fl) esc k).
  { intros k Hk [_ (c & Ec & Ic & _)]. apply (D2 k Hk). exists c. auto. }
  destruct (Nat.eqb_spec p last) as [->|Qp]; [exists last; split; [reflexivity|]; split; [right; reflexivity|exact Nb]|].
  destruct D1 as [[D1 (x & Ex & Ix)]|D1]; [|congruence]. rewrite Ex. destruct (N.eqb_spec x esc) as [->|Qx].
  - assert (Up : unit_at m first0 esc p).
    { eapply unit_plain_run; [exact U|lia|]. intros k Hk K. destruct (le_lt_dec pos k) as [Lk|Lk]; [|exact (I Ix k ltac:(lia) K)].
      apply (D2 k ltac:(lia)). exists esc. auto. }
    destruct (Nat.eqb_spec (S p) last) as [Ql|Ql].
    + exists p. split; [reflexivity|]. split; [|exact Nb]. left. split; [lia|]. split; [exact Up|]. exists esc. split; [exact Ex|].
      split; [exact Ix|]. intros _ [K _]. lia.
    + destruct (nth_ex m (S p) ltac:(lia)) as (y & Ey). rewrite Ey. destruct (N.eqb_spec y esc) as [->|Qy].
      * destruct (IH first0 (S (S p)) (S (S p)) last f fl esc V Hf ltac:(apply U_pair; assumption) ltac:(lia) L ltac:(lia) ltac:(intros _ k Hk; lia)) as (q & Eq & Q1 & Q2).
        exists q. split; [exact Eq|]. split; [destruct Q1 as [[? ?]|?]; [left; split; [lia|assumption]|right; assumption]|].
        intros k Hk K. destruct (le_lt_dec k (S p)) as [Lk|Lk]; [|exact (Q2 k ltac:(lia) K)].
        destruct (Nat.eq_dec k (S p)) as [->|Qk]; [exact (unit_excl _ _ _ _ Up Ex (proj1 K))|].
        destruct (Nat.eq_dec k p) as [->|Qk2]; [|exact (Nb k ltac:(lia) K)].
        destruct K as [_ (c & Ec & _ & K)]. rewrite Ex in Ec. injection Ec as <-. apply (K eq_refl). split; [lia|exact Ey].
      * exists p. split; [reflexivity|]. split; [|exact Nb]. left. split; [lia|]. split; [exact Up|]. exists esc. split; [exact Ex|].
        split; [exact Ix|]. intros _ [_ K]. congruence.
  - destruct (is_char_unescaped_spec m first0 esc first p U ltac:(lia)) as (b & Eb & Db). rewrite Eb. destruct b.
    + exists p. split; [reflexivity|]. split; [|exact Nb]. left. split; [lia|]. split; [apply Db; reflexivity|]. exists x. split; [exact Ex|]. split; [exact Ix|]. intros ->. congruence.
    + assert (I2 : In esc (sub m f fl) -> forall k, (first <= k < S p)%nat -> nth_error m k <> Some esc).
      { intros Ie k Hk K. destruct (le_lt_dec pos k) as [Lk|Lk]; [|exact (I Ie k ltac:(lia) K)].
        destruct (Nat.eq_dec k p) as [->|Qk]; [congruence|]. apply (D2 k ltac:(lia)). exists esc. auto. }
      destruct (IH first0 first (S p) last f fl esc V Hf U ltac:(lia) L ltac:(lia) I2) as (q & Eq & Q1 & Q2).
      exists q. split; [exact Eq|]. split; [destruct Q1 as [[? ?]|?]; [left; split; [lia|assumption]|right; assumption]|].
      intros k Hk K. destruct (le_lt_dec k p) as [Lk|Lk]; [|exact (Q2 k ltac:(lia) K)].
      destruct (Nat.eq_dec k p) as [->|Qk]; [|exact (Nb k ltac:(lia) K)].
      destruct K as [K _]. apply Db in K. discriminate.
Qed.
Lemma find_first_of_unescaped_n_spec : forall m first last f fl esc, valid m first last -> valid m f fl -> (f < fl)%nat ->
  exists p, tmsu_find_first_of_unescaped_n m first last f fl esc = Some p /\ is_first (unescaped m first last (sub m f fl) esc) first last p.
Proof.
  intros m first last f fl esc [H1 H2] V Hf. unfold tmsu_find_first_of_unescaped_n. destruct V as [V1 V2]. rewrite !distance_ok by assumption.
  destruct (Nat.eqb_spec first last) as [->|Q]; [exists last; split; [reflexivity|]; split; [right; reflexivity|intros k Hk; lia]|].
  destruct (Nat.eqb_spec f fl); [lia|].
  apply first_of_unescaped_loop_spec; [split; assumption|exact Hf|constructor|lia|exact H2|lia|intros _ k Hk; lia].
Qed.

(** ** Tokens *)
Inductive token_calls (m : list N) (f fl last : nat) : nat -> list (nat * nat) -> Prop :=
| Calls_last first a b first' : tmsu_next_token_n m first last f fl = Some (false, (a, b), first') -> token_calls m f fl last first [(a, b)]
| Calls_more first a b first' ts : tmsu_next_token_n m first last f fl = Some (true, (a, b), first') -> token_calls m f fl last first' ts ->
    token_calls m f fl last first ((a, b) :: ts).
Inductive skip_calls (m : list N) (f fl last : nat) : nat -> list (nat * nat) -> Prop :=
| Skip_end first first' : tmsu_next_token_skip_empty_n m first last f fl = Some (None, first') -> skip_calls m f fl last first []
| Skip_more first a b first' ts : tmsu_next_token_skip_empty_n m first last f fl = Some (Some (a, b), first') -> skip_calls m f fl last first' ts ->
    skip_calls m f fl last first ((a, b) :: ts).
Definition texts (m : list N) (ts : list (nat * nat)) : list (list N) := map (fun t => sub m (fst t) (snd t)) ts.
Definition nonempty (s : list N) : bool := match s with [] => false | _ => true end.

Lemma pieces_unique : forall D s ps, pieces D s ps -> forall ps', pieces D s ps' -> ps = ps'.
Proof.
  assert (K : forall (D s : list N) d r s' d' r', (forall c, In c s -> ~ In c D) -> In d D -> (forall c, In c s' -> ~ In c D) -> In d' D ->
    s ++ d :: r = s' ++ d' :: r' -> s = s' /\ r = r').
  { intros D s. induction s as [|x s IH]; intros d r [|y s'] d' r' H Hd H' Hd' E; cbn [app] in E; injection E as -> E.
    - auto.
    - exfalso. exact (H' y (or_introl eq_refl) Hd).
    - exfalso. exact (H d' (or_introl eq_refl) Hd').
    - destruct (IH d r s' d' r' ltac:(intros c Hc; apply H; right; exact Hc) Hd ltac:(intros c Hc; apply H'; right; exact Hc) Hd' E) as [-> ->]. auto. }
  intros D s ps H. induction H as [s Hs|s d rest ps Hs Hd H IH]; intros ps' H'; inversion H' as [s' Hs' E1 E2|s' d' rest' ps0 Hs' Hd' H0 E1 E2].
  - reflexivity.
  - exfalso. apply (Hs d'); [|exact Hd']. rewrite <- E1. apply in_or_app. right. left. reflexivity.
  - exfalso. apply (Hs' d); [|exact Hd]. subst s'. apply in_or_app. right. left. reflexivity.
  - destruct (K D s' d' rest' s d rest Hs' Hd' Hs Hd E1) as [-> ->]. f_equal. apply IH. exact H0.
Qed.
Lemma sub_all_not : forall m D a b, (forall k, (a <= k < b)%nat -> ~ member m D k) -> forall c, In c (sub m a b) -> ~ In c D.
Proof. intros m D a b H c I J. apply sub_in in I. destruct I as (k & Hk & E). apply (H k Hk). exists c. auto. Qed.

Lemma token_calls_spec : forall m f fl last, valid m f fl -> (f < fl)%nat -> (last <= length m)%nat -> forall n first, (last - first <= n)%nat -> (first <= last)%nat ->
  exists ts, token_calls m f fl last first ts /\ pieces (sub m f fl) (sub m first last) (texts m ts) /\
    Forall (fun t => first <= fst t /\ fst t <= snd t /\ snd t <= last)%nat ts.
Proof.
  intros m f fl last V Hf L n. induction n as [|n IH]; intros first Hn H.
  - assert (first = last) by lia. subst first. exists [(last, last)]. split; [|split].
    + eapply Calls_last. unfold tmsu_next_token_n. destruct V as [V1 V2]. rewrite !distance_ok by (assumption || lia).
      unfold tmsu_find_first_of_n. rewrite !distance_ok by (assumption || lia). destruct (Nat.eqb_spec f fl); [lia|]. rewrite Nat.sub_diag. cbn [scan_of].
      rewrite Nat.eqb_refl, distance_ok by lia. reflexivity.
    + cbn [texts map fst snd]. rewrite (sub_nil m last last) by lia. constructor. intros c [].
    + constructor; [cbn; lia|constructor].
  - destruct (find_first_of_n_spec m first last f fl ltac:(split; lia) V Hf) as (p & E & D1 & D2).
    assert (C : tmsu_next_token_n m first last f fl = Some (negb (p =? last)%nat, (first, p), if negb (p =? last)%nat then S p else p)).
    { unfold tmsu_next_token_n. destruct V as [V1 V2]. rewrite !distance_ok by (assumption || lia). rewrite E. rewrite distance_ok by (destruct D1 as [[? ?]|?]; lia). reflexivity. }
    destruct (Nat.eqb_spec p last) as [->|Q]; cbn [negb] in C.
    + exists [(first, last)]. split; [eapply Calls_last; exact C|]. split; [|constructor; [cbn; lia|constructor]]. cbn [texts map fst snd]. constructor. apply sub_all_not. exact D2.
    + destruct D1 as [[D1 (d & Ed & Id)]|D1]; [|congruence].
      destruct (IH (S p) ltac:(lia) ltac:(lia)) as (ts & T1 & T2 & T3). exists ((first, p) :: ts). split; [eapply Calls_more; [exact C|exact T1]|]. split.
      * rewrite (sub_app m first p last) by lia. rewrite (sub_cons m p last d) by (try exact Ed; lia). cbn [texts map fst snd]. constructor; [|exact Id|exact T2].
        apply sub_all_not. exact D2.
      * constructor; [cbn [fst snd]; lia|]. eapply Forall_impl; [|exact T3]. intros t Ht. cbn beta in *. lia.
Qed.
Lemma skip_calls_spec : forall m f fl last, valid m f fl -> (f < fl)%nat -> (last <= length m)%nat -> forall n first, (last - first <= n)%nat -> (first <= last)%nat ->
  exists ts ps, skip_calls m f fl last first ts /\ pieces (sub m f fl) (sub m first last) ps /\ texts m ts = filter nonempty ps.
Proof.
  intros m f fl last V Hf L n.
  assert (Skip : forall a b, (a <= b <= last)%nat -> (forall k, (a <= k < b)%nat -> ~ non_member m (sub m f fl) k) -> forall ps, pieces (sub m f fl) (sub m b last) ps ->
    exists ps', pieces (sub m f fl) (sub m a last) ps' /\ filter nonempty ps' = filter nonempty ps).
  { intros a b Hab HD ps Hp. remember (b - a)%nat as d eqn:Ed. revert a Hab HD Ed. induction d as [|d IHd]; intros a Hab HD Ed.
    - replace a with b by lia. exists ps. auto.
    - destruct (IHd (S a) ltac:(lia) ltac:(intros k Hk; apply HD; lia) ltac:(lia)) as (ps' & P1 & P2).
      destruct (nth_ex m a ltac:(lia)) as (c & Ec). exists ([] :: ps'). split; [|exact P2].
      rewrite (sub_cons m a last c) by (try exact Ec; lia). apply (Pieces_more _ [] c); [intros ? []| |exact P1].
      destruct (in_dec N.eq_dec c (sub m f fl)) as [I|I]; [exact I|]. exfalso. apply (HD a ltac:(lia)). exists c. auto. }
  induction n as [|n IH]; intros first Hn H;
    destruct (find_first_not_of_n_spec m first last f fl ltac:(split; lia) V) as (p & E & D1 & D2).
  - assert (first = last) by lia. subst first. assert (p = last) by (destruct D1 as [[? ?]|?]; lia). subst p.
    exists [], [[]]. split; [|split].
    + eapply Skip_end. unfold tmsu_next_token_skip_empty_n. destruct V as [V1 V2]. rewrite !distance_ok by (assumption || lia). rewrite E, Nat.eqb_refl. reflexivity.
    + rewrite (sub_nil m last last) by lia. constructor. intros c [].
    + reflexivity.
  - destruct (Nat.eqb_spec p last) as [->|Q].
    + destruct (Skip first last ltac:(lia) D2 [[]]) as (ps & P1 & P2); [rewrite (sub_nil m last last) by lia; constructor; intros c []|].
      exists [], ps. split; [|split; [exact P1|rewrite P2; reflexivity]].
      eapply Skip_end. unfold tmsu_next_token_skip_empty_n. destruct V as [V1 V2]. rewrite !distance_ok by (assumption || lia). rewrite E, Nat.eqb_refl. reflexivity.
    + destruct D1 as [[D1 D3]|D1]; [|congruence].
      destruct (find_first_of_n_spec m p last f fl ltac:(split; lia) V Hf) as (q & Eq & Q1 & Q2).
      assert (Hq : (p < q <= last)%nat).
      { destruct Q1 as [[Q1 (c & Ec & Ic)]|Q1]; [|lia]. split; [|lia]. destruct (Nat.eq_dec p q) as [<-|]; [|lia]. destruct D3 as (c' & Ec' & Ic').
        rewrite Ec in Ec'. injection Ec' as <-. contradiction. }
      assert (C : tmsu_next_token_skip_empty_n m first last f fl = Some (Some (p, q), q)).
      { unfold tmsu_next_token_skip_empty_n. destruct V as [V1 V2]. rewrite !distance_ok by (assumption || lia). rewrite E.
        destruct (Nat.eqb_spec p last); [lia|]. rewrite Eq. rewrite distance_ok by lia. reflexivity. }
      assert (Ht : nonempty (sub m p q) = true).
      { destruct (nth_ex m p ltac:(lia)) as (c & Ec). rewrite (sub_cons m p q c) by (try exact Ec; lia). reflexivity. }
      destruct (IH q ltac:(lia) ltac:(lia)) as (ts & ps & T1 & T2 & T3).
      assert (P : exists ps', pieces (sub m f fl) (sub m p last) ps' /\ filter nonempty ps' = sub m p q :: filter nonempty ps).
      { destruct Q1 as [[Q1 (d & Ed & Id)]|Q1].
        - rewrite (sub_app m p q last) by lia. rewrite (sub_cons m q last d) in T2 |- * by (try exact Ed; lia).
          inversion T2 as [s Hs E1 E2|s d' rest ps0 Hs Hd H0 E1 E2].
          + exfalso. subst s. exact (Hs d (or_introl eq_refl) Id).
          + destruct s as [|x s].
            * cbn [app] in E1. injection E1 as E1a E1b. subst d' ps. subst rest. exists (sub m p q :: ps0). split; [constructor; [apply sub_all_not; exact Q2|exact Id|exact H0]|].
              cbn [filter]. rewrite Ht. reflexivity.
            * cbn [app] in E1. injection E1 as E1a E1b. exfalso. exact (Hs d ltac:(left; exact E1a) Id).
        - subst q. exists [sub m p last]. split; [constructor; apply sub_all_not; exact Q2|]. cbn [filter]. rewrite Ht. f_equal.
          rewrite (sub_nil m last last) in T2 by lia. rewrite (pieces_unique _ _ _ T2 [[]] ltac:(constructor; intros c [])). reflexivity. }
      destruct P as (ps' & P1 & P2). destruct (Skip first p ltac:(lia) D2 ps' P1) as (ps'' & R1 & R2).
      exists ((p, q) :: ts), ps''. split; [eapply Skip_more; [exact C|exact T1]|]. split; [exact R1|]. cbn [texts map fst snd]. rewrite R2, P2. f_equal. exact T3.
Qed.

(** ** Trimming *)
Lemma trim_right_spec : forall m ws wl first last, valid m first last -> valid m ws wl ->
  exists p, tmsu_trim_right_n m ws wl first last = Some p /\ (first <= p <= last)%nat /\ (p = first \/ non_member m (sub m ws wl) (p - 1)) /\
    forall k, (p <= k < last)%nat -> ~ non_member m (sub m ws wl) k.
Proof.
  intros m ws wl first last V W. unfold tmsu_trim_right_n, tmsu_find_last_not_of_n_ex.
  destruct (find_last_set_spec m true first last ws wl None V W) as (r & D & E). rewrite E. destruct V as [V1 V2]. destruct r as [p|].
  - destruct D as (D1 & D2 & D3). exists (S p). split; [reflexivity|]. split; [lia|]. split; [right; replace (S p - 1)%nat with p by lia; exact D2|].
    intros k Hk. apply D3. lia.
  - exists first. split; [reflexivity|]. split; [lia|]. split; [left; reflexivity|exact D].
Qed.
Lemma trim_n_spec : forall m ws wl first last, valid m first last -> valid m ws wl ->
  (exists k, (first <= k < last)%nat /\ non_member m (sub m ws wl) k) ->
  exists l r, tmsu_trim_n m ws wl first last = Some (l, r) /\ tmsu_trim_left_n m ws wl first last = Some l /\ tmsu_trim_right_n m ws wl first last = Some r /\ (first <= l < r)%nat /\ (r <= last)%nat.
Proof.
  intros m ws wl first last V W (k & Hk & K). unfold tmsu_trim_n. unfold tmsu_trim_left_n.
  destruct (find_first_not_of_n_spec m first last ws wl V W) as (l & El & L1 & L2). rewrite El.
  destruct (trim_right_spec m ws wl first last V W) as (r & Er & R0 & R1 & R2). rewrite Er.
  assert (H1 : (l <= k)%nat) by (destruct (le_lt_dec l k); [assumption|destruct (L2 k ltac:(lia) K)]).
  assert (H2 : (k < r)%nat) by (destruct (le_lt_dec r k); [destruct (R2 k ltac:(lia) K)|assumption]).
  rewrite distance_ok by lia. exists l, r. repeat split; lia.
Qed.
Lemma trim_n_blank : forall m ws wl first last, valid m first last -> valid m ws wl -> (first < last)%nat ->
  (forall k, (first <= k < last)%nat -> ~ non_member m (sub m ws wl) k) -> tmsu_trim_n m ws wl first last = None.
Proof.
  intros m ws wl first last V W H A. unfold tmsu_trim_n. unfold tmsu_trim_left_n.
  destruct (find_first_not_of_n_spec m first last ws wl V W) as (l & El & L1 & L2). rewrite El.
  destruct (trim_right_spec m ws wl first last V W) as (r & Er & R0 & R1 & R2). rewrite Er.
  assert (l = last) by (destruct L1 as [[? K]|?]; [destruct (A l ltac:(lia) K)|assumption]).
  assert (r = first) by (destruct R1 as [?|K]; [assumption|]; destruct (Nat.eq_dec r first) as [|Q]; [assumption|destruct (A (r - 1)%nat ltac:(lia) K)]).
  unfold distance. destruct (Nat.leb_spec l r); [lia|reflexivity].
Qed.

(** ** Lexicographic order *)
Lemma lex_irrefl : forall a, ~ lex_lt a a.
Proof. induction a as [|x a IH]; intros H; inversion H; subst; [lia|exact (IH ltac:(assumption))]. Qed.
Lemma lex_trans : forall a b c, lex_lt a b -> lex_lt b c -> lex_lt a c.
Proof.
  intros a b c H. revert c. induction H as [y b|x y a b L|x a b H IH]; intros c H2; inversion H2; subst; try (constructor; fail).
  - apply Lex_head. lia.
  - apply Lex_head. exact L.
  - apply Lex_head. assumption.
  - apply Lex_tail. apply IH. assumption.
Qed.
Lemma lex_total : forall a b, lex_lt a b \/ a = b \/ lex_lt b a.
Proof.
  induction a as [|x a IH]; intros [|y b]; [auto|left; constructor|right; right; constructor|].
  destruct (N.lt_trichotomy x y) as [L | [-> | L]]; [left; apply Lex_head; exact L| |right; right; apply Lex_head; exact L].
  destruct (IH b) as [L | [-> | L]]; [left; apply Lex_tail; exact L|auto|right; right; apply Lex_tail; exact L].
Qed.
Lemma lex_app : forall p a b, lex_lt (p ++ a) (p ++ b) <-> lex_lt a b.
Proof.
  induction p as [|x p IH]; intros a b; cbn [app]; [tauto|]. rewrite <- (IH a b). split; intros H; [|apply Lex_tail; exact H].
  inversion H; subst; [lia|assumption].
Qed.
Lemma orders_intro : forall a b r, ((r < 0)%Z /\ lex_lt a b \/ r = 0%Z /\ a = b \/ (0 < r)%Z /\ lex_lt b a) -> orders lex_lt a b r.
Proof.
  intros a b r H. unfold orders. destruct H as [[H1 H2] | [[H1 H2] | [H1 H2]]].
  - split; [tauto|]. split; (split; intros K; [lia|]); [subst b; destruct (lex_irrefl _ H2)|destruct (lex_irrefl a); eapply lex_trans; eassumption].
  - subst. split; [|split; [tauto|]]; (split; intros K; [lia|destruct (lex_irrefl _ K)]).
  - split; [split; intros K; [lia|destruct (lex_irrefl a); eapply lex_trans; eassumption]|]. split; [split; intros K; [lia|subst b; destruct (lex_irrefl _ H2)]|tauto].
Qed.
Lemma orders_diff : forall p x y a b, x <> y -> orders lex_lt (p ++ x :: a) (p ++ y :: b) (Z.of_N x - Z.of_N y).
Proof.
  intros p x y a b Q. apply orders_intro. rewrite !lex_app. destruct (N.lt_trichotomy x y) as [L | [L | L]]; [left|congruence|right; right];
    (split; [lia|apply Lex_head; exact L]).
Qed.
Lemma orders_len : forall p a b n k, a = [] \/ b = [] -> n = length (p ++ a) -> k = length (p ++ b) -> orders lex_lt (p ++ a) (p ++ b) (by_length n k).
Proof.
  intros p a b n k H -> ->. apply orders_intro. rewrite !lex_app, !app_length. unfold by_length.
  destruct H as [-> | ->]; [destruct b as [|y b]|destruct a as [|x a]]; cbn [length].
  - right. left. rewrite Nat.ltb_irrefl. auto.
  - left. destruct (Nat.ltb_spec (length p + S (length b)) (length p + 0)); [lia|]. destruct (Nat.ltb_spec (length p + 0) (length p + S (length b))); [|lia]. split; [lia|constructor].
  - right. left. rewrite Nat.ltb_irrefl. auto.
  - right. right. destruct (Nat.ltb_spec (length p + 0) (length p + S (length a))); [|lia]. split; [lia|constructor].
Qed.
Lemma orders_early : forall m a al b bl r, valid m a al -> valid m b bl -> early a b (al - a) (bl - b) = Some r -> orders lex_lt (sub m a al) (sub m b bl) r.
Proof.
  intros m a al b bl r Va Vb. unfold early. pose proof (sub_length _ _ _ Va) as La. pose proof (sub_length _ _ _ Vb) as Lb.
  destruct ((al - a =? 0)%nat || (bl - b =? 0)%nat) eqn:E.
  - intros H. injection H as <-. assert (K : orders lex_lt ([] ++ sub m a al) ([] ++ sub m b bl) (by_length (al - a) (bl - b))).
    { apply orders_len; [|symmetry; exact La|symmetry; exact Lb]. apply orb_true_iff in E. rewrite !Nat.eqb_eq in E.
      destruct E as [E|E]; [left|right]; apply length_zero_iff_nil; lia. }
    cbn [app] in K. replace (zero_len (bl - b) - zero_len (al - a))%Z with (by_length (al - a) (bl - b)); [exact K|].
    unfold by_length, zero_len. destruct (Nat.ltb_spec (bl - b) (al - a)); destruct (Nat.ltb_spec (al - a) (bl - b)); destruct (Nat.eqb_spec (al - a) 0); destruct (Nat.eqb_spec (bl - b) 0); lia.
  - destruct (Nat.eqb_spec a b) as [->|Q]; [|discriminate]. intros H. injection H as <-. destruct Va as [V1 V2], Vb as [V3 V4].
    destruct (le_lt_dec al bl) as [L|L].
    + rewrite (sub_app m b al bl) in * by lia. rewrite <- (app_nil_r (sub m b al)) at 1. apply orders_len; [left; reflexivity|rewrite app_nil_r; symmetry; exact La|symmetry; exact Lb].
    + rewrite (sub_app m b bl al) in * by lia. rewrite <- (app_nil_r (sub m b bl)) at 2. apply orders_len; [right; reflexivity|symmetry; exact La|rewrite app_nil_r; symmetry; exact Lb].
Qed.
Lemma compare_n_spec : forall m a al b bl, valid m a al -> valid m b bl ->
  exists r, tmsu_compare_n m a al b bl = Some r /\ orders lex_lt (sub m a al) (sub m b bl) r.
Proof.
  intros m a al b bl Va Vb. unfold tmsu_compare_n. rewrite !distance_ok by (apply Va || apply Vb).
  destruct (early a b (al - a) (bl - b)) as [r|] eqn:E; [exists r; split; [reflexivity|eapply orders_early; eassumption]|].
  destruct Va as [V1 V2], Vb as [V3 V4]. set (n := Nat.min (al - a) (bl - b)).
  destruct (memcmp_spec m n a b ltac:(lia) ltac:(lia)) as (r & Er & D). rewrite Er.
  destruct D as [[-> D]|(k & x & y & Hk & D & D1 & D2 & D3 & ->)].
  - cbn [Z.eqb]. eexists. split; [reflexivity|]. rewrite (sub_app m a (a + n) al), (sub_app m b (b + n) bl), D by lia. apply orders_len.
    + unfold n. destruct (le_lt_dec (al - a) (bl - b)); [left|right]; apply sub_nil; lia.
    + rewrite <- D, <- sub_app by lia. symmetry. apply sub_length. split; assumption.
    + rewrite <- sub_app by lia. symmetry. apply sub_length. split; assumption.
  - destruct (Z.eqb_spec (Z.of_N x - Z.of_N y) 0); [lia|]. eexists. split; [reflexivity|].
    rewrite (sub_app m a (a + k) al), (sub_app m b (b + k) bl), D by lia.
    rewrite (sub_cons m (a + k) al x), (sub_cons m (b + k) bl y) by (try assumption; lia). apply orders_diff. exact D3.
Qed.

(** ** Ignoring case is comparing in upper-cased memory *)
Lemma sub_map : forall m i j, sub (map to_upper m) i j = map to_upper (sub m i j).
Proof. intros m i j. unfold sub. rewrite skipn_map, firstn_map. reflexivity. Qed.
Lemma valid_map : forall m i j, valid (map to_upper m) i j <-> valid m i j.
Proof. intros m i j. unfold valid. rewrite map_length. tauto. Qed.
Lemma cmp_upper_memcmp : forall m n a b, cmp_upper m a b n = memcmp (map to_upper m) a b n.
Proof.
  intros m n. induction n as [|n IH]; intros a b; cbn [cmp_upper memcmp]; [reflexivity|]. rewrite !nth_error_map.
  destruct (nth_error m a) as [x|]; cbn [option_map]; [|reflexivity]. destruct (nth_error m b) as [y|]; cbn [option_map]; [|reflexivity].
  destruct (N.eqb_spec (to_upper x) (to_upper y)) as [E|E].
  - rewrite E, Z.sub_diag. cbn [Z.eqb]. apply IH.
  - destruct (Z.eqb_spec (Z.of_N (to_upper x) - Z.of_N (to_upper y)) 0); [lia|reflexivity].
Qed.
Lemma compare_ic_upper : forall m a al b bl, tmsu_compare_ignore_case_ansi_n m a al b bl = tmsu_compare_n (map to_upper m) a al b bl.
Proof.
  intros m a al b bl. unfold tmsu_compare_ignore_case_ansi_n, tmsu_compare_n. destruct (distance a al) as [n|]; [|reflexivity].
  destruct (distance b bl) as [k|]; [|reflexivity]. rewrite cmp_upper_memcmp. reflexivity.
Qed.
Lemma equals_ic_upper : forall m a al b bl, tmsu_equals_ignore_case_ansi_n m a al b bl = tmsu_equals_n (map to_upper m) a al b bl.
Proof.
  intros m a al b bl. unfold tmsu_equals_ignore_case_ansi_n, tmsu_equals_n. destruct (distance a al) as [n|]; [|reflexivity].
  destruct (distance b bl) as [k|]; [|reflexivity]. rewrite cmp_upper_memcmp. reflexivity.
Qed.
Lemma compare_ic_spec : forall m a al b bl, valid m a al -> valid m b bl ->
  exists r, tmsu_compare_ignore_case_ansi_n m a al b bl = Some r /\ orders lex_lt (map to_upper (sub m a al)) (map to_upper (sub m b bl)) r.
Proof. intros m a al b bl Va Vb. rewrite compare_ic_upper, <- !sub_map. apply compare_n_spec; apply valid_map; assumption. Qed.
Lemma equals_n_spec : forall m a al b bl, valid m a al -> valid m b bl ->
  exists r, tmsu_equals_n m a al b bl = Some r /\ (r = true <-> sub m a al = sub m b bl).
Proof.
  intros m a al b bl Va Vb. unfold tmsu_equals_n. pose proof (sub_length _ _ _ Va) as La. pose proof (sub_length _ _ _ Vb) as Lb.
  destruct Va as [V1 V2], Vb as [V3 V4]. rewrite !distance_ok by assumption. destruct (Nat.eqb_spec (al - a) (bl - b)) as [E|E]; cbn [negb].
  - destruct (memcmp_zero m (al - a) a b ltac:(lia) ltac:(lia)) as (r & Er & D). rewrite Er. eexists. split; [reflexivity|].
    rewrite Z.eqb_eq, D. replace (a + (al - a))%nat with al by lia. replace (b + (al - a))%nat with bl by lia. tauto.
  - exists false. split; [reflexivity|]. split; [discriminate|]. intros K. rewrite K in La. lia.
Qed.
Lemma equals_ic_spec : forall m a al b bl, valid m a al -> valid m b bl ->
  exists r, tmsu_equals_ignore_case_ansi_n m a al b bl = Some r /\ (r = true <-> map to_upper (sub m a al) = map to_upper (sub m b bl)).
Proof. intros m a al b bl Va Vb. rewrite equals_ic_upper, <- !sub_map. apply equals_n_spec; apply valid_map; assumption. Qed.
