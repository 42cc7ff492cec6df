(** Calls keep the invariant. *)
From Coq Require Import Arith Bool List Lia.
From Verif Require Import Base AsModel AsSpec AsProofs AsSteps AsWorker AsMain.
Import ListNotations.

(** ** Calls *)
Lemma first_true_spec i l s : first_true i l = Some s -> i <= s /\ nth_error l (s - i) = Some true.
Proof.
  revert i. induction l as [|b l IH]; intros i H; [discriminate|]. cbn [first_true] in H. destruct b.
  - injection H as <-. rewrite Nat.sub_diag. auto.
  - apply IH in H as [L H]. split; [lia|]. replace (s - i) with (S (s - S i)) by lia. exact H.
Qed.
Lemma nth_firstn_skipn {A} (l : list A) n k i x : nth_error (firstn n (skipn k l)) i = Some x -> nth_error l (k + i) = Some x.
Proof.
  revert l. induction k as [|k IH]; intros l H.
  - cbn [skipn Nat.add] in *. revert l i H. induction n as [|n IHn]; intros l i H; [destruct i; discriminate|]. destruct l as [|a l]; [destruct i; discriminate|]. destruct i as [|i]; [exact H|]. cbn [firstn nth_error] in *. exact (IHn _ _ H).
  - destruct l as [|a l]; [destruct n, i; discriminate|]. cbn [skipn Nat.add nth_error] in *. exact (IH _ H).
Qed.
(** a block more *)
Definition extended (C : nat) (t : state) : state :=
  State (slots t ++ repeat no_slot C) (avail t ++ repeat true C) (counts t ++ [C]) (wq t) (dq t) (arr t) (dispatcher t) (main_at t) (workers t) (log t) (next_work t) (fault t).
Lemma extended_keeps C t : inv t -> inv (extended C t).
Proof.
  intros I. set (t1 := extended C t).
  assert (Es : slots t1 = slots t ++ repeat no_slot C) by reflexivity. assert (Ea : avail t1 = avail t ++ repeat true C) by reflexivity.
  assert (Old : forall s x, nth_error (slots t) s = Some x -> nth_error (slots t1) s = Some x) by (intros s x H; rewrite Es, nth_error_app1 by exact (nth_lt _ _ _ H); exact H).
  assert (New : forall s x w, nth_error (slots t1) s = Some x -> work x = Some w -> nth_error (slots t) s = Some x).
  { intros s x w H W. rewrite Es in H. destruct (Nat.lt_ge_cases s (length (slots t))) as [L|L]; [rewrite nth_error_app1 in H by exact L; exact H|].
    rewrite nth_error_app2 in H by exact L. apply nth_error_In, repeat_spec in H. subst x. discriminate. }
  constructor; try exact (i_log t I); try exact (i_lt t I).
  - intros s. pose proof (i_slot t I s) as V. unfold slot_inv in *. change (c_new t1 s) with (c_new t s). change (c_in t1 s) with (c_in t s). change (c_out t1 s) with (c_out t s). change (c_late t1 s) with (c_late t s).
    destruct (nth_error (slots t) s) as [x|] eqn:Ex.
    + rewrite (Old _ _ Ex). pose proof (nth_lt _ _ _ Ex) as L. replace (av t1 s) with (av t s); [exact V|]. unfold av. rewrite Ea, nth_error_app1 by (rewrite (i_len t I); exact L). reflexivity.
    + apply nth_error_None in Ex. destruct (nth_error (slots t1) s) as [x|] eqn:Ex1; [|exact V].
      rewrite Es in Ex1. rewrite nth_error_app2 in Ex1 by exact Ex. pose proof (nth_lt _ _ _ Ex1) as L. rewrite repeat_length in L. apply nth_error_In, repeat_spec in Ex1. subst x.
      cbn [no_slot work signaled evt ring_pos hp flag]. unfold unused, av. rewrite Ea, nth_error_app2 by (rewrite (i_len t I); exact Ex). rewrite (i_len t I).
      destruct (nth_error (repeat true C) (s - length (slots t))) as [b|] eqn:Eb; [|apply nth_error_None in Eb; rewrite repeat_length in Eb; lia].
      apply nth_error_In, repeat_spec in Eb. subst b. cbn [flag]. lia.
  - intros s s' x x' w H W H' W'. exact (i_inj t I s s' x x' w (New _ _ _ H W) W (New _ _ _ H' W') W').
  - intros k s w H. destruct (i_running t I _ _ _ H) as (x & Hx & Wx). exists x. auto.
  - apply (main_other t t1 eq_refl); try (intros; reflexivity || apply Nat.le_refl); [|exact (i_main t I)]. intros s x H. exists x. auto.
  - intros w Hw. destruct (i_all t I w Hw) as [(s & x & Hx & Wx)|F]; [left; exists s, x; auto|right; exact F].
  - rewrite Es, Ea, !app_length, !repeat_length, (i_len t I). reflexivity.
Qed.
Lemma extended_stale C t : ~ stale t -> inv t -> ~ stale (extended C t).
Proof.
  intros H I (s & x & Hx & Ha & S). apply H. cbn [extended slots avail workers] in *. destruct (Nat.lt_ge_cases s (length (slots t))) as [L|L].
  - rewrite nth_error_app1 in Hx by exact L. rewrite nth_error_app1 in Ha by (rewrite (i_len t I); exact L). exists s, x. auto.
  - exfalso. rewrite nth_error_app2 in Hx by exact L. apply nth_error_In, repeat_spec in Hx. subst x. destruct S as [S|(k & w & S)]; [discriminate|].
    pose proof (i_slot t I s) as V. unfold slot_inv in V. apply nth_error_None in L. rewrite L in V. pose proof (tot_ge (w_late s) _ _ _ S) as G. cbn [w_late] in G. rewrite same_refl in G. unfold c_late in V. lia.
Qed.

(** the slot that is given out *)
Definition taken (s i : nat) (x : slot) (c : nat) (t : state) : state :=
  State (set (slots t) s (Slot (Some (next_work t)) None false (evt x))) (set (avail t) s false) (set (counts t) i (c - 1)) (wq t) (dq t) (arr t) (dispatcher t) (main_at t) (workers t) (log t) (next_work t + 1) (fault t).
Lemma taken_keeps s i x c t : inv t -> main_at t = M_ready -> ~ stale t -> nth_error (slots t) s = Some x -> nth_error (avail t) s = Some true -> inv (taken s i x c t).
Proof.
  intros I Em St Ex Ha. set (t1 := taken s i x c t). pose proof (nth_lt _ _ _ Ex) as Ls. pose proof (nth_lt _ _ _ Ha) as La. set (n := next_work t).
  assert (Ve : evt x = false) by (destruct (evt x) eqn:E; [exfalso; apply St; exists s, x; auto|reflexivity]).
  set (y := Slot (Some n) None false (evt x)).
  assert (Es : slots t1 = set (slots t) s y) by reflexivity. assert (Ea : avail t1 = set (avail t) s false) by reflexivity.
  assert (Hs : forall s', s' <> s -> nth_error (slots t1) s' = nth_error (slots t) s') by (intros s' Ne; apply nth_set_ne; assumption).
  assert (Hn : nth_error (slots t1) s = Some y) by (apply nth_set_eq; exact Ls).
  assert (Nl : forall e, In e (log t) -> about e <> n) by (intros e He; specialize (i_lt t I e He); unfold n; lia).
  pose proof (i_slot t I s) as V. unfold slot_inv in V. rewrite Ex in V.
  assert (Wx : work x = None). { destruct (work x) as [w|]; [|reflexivity]. exfalso. destruct V as [_ V]. unfold used, av in V. rewrite Ha in V. cbn [flag] in V. lia. }
  rewrite Wx in V.
  assert (Lt : c_late t s = 0).
  { unfold c_late. rewrite Em. cbn [m_late]. rewrite Nat.add_0_r. apply tot_zero. intros k w Hk. destruct w; cbn [w_late]; try reflexivity. apply same_ne. intros <-. apply St. exists s, x. eauto 6. }
  constructor.
  - intros s'. destruct (Nat.eq_dec s' s) as [->|Ne].
    + unfold slot_inv. rewrite Hn. cbn [y work signaled evt]. split; [change (next_work t1) with (n + 1); lia|]. change (hp y) with 0. rewrite Ve. cbn [flag].
      change (c_new t1 s) with (c_new t s). change (c_in t1 s) with (c_in t s). change (c_out t1 s) with (c_out t s). change (c_late t1 s) with (c_late t s). change (main_at t1) with (main_at t). rewrite Em. cbn [pushing resetting placed].
      change (log t1) with (log t).
      assert (Z : hD (log t) n = 0 /\ hS (log t) n = 0 /\ hF (log t) n = 0 /\ hW (log t) n = 0 /\ hX (log t) n = 0).
      { repeat split; match goal with |- ?h = 0 => destruct (Nat.eq_dec h 0) as [A|A]; [exact A|exfalso] end.
        - assert (B : hD (log t) n > 0) by lia. apply hD_in in B. exact (Nl _ B eq_refl).
        - assert (B : hS (log t) n > 0) by lia. apply hS_in in B. exact (Nl _ B eq_refl).
        - assert (B : hF (log t) n > 0) by lia. apply hF_in in B. exact (Nl _ B eq_refl).
        - assert (B : hW (log t) n > 0) by lia. apply hW_in in B. exact (Nl _ B eq_refl).
        - assert (B : hX (log t) n > 0) by lia. apply hX_in in B. exact (Nl _ B eq_refl). }
      destruct Z as (-> & -> & -> & -> & ->). unfold unused in V. unfold used, av. rewrite Ea, nth_set_eq by exact La. cbn [flag]. lia.
    + assert (Av : av t1 s' = av t s') by (unfold av; rewrite Ea, nth_set_ne by assumption; reflexivity).
      apply (slot_frame t t1 s' (ex_intro _ [] (app_nil _)) (Hs s' Ne) Av); try reflexivity; [auto|change (next_work t1) with (next_work t + 1); lia| |exact (i_slot t I s')]. intros; repeat split; reflexivity.
  - intros s1 s2 y1 y2 v H1 W1 H2 W2. rewrite Es in H1, H2.
    assert (Old : forall s' z, nth_error (slots t) s' = Some z -> work z = Some n -> False).
    { intros s' z Hz Wz. pose proof (i_slot t I s') as Q. unfold slot_inv in Q. rewrite Hz, Wz in Q. unfold n in Q. lia. }
    destruct (Nat.eq_dec s1 s) as [->|N1]; destruct (Nat.eq_dec s2 s) as [->|N2]; [reflexivity|..].
    + rewrite nth_set_eq in H1 by exact Ls. rewrite nth_set_ne in H2 by assumption. exfalso. apply (Old s2 y2 H2). assert (Y : y = y1) by congruence. rewrite <- Y in W1. cbn [y work] in W1. congruence.
    + rewrite nth_set_eq in H2 by exact Ls. rewrite nth_set_ne in H1 by assumption. exfalso. apply (Old s1 y1 H1). assert (Y : y = y2) by congruence. rewrite <- Y in W2. cbn [y work] in W2. congruence.
    + rewrite nth_set_ne in H1 by assumption. rewrite nth_set_ne in H2 by assumption. exact (i_inj t I s1 s2 y1 y2 v H1 W1 H2 W2).
  - intros k s' w' H. change (workers t1) with (workers t) in H. destruct (i_running t I _ _ _ H) as (z & Hz & Wz). destruct (Nat.eq_dec s' s) as [->|Ne]; [congruence|].
    exists z. rewrite (Hs s' Ne). auto.
  - unfold main_inv. change (main_at t1) with (main_at t). rewrite Em. exact Logic.I.
  - exact (i_log t I).
  - intros e He. specialize (i_lt t I e He). change (next_work t1) with (next_work t + 1). lia.
  - intros v Hv. change (next_work t1) with (n + 1) in Hv. destruct (Nat.eq_dec v n) as [->|Nv]; [left; exists s, y; auto|].
    destruct (i_all t I v) as [(s' & z & Hz & Wz)|F]; [unfold n in *; lia| |right; exact F]. left. exists s', z. destruct (Nat.eq_dec s' s) as [->|Ne]; [congruence|]. rewrite (Hs s' Ne). auto.
  - rewrite Es, Ea, !set_len by assumption. exact (i_len t I).
Qed.
Definition alloc_in (C : nat) (t : state) : option (nat * state) :=
  i <- first_block 0 (counts t) ;;
  s <- first_true (i * C) (firstn C (skipn (i * C) (avail t))) ;;
  x <- nth_error (slots t) s ;;
  c <- nth_error (counts t) i ;;
  Some (s, taken s i x c t).
Lemma allocate_eq C t : allocate C t = alloc_in C (match first_block 0 (counts t) with Some _ => t | None => extended C t end).
Proof. reflexivity. Qed.
Lemma allocate_keeps C t s t' : inv t -> main_at t = M_ready -> ~ stale t -> allocate C t = Some (s, t') ->
  inv t' /\ main_at t' = M_ready /\ nth_error (slots t') s = Some (Slot (Some (next_work t)) None false false) /\ ~ (exists x w, nth_error (slots t) s = Some x /\ work x = Some w) /\
  wq t' = wq t /\ dq t' = dq t /\ arr t' = arr t /\ workers t' = workers t /\ dispatcher t' = dispatcher t /\ log t' = log t /\ fault t' = fault t.
Proof.
  intros I Em St. rewrite allocate_eq. unfold alloc_in. set (t0 := match first_block 0 (counts t) with Some _ => t | None => extended C t end).
  assert (H0 : t0 = t \/ t0 = extended C t) by (unfold t0; destruct (first_block 0 (counts t)); auto).
  assert (I0 : inv t0 /\ main_at t0 = M_ready /\ ~ stale t0 /\ next_work t0 = next_work t /\ (forall s x, nth_error (slots t) s = Some x -> nth_error (slots t0) s = Some x) /\
          wq t0 = wq t /\ dq t0 = dq t /\ arr t0 = arr t /\ workers t0 = workers t /\ dispatcher t0 = dispatcher t /\ log t0 = log t /\ fault t0 = fault t).
  { destruct H0 as [-> | ->]; [auto 20|]. split; [apply extended_keeps; exact I|]. split; [exact Em|]. split; [apply extended_stale; assumption|]. split; [reflexivity|]. split; [|auto 10].
    intros s0 x0 H. cbn [extended slots]. rewrite nth_error_app1 by exact (nth_lt _ _ _ H). exact H. }
  clearbody t0. clear H0. destruct I0 as (I0 & Em0 & St0 & En & Hold & F1 & F2 & F3 & F4 & F5 & F6 & F7).
  destruct (first_block 0 (counts t0)) as [i|]; [|discriminate]. cbv beta iota.
  destruct (first_true (i * C) (firstn C (skipn (i * C) (avail t0)))) as [s'|] eqn:Ft; [|discriminate]. cbv beta iota.
  destruct (nth_error (slots t0) s') as [x|] eqn:Ex; [|discriminate]. cbv beta iota.
  destruct (nth_error (counts t0) i) as [c|]; [|discriminate]. cbv beta iota. intros [= <- <-].
  apply first_true_spec in Ft as [Li Ft]. apply nth_firstn_skipn in Ft. replace (i * C + (s' - i * C)) with s' in Ft by lia.
  assert (Ve : evt x = false) by (destruct (evt x) eqn:E; [exfalso; apply St0; exists s', x; auto|reflexivity]).
  split; [exact (taken_keeps s' i x c t0 I0 Em0 St0 Ex Ft)|]. cbn [taken main_at slots wq dq arr workers dispatcher log fault]. rewrite nth_set_eq by exact (nth_lt _ _ _ Ex). rewrite En, Ve. repeat split; try assumption.
  intros (z & w & Hz & Wz). apply Hold in Hz. assert (z = x) by congruence. subst z.
  pose proof (i_slot t0 I0 s') as V. unfold slot_inv in V. rewrite Ex, Wz in V. destruct V as [_ V]. unfold used, av in V. rewrite Ft in V. cbn [flag] in V. lia.
Qed.
(** the main thread begins a call *)
Lemma begin_keeps t s x w m :
  inv t -> main_at t = M_ready -> nth_error (slots t) s = Some x -> work x = Some w ->
  (m = M_try s /\ hp x = 0 \/ m = M_wait s w true \/ m = M_free s w) -> inv (with_main m t).
Proof.
  intros I Em Ex Ew H. set (t1 := with_main m t).
  apply (main_case t t1 _ m [] s x x w I Em); try fields.
  - intros s' Ne. split; [idles Ne|split; [|reflexivity]]. destruct H as [[-> _]|[->| ->]]; idles Ne.
  - intros V Q1 Q2 Q3 Q4. change (in_queues t1 s) with (in_queues t s) in Q4. split; [auto|].
    unfold main_inv. destruct H as [[-> P]|[->| ->]]; here; (split; [|cbn [t1 main_at with_main]; eauto]); each.
Qed.
Lemma in_use_some t s x w : in_use t s = Some (x, w) -> nth_error (slots t) s = Some x /\ work x = Some w.
Proof. unfold in_use. destruct (nth_error (slots t) s) as [y|]; [|discriminate]. cbv beta iota. destruct (work y) as [v|] eqn:E; [|discriminate]. intros [= <- <-]. auto. Qed.

Theorem exec_keeps N C checks l t t' : inv t -> timed l = false -> (is_push l = true -> ~ stale t) -> exec N C checks l t = Some t' -> inv t'.
Proof.
  intros I Ht Hp. unfold exec. destruct (fault t) eqn:Ef; [discriminate|].
  assert (Fail : inv (failed t)) by (apply (inv_moves t); try reflexivity; [exact I|intros [=]|auto|eauto]).
  destruct l as [deferred|s|s|s|s| | |k|]; try discriminate Ht.
  - destruct (main_at t) eqn:Em; try discriminate. destruct (allocate C t) as [[s t1]|] eqn:Ea; [|discriminate]. cbv beta iota. intros [= <-].
    destruct (allocate_keeps C t s t1 I Em (Hp eq_refl) Ea) as (I1 & Em1 & Es & _). destruct deferred; [exact I1|].
    apply (begin_keeps t1 s _ _ _ I1 Em1 Es eq_refl). left. split; reflexivity.
  - destruct (main_at t) eqn:Em; try discriminate. destruct (in_use t s) as [[x w]|] eqn:Eu; intros [= <-]; [|exact Fail]. apply in_use_some in Eu as [Ex Ew].
    unfold begin_dispatch. destruct (ring_pos x) as [p|] eqn:Px; [exact I|]. apply (begin_keeps t s x w _ I Em Ex Ew). left. split; [reflexivity|]. unfold hp. rewrite Px. reflexivity.
  - destruct (main_at t) eqn:Em; try discriminate. destruct (in_use t s) as [[x w]|] eqn:Eu; intros [= <-]; [|exact Fail]. apply in_use_some in Eu as [Ex Ew].
    apply (begin_keeps t s x w _ I Em Ex Ew). auto.
  - destruct (main_at t) eqn:Em; try discriminate. destruct (in_use t s) as [[x w]|] eqn:Eu; intros [= <-]; [|exact Fail]. apply in_use_some in Eu as [Ex Ew].
    apply (begin_keeps t s x w _ I Em Ex Ew). auto.
  - intros H. exact (main_keeps N checks t t' I H).
  - intros H. exact (worker_keeps N k t t' I H).
  - intros H. exact (dispatcher_keeps N t t' I H).
Qed.
Lemma initial_inv N C n : inv (initial N C n).
Proof.
  set (t := initial N C n).
  assert (Zw : forall f : worker -> nat, f W_idle = 0 -> tot f (workers t) = 0) by (intros f H; apply tot_repeat; exact H).
  assert (Z : forall s, c_new t s = 0 /\ c_in t s = 0 /\ c_out t s = 0 /\ c_late t s = 0).
  { intros s. unfold c_new, c_in, c_out, c_late. rewrite !Zw by reflexivity. unfold t, initial, new_queue. projections. rewrite !tot_repeat by reflexivity. repeat split. }
  assert (Nw : forall s x w, nth_error (slots t) s = Some x -> work x = Some w -> False).
  { intros s x w H W. apply nth_error_In in H. unfold t, initial in H. projections. apply repeat_spec in H. subst x. discriminate. }
  constructor.
  - intros s. destruct (Z s) as (Z1 & Z2 & Z3 & Z4). unfold slot_inv. destruct (nth_error (slots t) s) as [x|] eqn:Ex; [|lia].
    destruct (work x) eqn:Ew; [exfalso; exact (Nw s x n0 Ex Ew)|]. pose proof (nth_lt _ _ _ Ex) as L. change (slots t) with (repeat no_slot C) in *. rewrite repeat_length in L.
    apply nth_error_In, repeat_spec in Ex. subst x. unfold unused, av. change (avail t) with (repeat true C).
    destruct (nth_error (repeat true C) s) as [b|] eqn:Eb; [|apply nth_error_None in Eb; rewrite repeat_length in Eb; lia]. apply nth_error_In, repeat_spec in Eb. subst b. cbn [flag no_slot signaled evt hp ring_pos]. lia.
  - intros s s' x x' w H W. exfalso. exact (Nw s x w H W).
  - intros k s w H. apply nth_error_In in H. change (workers t) with (repeat W_idle n) in H. apply repeat_spec in H. discriminate.
  - exact Logic.I.
  - intros b e a E. destruct b; discriminate.
  - intros e [].
  - intros w H. change (next_work t) with 0 in H. lia.
  - change (length (repeat true C) = length (repeat no_slot C)). rewrite !repeat_length. reflexivity.
Qed.
Theorem careful_inv N C checks n ls t : careful N C checks (initial N C n) ls t -> inv t.
Proof.
  intros H. remember (initial N C n) as t0 eqn:E0. induction H as [t|t ls t1 l t2 H IH Ht Hp He]; [subst; apply initial_inv|]. exact (exec_keeps N C checks l t1 t2 (IH E0) Ht Hp He).
Qed.
