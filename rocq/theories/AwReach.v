(** What a call with several handles does to the pool can be done by calls with one. *)
From Coq Require Import Arith Bool List Lia.
From Verif Require Import Base AsModel AsSpec AsProofs AsSteps AsWorker AsMain AsCalls AsProgress AsRing AsQuiet AwModel AwSpec AwQueue.
Import ListNotations.

(** ** The work ring keeps its size *)
Lemma wq_len_main N checks t t' : length (ring (wq t)) = N -> main_step N checks t = Some t' -> length (ring (wq t')) = N.
Proof.
  intros L H. unfold main_step in H.
  destruct (main_at t) as [|s|s|dd s|dd s p|dd s p|dd s|s w inf|s w|s w inf|s w ok|s w|s w w'|s w|s w|s w|s w|s w|s w|s w] eqn:Em; try discriminate H; try (destruct dd; cbn [the_q with_q] in H);
    try (repeat match type of H with context [match ?e with _ => _ end] => lazymatch e with pop_slot _ _ _ => fail | _ => destruct e eqn:?; cbv beta iota in H; try discriminate H end end; injection H as <-; projections; exact L).
  - destruct (nth_error (ring (wq t)) p) as [y|] eqn:E; [|discriminate]. cbv beta iota in H. destruct y; injection H as <-; projections; [exact L|]. rewrite set_len by exact (nth_lt _ _ _ E). exact L.
  - destruct (nth_error (slots t) s) as [x|]; [|discriminate]. cbv beta iota in H. destruct (pop_slot s x t) as [[[b t1]|]|] eqn:Ep; cbv beta iota in H; [| |discriminate].
    + apply pop_slot_some in Ep. destruct b; injection H as <-; (destruct Ep as [->|(p & Lp & ->)]; projections; rewrite ?set_len by exact Lp; exact L).
    + injection H as <-. exact L.
  - destruct (nth_error (slots t) s) as [x|]; [|discriminate]. cbv beta iota in H. destruct (pop_slot s x t) as [[[b t1]|]|] eqn:Ep; cbv beta iota in H; [| |discriminate].
    + apply pop_slot_some in Ep. destruct b; injection H as <-; (destruct Ep as [->|(p & Lp & ->)]; projections; rewrite ?set_len by exact Lp; exact L).
    + injection H as <-. exact L.
Qed.
Lemma wq_len N C checks l t t' : length (ring (wq t)) = N -> exec N C checks l t = Some t' -> length (ring (wq t')) = N.
Proof.
  intros L. unfold exec. destruct (fault t); [discriminate|]. destruct l as [deferred|s|s|s|s| | |k|].
  - destruct (main_at t) eqn:Em; try discriminate. rewrite allocate_eq. unfold alloc_in.
    set (t0 := match first_block 0 (counts t) with Some _ => t | None => extended C t end).
    assert (H0 : wq t0 = wq t) by (unfold t0; destruct (first_block 0 (counts t)); auto). clearbody t0.
    destruct (first_block 0 (counts t0)) as [i|]; [|discriminate]. cbv beta iota.
    destruct (first_true (i * C) (firstn C (skipn (i * C) (avail t0)))) as [s'|]; [|discriminate]. cbv beta iota.
    destruct (nth_error (slots t0) s') as [x|]; [|discriminate]. cbv beta iota.
    destruct (nth_error (counts t0) i) as [cc|]; [|discriminate]. cbv beta iota.
    destruct deferred; intros [= <-]; projections; cbn [taken wq with_main]; rewrite H0; exact L.
  - destruct (main_at t); try discriminate. destruct (in_use t s) as [[x w]|]; intros [= <-]; [unfold begin_dispatch; destruct (ring_pos x)|]; exact L.
  - destruct (main_at t); try discriminate. destruct (in_use t s) as [[x w]|]; intros [= <-]; exact L.
  - destruct (main_at t); try discriminate. destruct (in_use t s) as [[x w]|]; intros [= <-]; exact L.
  - destruct (main_at t); try discriminate. destruct (in_use t s) as [[x w]|]; intros [= <-]; exact L.
  - apply wq_len_main. exact L.
  - destruct (main_at t) as [| | | | | | | | |s w inf| | | | | | | | | |]; try discriminate. destruct inf; [discriminate|]. intros [= <-]. exact L.
  - unfold worker_step. intros H. repeat match type of H with context [match ?e with _ => _ end] => destruct e eqn:?; cbv beta iota in H; try discriminate H end; injection H as <-; projections; try exact L.
    rewrite set_len; [exact L|]. eapply nth_lt; eassumption.
  - unfold dispatcher_step. intros H. repeat match type of H with context [match ?e with _ => _ end] => destruct e eqn:?; cbv beta iota in H; try discriminate H end; injection H as <-; exact L.
Qed.

(** ** What stays while the main thread does not free *)
Definition slot_le (x y : slot) : Prop :=
  work y = work x /\ (ring_pos x <> None -> ring_pos y <> None) /\ (signaled x = true -> signaled y = true) /\ (evt x = true -> evt y = true).
Definition keeps (t t' : state) : Prop :=
  (forall s x, nth_error (slots t) s = Some x -> exists y, nth_error (slots t') s = Some y /\ slot_le x y) /\ exists le, log t' = log t ++ le.
Lemma slot_le_refl x : slot_le x x.
Proof. unfold slot_le. auto. Qed.
Lemma keeps_refl t : keeps t t.
Proof. split; [intros s x H; exists x; split; [exact H|apply slot_le_refl]|exists []; symmetry; apply app_nil_r]. Qed.
Lemma keeps_same t t' : slots t' = slots t -> (exists le, log t' = log t ++ le) -> keeps t t'.
Proof. intros E L. split; [|exact L]. intros s x H. exists x. rewrite E. split; [exact H|apply slot_le_refl]. Qed.
Lemma keeps_set t t' s x y : nth_error (slots t) s = Some x -> slot_le x y -> slots t' = set (slots t) s y -> (exists le, log t' = log t ++ le) -> keeps t t'.
Proof.
  intros Ex Le E L. split; [|exact L]. intros s' x' H. rewrite E. pose proof (nth_lt _ _ _ Ex) as Lt. destruct (Nat.eq_dec s' s) as [->|Ne].
  - rewrite nth_set_eq by exact Lt. exists y. split; [reflexivity|]. congruence.
  - rewrite nth_set_ne by assumption. exists x'. split; [exact H|apply slot_le_refl].
Qed.
Lemma keeps_trans t1 t2 t3 : keeps t1 t2 -> keeps t2 t3 -> keeps t1 t3.
Proof.
  intros [A1 [l1 B1]] [A2 [l2 B2]]. split; [|exists (l1 ++ l2); rewrite B2, B1, app_assoc; reflexivity].
  intros s x H. destruct (A1 s x H) as (y & Hy & L1). destruct (A2 s y Hy) as (z & Hz & L2). exists z. split; [exact Hz|]. unfold slot_le in *. intuition congruence.
Qed.
Lemma log_same (t t' : state) : log t' = log t -> exists le, log t' = log t ++ le.
Proof. intros ->. exists []. symmetry. apply app_nil_r. Qed.
Ltac log_ok := first [apply log_same; reflexivity | eexists; reflexivity].
Ltac keep_step := match goal with
  | E : nth_error (slots ?t) ?s = Some ?x |- keeps ?t _ => first [apply keeps_same; [reflexivity|log_ok] | eapply (keeps_set t _ s x _ E); [|reflexivity|log_ok]; unfold slot_le; cbn [work ring_pos signaled evt set_signaled set_event]; split; [reflexivity|split; [auto; intros _; discriminate|split; auto]]]
  | _ => apply keeps_same; [reflexivity|log_ok]
  end.
Lemma worker_keeps N k t t' : worker_step N k t = Some t' -> keeps t t'.
Proof.
  unfold worker_step. intros H. repeat match type of H with context [match ?e with _ => _ end] => destruct e eqn:?; cbv beta iota in H; try discriminate H end; injection H as <-; keep_step.
Qed.
Lemma dispatcher_keeps N t t' : dispatcher_step N t = Some t' -> keeps t t'.
Proof.
  unfold dispatcher_step. intros H. repeat match type of H with context [match ?e with _ => _ end] => destruct e eqn:?; cbv beta iota in H; try discriminate H end; injection H as <-; keep_step.
Qed.
Lemma main_keeps N checks t t' : (forall s w, main_at t <> M_reset s w) -> main_step N checks t = Some t' -> keeps t t'.
Proof.
  intros Nr H. unfold main_step in H.
  destruct (main_at t) as [|s|s|dd s|dd s p|dd s p|dd s|s w inf|s w|s w inf|s w ok|s w|s w w'|s w|s w|s w|s w|s w|s w|s w] eqn:Em; try discriminate H; try (destruct dd; cbn [the_q with_q] in H);
    try (repeat match type of H with context [match ?e with _ => _ end] => lazymatch e with pop_slot _ _ _ => fail | _ => destruct e eqn:?; cbv beta iota in H; try discriminate H end end; injection H as <-; keep_step; fail).
  - destruct (nth_error (slots t) s) as [x|] eqn:Ex; [|discriminate]. cbv beta iota in H. destruct (pop_slot s x t) as [[[b t1]|]|] eqn:Ep; cbv beta iota in H; [| |discriminate].
    + apply pop_slot_some in Ep. destruct b; injection H as <-; (destruct Ep as [->|(p & Lp & ->)]; keep_step).
    + injection H as <-. keep_step.
  - destruct (nth_error (slots t) s) as [x|] eqn:Ex; [|discriminate]. cbv beta iota in H. destruct (pop_slot s x t) as [[[b t1]|]|] eqn:Ep; cbv beta iota in H; [| |discriminate].
    + apply pop_slot_some in Ep. destruct b; injection H as <-; (destruct Ep as [->|(p & Lp & ->)]; keep_step).
    + injection H as <-. keep_step.
  - elim (Nr s w eq_refl).
Qed.
Lemma keeps_busy t t' s : keeps t t' -> busy t s -> busy t' s.
Proof. intros [K _] (x & w & Ex & Ew). destruct (K s x Ex) as (y & Ey & L & _). exists y, w. split; [exact Ey|congruence]. Qed.
Lemma keeps_ended t t' s : keeps t t' -> ended t s -> ended t' s.
Proof. intros [K [le L]] (x & w & Ex & Ew & F). destruct (K s x Ex) as (y & Ey & Ly & _). exists y, w. split; [exact Ey|split; [congruence|]]. rewrite L. apply in_app_iff. auto. Qed.
Lemma keeps_set_event t t' s : keeps t t' -> is_set t s = true -> is_set t' s = true.
Proof. intros [K _]. unfold is_set. destruct (nth_error (slots t) s) as [x|] eqn:Ex; [|discriminate]. destruct (K s x Ex) as (y & -> & _ & _ & _ & L). exact L. Qed.
(** the slot has a place in the ring *)
Definition has_pos (t : state) (s : nat) : Prop := exists x, nth_error (slots t) s = Some x /\ ring_pos x <> None.
Lemma keeps_pos t t' s : keeps t t' -> has_pos t s -> has_pos t' s.
Proof. intros [K _] (x & Ex & Hp). destruct (K s x Ex) as (y & Ey & _ & L & _). exists y. auto. Qed.

(** ** The states of runs with single handles *)
Section Reach.
Variables N C n : nat.
Variable checks : bool.
(** [d]: dispatches *)
Definition reach (t : state) (d : nat) : Prop := exists ls, careful N C checks (initial N C n) ls t /\ length (filter dispatches ls) = d.
Lemma reach_inv t d : reach t d -> inv t.
Proof using. intros (ls & H & _). exact (careful_inv _ _ _ _ _ _ H). Qed.
Lemma reach_dq t d : reach t d -> dq_inv N t.
Proof using. intros (ls & H & _). exact (careful_dq _ _ _ _ _ _ H). Qed.
Lemma reach_len t d : reach t d -> length (ring (wq t)) = N.
Proof using.
  intros (ls & H & _). remember (initial N C n) as t0 eqn:E0. induction H as [t|t ls t1 l t2 H IH Tl Ps Ex]; [subst; cbn [initial wq new_queue ring]; apply repeat_length|]. exact (wq_len _ _ _ _ _ _ (IH E0) Ex).
Qed.
Lemma reach_pos t d : 0 < N -> reach t d -> pos_ok N t.
Proof using. intros L (ls & H & _). exact (careful_pos _ _ _ _ _ _ L H). Qed.
Lemma reach_step t d l t' : reach t d -> timed l = false -> is_push l = false -> exec N C checks l t = Some t' -> reach t' (d + if dispatches l then 1 else 0).
Proof using.
  intros (ls & H & E) T P X. exists (ls ++ [l]). split; [|rewrite filter_snoc, E; reflexivity]. econstructor; [exact H|exact T|rewrite P; discriminate|exact X].
Qed.
Lemma reach_quiet t d l t' : reach t d -> timed l = false -> is_push l = false -> dispatches l = false -> exec N C checks l t = Some t' -> reach t' d.
Proof using. intros R T P D X. pose proof (reach_step _ _ _ _ R T P X) as H. rewrite D, Nat.add_0_r in H. exact H. Qed.
Lemma in_use_busy t s x w : nth_error (slots t) s = Some x -> work x = Some w -> in_use t s = Some (x, w).
Proof using. intros Ex Ew. unfold in_use. rewrite Ex. cbv beta iota. rewrite Ew. reflexivity. Qed.
(** a handle that is not in use *)
Lemma reach_failed t d s : reach t d -> fault t = false -> main_at t = M_ready -> in_use t s = None -> reach (failed t) d.
Proof using. intros R F M U. apply (reach_quiet t d (L_wait s)); try reflexivity; [exact R|]. unfold exec. rewrite F, M, U. reflexivity. Qed.
(** the start of a dispatch *)
Lemma reach_try t d s x : reach t d -> fault t = false -> main_at t = M_ready -> busy t s -> nth_error (slots t) s = Some x -> ring_pos x = None -> reach (with_main (M_try s) t) (d + 1).
Proof using.
  intros R F M (x' & w & Ex & Ew) Ex' Er. rewrite Ex' in Ex. injection Ex as <-. apply (reach_step t d (L_dispatch s)); try reflexivity; [exact R|].
  unfold exec. rewrite F, M, (in_use_busy _ _ _ _ Ex' Ew). unfold begin_dispatch. rewrite Er. reflexivity.
Qed.
Lemma main_eta m t : main_at t = m -> with_main m t = t.
Proof using. destruct t. intros <-. reflexivity. Qed.
(** taking a work out of the ring *)
Lemma reach_pop t d s x w t1 : reach t d -> fault t = false -> main_at t = M_ready -> in_use t s = Some (x, w) -> pop_slot s x t = Some (Some (true, t1)) ->
  reach (with_main (M_run s w) t1) d.
Proof using.
  intros R F M U P. pose proof (reach_inv _ _ R) as I. apply in_use_some in U as U'. destruct U' as [Ex Ew].
  assert (Sg : signaled x = false).
  { pose proof (i_slot t I s) as V. unfold slot_inv in V. rewrite Ex, Ew in V. destruct V as [_ V]. unfold pop_slot in P. destruct (ring_pos x) as [p|]; [|discriminate].
    destruct (nth_error (ring (wq t)) p) as [y|] eqn:Ep; [|discriminate]. cbv beta iota in P. destruct y as [s'|]; [|discriminate]. cbv beta iota in P. destruct (Nat.eqb_spec s' s) as [->|]; [|discriminate].
    pose proof (tot_ge (cell s) _ _ _ Ep) as G. cbn [cell] in G. rewrite same_refl in G. destruct (signaled x); [|reflexivity]. exfalso. unfold used, c_new in V. cbn [flag] in V. lia. }
  pose (ta := with_main (M_wait s w true) t). pose (tb := with_main (M_pop s w) t).
  assert (Ra : reach ta d). { apply (reach_quiet t d (L_wait s)); try reflexivity; [exact R|]. unfold exec. rewrite F, M, U. reflexivity. }
  assert (Rb : reach tb d).
  { apply (reach_quiet ta d L_main); try reflexivity; [exact Ra|]. unfold exec, ta. projections. rewrite F. unfold main_step. projections. rewrite Ex. cbv beta iota. rewrite Sg. reflexivity. }
  apply (reach_quiet tb d L_main); try reflexivity; [exact Rb|]. unfold exec, tb. projections. rewrite F. unfold main_step. projections. rewrite Ex. cbv beta iota.
  unfold pop_slot in *. destruct (ring_pos x) as [p|]; [|discriminate]. projections. destruct (nth_error (ring (wq t)) p) as [y|] eqn:Ep; [|discriminate]. cbv beta iota in *.
  destruct (match y with Some s' => Nat.eqb s' s | None => false end); [|discriminate]. injection P as <-. reflexivity.
Qed.
Lemma set_same {A} (l : list A) i x : nth_error l i = Some x -> set l i x = l.
Proof using. revert i. induction l as [|a l IH]; intros [|i] H; try discriminate; cbn [nth_error] in H; [injection H as ->; reflexivity|]. change (set (a :: l) (S i) x) with (a :: set l i x). rewrite IH by exact H. reflexivity. Qed.
(** noting the end of a work *)
Lemma event_ended t d s x w : reach t d -> nth_error (slots t) s = Some x -> work x = Some w -> evt x = true \/ signaled x = true -> In (Finished w) (log t).
Proof using.
  intros R Ex Ew E. pose proof (i_slot t (reach_inv _ _ R) s) as V. unfold slot_inv in V. rewrite Ex, Ew in V. destruct V as [_ V]. apply hF_in. unfold used in V. destruct E as [E|E]; rewrite E in V; cbn [flag] in V; lia.
Qed.
Lemma reach_mark t d s t1 : 0 < N -> reach t d -> fault t = false -> main_at t = M_ready -> is_set t s = true -> mark s t = Some t1 -> reach t1 d.
Proof using.
  intros HN R F M S H. unfold mark in H. destruct (in_use t s) as [[x w]|] eqn:U; [|injection H as <-; exact (reach_failed _ _ _ R F M U)]. injection H as <-.
  apply in_use_some in U as U'. destruct U' as [Ex Ew]. unfold is_set in S. rewrite Ex in S.
  pose (ta := with_main (M_wait s w true) t). assert (Ra : reach ta d). { apply (reach_quiet t d (L_wait s)); try reflexivity; [exact R|]. unfold exec. rewrite F, M, U. reflexivity. }
  destruct (signaled x) eqn:Sg.
  - apply (reach_quiet ta d L_main); try reflexivity; [exact Ra|]. unfold exec, ta. projections. rewrite F. unfold main_step. projections. rewrite Ex. cbv beta iota. rewrite Sg. f_equal.
    assert (E : set_signaled x = x) by (destruct x; cbn in Sg; subst; reflexivity). rewrite E. unfold with_slot. rewrite (set_same _ _ _ Ex). unfold logged. projections. destruct t. cbn in M. subst. reflexivity.
  - pose (tb := with_main (M_pop s w) t). pose (tc := with_main (M_event s w true) t). pose (td := with_main (M_signal s w true) t).
    assert (Rb : reach tb d). { apply (reach_quiet ta d L_main); try reflexivity; [exact Ra|]. unfold exec, ta. projections. rewrite F. unfold main_step. projections. rewrite Ex. cbv beta iota. rewrite Sg. reflexivity. }
    assert (Rc : reach tc d).
    { apply (reach_quiet tb d L_main); try reflexivity; [exact Rb|]. unfold exec, tb. projections. rewrite F. unfold main_step. projections. rewrite Ex. cbv beta iota.
      pose proof (i_slot t (reach_inv _ _ R) s) as V. unfold slot_inv in V. rewrite Ex, Ew, M in V. destruct V as [_ V]. cbn [pushing resetting placed] in V. rewrite S in V. cbn [flag] in V.
      assert (Hp : hp x > 0) by (unfold used in V; lia). assert (Nw : c_new t s = 0) by (unfold used in V; lia). unfold pop_slot. projections. unfold hp in Hp. destruct (ring_pos x) as [p|] eqn:Er; [|lia].
      pose proof (reach_pos _ _ HN R) as [Ps _]. pose proof (Forall_nth_some _ _ _ _ Ps Ex) as Px. unfold pos_slot in Px. rewrite Er in Px.
      destruct (nth_error (ring (wq t)) p) as [y|] eqn:Ep; [|apply nth_error_None in Ep; rewrite (reach_len _ _ R) in Ep; lia]. cbv beta iota.
      destruct y as [s'|]; [|reflexivity]. destruct (Nat.eqb_spec s' s) as [->|]; [|reflexivity]. exfalso. pose proof (tot_ge (cell s) _ _ _ Ep) as G. cbn [cell] in G. rewrite same_refl in G. unfold c_new in Nw. lia. }
    assert (Rd : reach td d). { apply (reach_quiet tc d L_main); try reflexivity; [exact Rc|]. unfold exec, tc. projections. rewrite F. unfold main_step. projections. rewrite Ex. cbv beta iota. rewrite S. reflexivity. }
    apply (reach_quiet td d L_main); try reflexivity; [exact Rd|]. unfold exec, td. projections. rewrite F. unfold main_step. projections. rewrite Ex. cbv beta iota. f_equal. unfold logged. projections. unfold with_slot. destruct t. cbn in M. subst. reflexivity.
Qed.
Lemma reach_main t d t' : reach t d -> fault t = false -> main_step N checks t = Some t' -> reach t' d.
Proof using. intros R F H. apply (reach_quiet t d L_main); try reflexivity; [exact R|]. unfold exec. rewrite F. exact H. Qed.

(** ** Inside of a call of the main thread *)
Definition dispatching (s : nat) (m : main) : Prop :=
  match m with M_try s' | M_block s' | M_claim _ s' | M_store _ s' _ | M_pos _ s' _ | M_post _ s' => s' = s | _ => False end.
Definition executing (s : nat) (m : main) : Prop :=
  match m with M_run s' _ | M_running s' _ _ | M_ran s' _ | M_set s' _ => s' = s | _ => False end.
Lemma dispatching_step t d s t' : reach t d -> dispatching s (main_at t) -> main_step N checks t = Some t' ->
  keeps t t' /\ (dispatching s (main_at t') \/ main_at t' = M_ready /\ has_pos t' s) /\ fault t' = fault t.
Proof using.
  intros R D H. split; [|split].
  - apply (main_keeps N checks); [|exact H]. intros s' w E. rewrite E in D. exact D.
  - pose proof (dq_cas N t) as Cas. pose proof (i_main t (reach_inv _ _ R)) as M. unfold main_inv in M. unfold main_step in H.
    destruct (main_at t) as [|s'|s'|dd s'|dd s' p|dd s' p|dd s'|s' w inf|s' w|s' w inf|s' w ok|s' w|s' w w'|s' w|s' w|s' w|s' w|s' w|s' w|s' w] eqn:Em; cbn [dispatching] in D; try contradiction; subst s'.
    + destruct (write_sem (wq t)); injection H as <-; left; reflexivity.
    + destruct (write_sem (dq t)); [discriminate|]. injection H as <-. left. reflexivity.
    + injection H as <-. left. reflexivity.
    + destruct dd; cbn [the_q with_q] in H.
      * rewrite (Cas s p (reach_dq _ _ R) eq_refl) in H. injection H as <-. left. reflexivity.
      * destruct (nth_error (ring (wq t)) p) as [y|]; [|discriminate]. cbv beta iota in H. destruct y; injection H as <-; left; reflexivity.
    + destruct (nth_error (slots t) s); [|discriminate]. injection H as <-. left. reflexivity.
    + destruct M as (x & w & Ex & Ew & Hp & _). rewrite Ex in H. cbv beta iota in H. rewrite Ew in H. cbv beta iota in H. injection H as <-. right. split; [reflexivity|]. exists x. split; [destruct dd; exact Ex|]. unfold hp in Hp. destruct (ring_pos x); [discriminate|lia].
  - unfold main_step in H. destruct (main_at t) as [|s'|s'|dd s'|dd s' p|dd s' p|dd s'|s' w inf|s' w|s' w inf|s' w ok|s' w|s' w w'|s' w|s' w|s' w|s' w|s' w|s' w|s' w] eqn:Em; cbn [dispatching] in D; try contradiction; try (destruct dd; cbn [the_q with_q] in H);
      repeat match type of H with context [match ?e with _ => _ end] => destruct e eqn:?; cbv beta iota in H; try discriminate H end; injection H as <-; reflexivity.
Qed.
Lemma executing_step t d s t' : reach t d -> executing s (main_at t) -> main_step N checks t = Some t' ->
  keeps t t' /\ (executing s (main_at t') \/ main_at t' = M_ready /\ ended t' s) /\ fault t' = fault t.
Proof using.
  intros R D H. pose proof (i_main t (reach_inv _ _ R)) as M. unfold main_inv in M. pose proof (reach_inv _ _ R) as I. split; [|split].
  - apply (main_keeps N checks); [|exact H]. intros s' w E. rewrite E in D. exact D.
  - unfold main_step in H. destruct (main_at t) as [|s'|s'|dd s'|dd s' p|dd s' p|dd s'|s' w inf|s' w|s' w inf|s' w ok|s' w|s' w w'|s' w|s' w|s' w|s' w|s' w|s' w|s' w] eqn:Em; cbn [executing] in D; try contradiction; subst s'.
    + destruct M as (x & Ex & Ew). rewrite Ex in H. cbv beta iota in H. rewrite Ew in H. injection H as <-. left. reflexivity.
    + injection H as <-. left. reflexivity.
    + destruct (nth_error (slots t) s); [|discriminate]. injection H as <-. left. reflexivity.
    + destruct M as (x & Ex & Ew). rewrite Ex in H. cbv beta iota in H. injection H as <-. right. split; [reflexivity|].
      pose proof (nth_lt _ _ _ Ex) as Lt. pose proof (i_slot t I s) as V. unfold slot_inv in V. rewrite Ex, Ew, Em in V. destruct V as [_ V].
      assert (Lw : c_late t s > 0) by (unfold c_late; rewrite Em; cbn [m_late]; rewrite same_refl; lia).
      assert (Fw : hF (log t) w > 0) by (unfold used in V; lia).
      exists (set_event x), w. projections. split; [apply nth_set_eq; exact Lt|split; [exact Ew|]]. apply in_app_iff. left. apply hF_in. exact Fw.
  - unfold main_step in H. destruct (main_at t) as [|s'|s'|dd s'|dd s' p|dd s' p|dd s'|s' w inf|s' w|s' w inf|s' w ok|s' w|s' w w'|s' w|s' w|s' w|s' w|s' w|s' w|s' w] eqn:Em; cbn [executing] in D; try contradiction.
    + destruct M as (x & Ex & Ew). rewrite Ex in H. cbv beta iota in H. rewrite Ew in H. injection H as <-. reflexivity.
    + injection H as <-. reflexivity.
    + destruct (nth_error (slots t) s'); [|discriminate]. injection H as <-. reflexivity.
    + destruct (nth_error (slots t) s'); [|discriminate]. injection H as <-. reflexivity.
Qed.
End Reach.
