(** Properties of the thread pool of tm_async.h. The schedules are arbitrary interleavings of the calls of the main
    thread, the steps of any number of workers and of the dispatch thread, for any ring and block size. *)
From Coq Require Import Arith Bool ZArith List Lia.
From Verif Require Import Base AsModel AsSpec AsProofs AsSteps AsWorker AsMain AsCalls AsProgress AsRing AsQuiet AsLegal AsHandle.
Import ListNotations.
Close Scope Z_scope.
Open Scope nat_scope.

(** Schedules for the examples *)
Definition push : list label := L_push false :: repeat L_main 5.
Definition steps (k n : nat) : list label := repeat (L_worker k) n.
Definition run (checks : bool) (n : nat) (ls : list label) : option state := execs 256 256 checks ls (initial 256 256 n).

(** ** C140: a wait returns after the work *)
(** Missing: timed waits; work issued while the event of a freed slot may still be set (both refuted below). *)
Theorem C140_wait_after_work_partial : forall N C checks n ls t before w after,
  careful N C checks (initial N C n) ls t -> log t = before ++ Waited w true :: after ->
  In (Started w) before /\ In (Finished w) before.
Proof.
  intros N C checks n ls t b w a H E. pose proof (i_log t (careful_inv _ _ _ _ _ _ H)) as L.
  assert (F : In (Finished w) b) by (apply (L b (Waited w true) a E); reflexivity). split; [|exact F].
  apply in_split in F as (b1 & b2 & ->). rewrite <- app_assoc in E. cbn [app] in E. pose proof (L b1 _ _ E) as G. apply in_app_iff. left. exact (proj1 G).
Qed.
(** Programs that free nothing before the last work was issued meet the condition, whatever the schedule. *)
Theorem C140_wait_before_frees_partial : forall N C checks n ls1 ls2 t before w after,
  forallb (fun l => negb (timed l) && negb (is_free l)) ls1 = true -> forallb (fun l => negb (timed l) && negb (is_push l)) ls2 = true ->
  execs N C checks (ls1 ++ ls2) (initial N C n) = Some t -> log t = before ++ Waited w true :: after ->
  In (Started w) before /\ In (Finished w) before.
Proof. intros N C checks n ls1 ls2 t b w a H1 H2 H. apply (C140_wait_after_work_partial N C checks n (ls1 ++ ls2)). apply phases_careful; assumption. Qed.
Example C140_two_workers :
  exists t, run true 2 (push ++ push ++ steps 0 5 ++ [L_wait 0; L_main; L_main] ++ steps 1 4 ++ steps 0 3 ++ [L_main; L_main; L_wait 1; L_main; L_main] ++ steps 1 4 ++ [L_main; L_main]) = Some t /\
    log t = [Dispatched 0; Dispatched 1; Started 0; Finished 0; Waited 0 true; Started 1; Finished 1; Waited 1 true].
Proof. eexists. apply conj; vm_compute; reflexivity. Qed.
(** A wait whose time is over marks the work as signaled: the next wait succeeds at once (tm_async.h:1119-1121). *)
Theorem C140_timed_wait_refuted : exists ls t, run true 1 ls = Some t /\
  log t = [Dispatched 0; Waited 0 false; Waited 0 true].
Proof. exists (push ++ [L_wait_for 0; L_main; L_timeout; L_main; L_wait_for 0; L_main]). eexists. apply conj; vm_compute; reflexivity. Qed.
(** A worker sets the flag, the work is freed and its slot used again, then the worker sets the event of the new work:
    a wait without limit returns while the work runs (tm_async.h:936-949). *)
Theorem C140_late_event_refuted : exists ls t, forallb (fun l => negb (timed l)) ls = true /\ run true 2 ls = Some t /\
  log t = [Dispatched 0; Started 0; Finished 0; Freed 0; Dispatched 1; Started 1; Waited 1 true] /\ nth_error (workers t) 1 = Some (W_running 0 1).
Proof. exists (push ++ steps 0 7 ++ [L_free 0; L_main; L_main] ++ push ++ steps 0 1 ++ steps 1 5 ++ [L_wait 0; L_main; L_main; L_main; L_main]). eexists. repeat apply conj; vm_compute; reflexivity. Qed.

(** ** C141: once, and never after its release *)
Theorem C141_once_partial : forall N C checks n ls t before e after,
  careful N C checks (initial N C n) ls t -> log t = before ++ e :: after ->
  match e with
  | Started w => ~ In (Started w) before /\ ~ In (Withdrawn w) before /\ ~ In (Freed w) before
  | Finished w => ~ In (Finished w) before /\ ~ In (Freed w) before
  | Freed w => ~ In (Freed w) before /\ (In (Started w) before -> In (Finished w) before)
  | _ => True
  end.
Proof. intros N C checks n ls t b e a H E. pose proof (i_log t (careful_inv _ _ _ _ _ _ H) b e a E) as G. destruct e; cbn [event_ok] in G; tauto. Qed.
(** what runs belongs to a slot still holding that work *)
Theorem C141_running_partial : forall N C checks n ls t k s w,
  careful N C checks (initial N C n) ls t -> nth_error (workers t) k = Some (W_running s w) ->
  (exists x, nth_error (slots t) s = Some x /\ work x = Some w) /\
  forall k' s', nth_error (workers t) k' = Some (W_running s' w) -> k' = k.
Proof.
  intros N C checks n ls t k s w H Hk. pose proof (careful_inv _ _ _ _ _ _ H) as I. destruct (i_running t I k s w Hk) as (x & Ex & Ew). split; [eauto|].
  intros k' s' Hk'. destruct (i_running t I k' s' w Hk') as (x' & Ex' & Ew'). assert (s' = s) by (eapply (i_inj t I); eassumption). subst s'.
  destruct (Nat.eq_dec k' k) as [|Ne]; [assumption|exfalso]. pose proof (i_slot t I s) as V. unfold slot_inv in V. rewrite Ex, Ew in V. destruct V as [_ V].
  assert (G : 2 <= tot (w_in s) (workers t)).
  { clear - Hk Hk' Ne. revert k k' Hk Hk' Ne. induction (workers t) as [|a l IH]; intros k k' Hk Hk' Ne; [destruct k; discriminate|].
    cbn [tot fold_right]. fold (tot (w_in s) l). destruct k as [|k], k' as [|k']; [congruence| | |].
    - cbn [nth_error] in Hk, Hk'. injection Hk as ->. pose proof (tot_ge (w_in s) _ _ _ Hk') as G. cbn [w_in] in *. rewrite same_refl in *. lia.
    - cbn [nth_error] in Hk, Hk'. injection Hk' as ->. pose proof (tot_ge (w_in s) _ _ _ Hk) as G. cbn [w_in] in *. rewrite same_refl in *. lia.
    - specialize (IH k k' Hk Hk'). lia. }
  unfold used, c_in in V. lia.
Qed.
Example C141_withdrawn :
  exists t, run false 1 (push ++ push ++ [L_free 0; L_main; L_main; L_main] ++ steps 0 20) = None /\
    run false 1 (push ++ push ++ [L_free 0; L_main; L_main; L_main] ++ steps 0 12) = Some t /\
    log t = [Dispatched 0; Dispatched 1; Withdrawn 0; Freed 0; Started 1; Finished 1].
Proof. eexists. repeat apply conj; vm_compute; reflexivity. Qed.
(** After a timed wait the place in the ring is left behind by the release: the next work of the slot runs twice. *)
Theorem C141_twice_refuted : exists ls t, run true 2 ls = Some t /\
  log t = [Dispatched 0; Waited 0 false; Freed 0; Dispatched 1; Started 1; Started 1] /\
  nth_error (workers t) 0 = Some (W_running 0 1) /\ nth_error (workers t) 1 = Some (W_running 0 1).
Proof. exists (push ++ [L_wait_for 0; L_main; L_timeout; L_main; L_free 0; L_main; L_main] ++ push ++ steps 0 5 ++ steps 1 5). eexists. repeat apply conj; vm_compute; reflexivity. Qed.
(** With assertions, releasing work nobody took yet stops the program (tm_async.h:1902). *)
Theorem C141_release_refuted : exists ls t, forallb (fun l => negb (timed l)) ls = true /\ run true 1 ls = Some t /\ fault t = true /\ log t = [Dispatched 0; Withdrawn 0].
Proof. exists (push ++ [L_free 0; L_main; L_main; L_main]). eexists. repeat apply conj; vm_compute; reflexivity. Qed.

(** ** C142: no work is lost *)
(** When only a new call could bring about a step, everything dispatched was done or withdrawn. Missing: more dispatches
    than the ring has entries (refuted below). *)
Theorem C142_nothing_lost_partial : forall N C checks n ls t,
  0 < N -> 0 < n -> careful N C checks (initial N C n) ls t -> length (filter dispatches ls) <= N -> fault t = false ->
  (forall l, is_call l = false -> exec N C checks l t = None) ->
  forall w, In (Dispatched w) (log t) -> In (Finished w) (log t) \/ In (Withdrawn w) (log t).
Proof.
  intros N C checks n ls t HN Hn H L Ef Q. destruct (careful_ring _ _ _ _ _ _ H L) as (c & r & R).
  apply (quiet_done N C checks t (length (filter dispatches ls)) c r (careful_inv _ _ _ _ _ _ H) R (careful_pos _ _ _ _ _ _ HN H) Ef); [|exact Q].
  rewrite (careful_len _ _ _ _ _ _ H). exact Hn.
Qed.
Example C142_done :
  exists t, run true 2 (push ++ push ++ push ++ steps 0 5 ++ steps 1 8 ++ steps 1 8 ++ steps 0 3) = Some t /\ fault t = false /\
    (forall l, is_call l = false -> exec 256 256 true l t = None) /\
    log t = [Dispatched 0; Dispatched 1; Dispatched 2; Started 0; Started 1; Finished 1; Started 2; Finished 2; Finished 0].
Proof.
  eexists. split; [vm_compute; reflexivity|]. split; [reflexivity|]. split; [|reflexivity].
  intros l Hl. destruct l as [ | | | | | | |k|]; try discriminate Hl; try reflexivity. destruct k as [|[|[|k]]]; reflexivity.
Qed.
(** One dispatch more than entries in the ring: the dispatch thread ends as soon as the ring has room
    (case WAIT_OBJECT_0 + 3 for the third handle, tm_async.h:1018-1077); the work is never run. *)
Definition rep {A} (n : nat) (l : list A) : list A := concat (repeat l n).
(** nothing but a call is possible *)
Definition only_calls_b (N C : nat) (checks : bool) (t : state) : bool :=
  forallb (fun l => match exec N C checks l t with None => true | Some _ => false end) (L_main :: L_timeout :: L_dispatcher :: map L_worker (seq 0 (length (workers t)))).
Lemma only_calls_b_ok N C checks t : only_calls_b N C checks t = true -> forall l, is_call l = false -> exec N C checks l t = None.
Proof.
  unfold only_calls_b. intros H. rewrite forallb_forall in H.
  assert (G : forall l, In l (L_main :: L_timeout :: L_dispatcher :: map L_worker (seq 0 (length (workers t)))) -> exec N C checks l t = None) by (intros l Hl; specialize (H l Hl); destruct (exec N C checks l t); [discriminate|reflexivity]).
  intros l Hl. destruct l as [ | | | | | | |k|]; try discriminate Hl; try (apply G; cbn [In]; auto; fail).
  destruct (Nat.lt_ge_cases k (length (workers t))) as [L|L]; [apply G; do 3 right; apply in_map_iff; exists k; split; [reflexivity|apply in_seq; lia]|].
  unfold exec. destruct (fault t); [reflexivity|]. unfold worker_step. apply nth_error_None in L. rewrite L. reflexivity.
Qed.
Definition has_dispatched (w : nat) (l : list event) : bool := existsb (fun e => match e with Dispatched v => Nat.eqb v w | _ => false end) l.
Definition has_started (w : nat) (l : list event) : bool := existsb (fun e => match e with Started v => Nat.eqb v w | _ => false end) l.
Lemma has_dispatched_ok w l : has_dispatched w l = true -> In (Dispatched w) l.
Proof. intros E. apply existsb_exists in E as (e & Hin & E). destruct e; try discriminate E. apply Nat.eqb_eq in E. subst. exact Hin. Qed.
Lemma has_started_ok w l : has_started w l = false -> ~ In (Started w) l.
Proof. intros E Hin. rewrite <- not_true_iff_false in E. apply E. apply existsb_exists. exists (Started w). split; [exact Hin|apply Nat.eqb_refl]. Qed.
Definition lost (N C : nat) (w : nat) (t : state) : bool :=
  negb (fault t) && match main_at t with M_ready => true | _ => false end && only_calls_b N C true t && has_dispatched w (log t) && negb (has_started w (log t)).
Lemma lost_ok N C w t : lost N C w t = true -> fault t = false /\ main_at t = M_ready /\ (forall l, is_call l = false -> exec N C true l t = None) /\ In (Dispatched w) (log t) /\ ~ In (Started w) (log t).
Proof.
  unfold lost. rewrite !andb_true_iff. intros [[[[H1 H2] H3] H4] H5]. apply negb_true_iff in H1, H5.
  split; [exact H1|]. split; [destruct (main_at t); try discriminate; reflexivity|]. split; [apply only_calls_b_ok; exact H3|]. split; [apply has_dispatched_ok; exact H4|apply has_started_ok; exact H5].
Qed.
Definition overflow : list label := rep 256 push ++ [L_push false] ++ repeat L_main 6 ++ [L_dispatcher] ++ steps 0 4 ++ [L_dispatcher] ++ steps 0 4 ++ rep 255 (steps 0 8).
Theorem C142_overflow_refuted : exists t, forallb (fun l => negb (timed l) && negb (is_free l)) overflow = true /\ run true 1 overflow = Some t /\
  length (filter dispatches overflow) = 257 /\ fault t = false /\ main_at t = M_ready /\
  (forall l, is_call l = false -> exec 256 256 true l t = None) /\
  In (Dispatched 256) (log t) /\ ~ In (Started 256) (log t).
Proof.
  assert (E : match run true 1 overflow with Some t => lost 256 256 256 t | None => false end = true) by (vm_compute; reflexivity).
  destruct (run true 1 overflow) as [t|]; [|discriminate]. exists t. split; [vm_compute; reflexivity|]. split; [reflexivity|]. split; [vm_compute; reflexivity|]. apply lost_ok. exact E.
Qed.

(** ** C143: calls return *)
(** After any history the steps without a new call are bounded in number, under every schedule. *)
Theorem C143_bounded : forall N C checks t, exists bound, forall ls t',
  forallb (fun l => negb (is_call l)) ls = true -> execs N C checks ls t = Some t' -> length ls <= bound.
Proof. intros N C checks t. exists (weight t). intros ls t' Hl H. pose proof (steps_weight N C checks ls t t' Hl H). lia. Qed.
(** When they are over, the call of the main thread has returned. Missing: more dispatches than entries of the ring,
    timed waits, stale events. *)
Theorem C143_calls_return_partial : forall N C checks n ls t,
  0 < N -> 0 < n -> careful N C checks (initial N C n) ls t -> length (filter dispatches ls) <= N -> fault t = false ->
  (forall l, is_call l = false -> exec N C checks l t = None) -> main_at t = M_ready.
Proof.
  intros N C checks n ls t HN Hn H L Ef Q. destruct (careful_ring _ _ _ _ _ _ H L) as (c & r & R).
  apply (quiet_ready N C checks t (length (filter dispatches ls)) c r (careful_inv _ _ _ _ _ _ H) R (careful_pos _ _ _ _ _ _ HN H) Ef); [|exact Q].
  rewrite (careful_len _ _ _ _ _ _ H). exact Hn.
Qed.
Definition has_step (N C : nat) (checks : bool) (t : state) (l : label) : bool := match exec N C checks l t with Some _ => true | None => false end.
Lemma step_or_quiet N C checks t : (exists l, is_call l = false /\ exec N C checks l t <> None) \/ only_calls N C checks t.
Proof.
  destruct (only_calls_b N C checks t) eqn:E; [right; exact (only_calls_b_ok N C checks t E)|left]. unfold only_calls_b in E.
  assert (G : existsb (has_step N C checks t) (L_main :: L_timeout :: L_dispatcher :: map L_worker (seq 0 (length (workers t)))) = true).
  { revert E. generalize (L_main :: L_timeout :: L_dispatcher :: map L_worker (seq 0 (length (workers t)))). intros l. induction l as [|a l IH]; cbn [forallb existsb]; [discriminate|].
    unfold has_step at 1. destruct (exec N C checks a t); [reflexivity|]. exact IH. }
  apply existsb_exists in G as (l & Hin & G). exists l. split; [|unfold has_step in G; destruct (exec N C checks l t); [discriminate|discriminate]].
  destruct Hin as [<-|[<-|[<-|Hin]]]; try reflexivity. apply in_map_iff in Hin as (k & <- & _). reflexivity.
Qed.
Lemma timeout_not_careful N C checks t : inv t -> exec N C checks L_timeout t = None.
Proof.
  intros I. unfold exec. destruct (fault t); [reflexivity|]. pose proof (i_main t I) as M. unfold main_inv in M. destruct (main_at t); try reflexivity. destruct M as [-> _]. reflexivity.
Qed.
(** Together: from every such history some steps without a call lead to a state where the call has returned and all
    dispatched work is done or withdrawn, provided no assertion fails on the way. *)
Theorem C143_completes_partial : forall N C checks n ls t,
  0 < N -> 0 < n -> careful N C checks (initial N C n) ls t -> length (filter dispatches ls) <= N ->
  exists ls' t', forallb (fun l => negb (is_call l)) ls' = true /\ careful N C checks (initial N C n) (ls ++ ls') t' /\
    (fault t' = false -> main_at t' = M_ready /\ forall w, In (Dispatched w) (log t') -> In (Finished w) (log t') \/ In (Withdrawn w) (log t')).
Proof.
  intros N C checks n ls t HN Hn H L. remember (weight t) as b eqn:Eb. revert ls t H L Eb. induction b as [b IH] using lt_wf_ind. intros ls t H L Eb.
  destruct (step_or_quiet N C checks t) as [(l & Hl & He)|Q].
  - destruct (exec N C checks l t) as [t1|] eqn:E; [|congruence]. clear He. pose proof (step_weight N C checks l t t1 Hl E) as Hw.
    assert (Tl : timed l = false). { destruct l; try reflexivity; try discriminate Hl. rewrite (timeout_not_careful _ _ _ _ (careful_inv _ _ _ _ _ _ H)) in E. discriminate. }
    assert (H1 : careful N C checks (initial N C n) (ls ++ [l]) t1) by (econstructor; [exact H|exact Tl|intros P; destruct l; discriminate|exact E]).
    assert (L1 : length (filter dispatches (ls ++ [l])) <= N). { rewrite filter_app, app_length. destruct l; try discriminate Hl; cbn [filter dispatches length]; lia. }
    destruct (IH (weight t1) ltac:(lia) (ls ++ [l]) t1 H1 L1 eq_refl) as (ls' & t' & A1 & A2 & A3).
    exists (l :: ls'), t'. split; [cbn [forallb]; rewrite Hl; exact A1|]. split; [rewrite <- app_assoc in A2; exact A2|exact A3].
  - exists [], t. split; [reflexivity|]. split; [rewrite app_nil_r; exact H|]. intros Ef. split.
    + apply (C143_calls_return_partial N C checks n ls t); assumption.
    + apply (C142_nothing_lost_partial N C checks n ls t); assumption.
Qed.
(** Programs that use only handles in use and wait only for dispatched work meet no failure when assertions are off. *)
Theorem C143_no_failure_partial : forall N C n ls t,
  proper N C false (initial N C n) ls t -> length (filter dispatches ls) <= N -> fault t = false.
Proof. exact proper_no_fault. Qed.
Example C143_wait_runs_it :
  exists t, run true 1 (push ++ push ++ [L_wait 1] ++ repeat L_main 6 ++ steps 0 8) = Some t /\ main_at t = M_ready /\ fault t = false /\
    log t = [Dispatched 0; Dispatched 1; Started 1; Finished 1; Waited 1 true; Started 0; Finished 0].
Proof. eexists. split; [vm_compute; reflexivity|]. repeat apply conj; reflexivity. Qed.
Example C143_proper : exists ls t, proper 4 4 false (initial 4 4 1) ls t /\ log t = [Dispatched 0; Started 0; Finished 0; Waited 0 true; Freed 0].
Proof.
  exists (((((push ++ [L_wait 0]) ++ repeat L_main 6) ++ [L_free 0]) ++ repeat L_main 2)).
  assert (S : forall t0 ls0 ls1 t1 t2, proper 4 4 false t0 ls0 t1 -> forallb (fun l => match l with L_main | L_worker _ => true | _ => false end) ls1 = true -> execs 4 4 false ls1 t1 = Some t2 -> proper 4 4 false t0 (ls0 ++ ls1) t2).
  { intros t0 ls0 ls1. revert ls0. induction ls1 as [|l ls1 IH]; intros ls0 t1 t2 P F E; cbn [execs] in E; [injection E as <-; rewrite app_nil_r; exact P|].
    destruct (exec 4 4 false l t1) as [t3|] eqn:E3; [|discriminate]. cbn [forallb] in F. apply andb_true_iff in F as [F1 F2].
    change (l :: ls1) with ([l] ++ ls1). rewrite app_assoc. apply (IH _ t3 t2); [|exact F2|exact E].
    econstructor; [exact P| | | |exact E3]; destruct l; try discriminate F1; try reflexivity; try discriminate; exact I. }
  set (t0 := initial 4 4 1).
  eassert (E1 : exec 4 4 false (L_push false) t0 = Some _) by (vm_compute; reflexivity).
  assert (P1 := proper_snoc 4 4 false t0 [] t0 (L_push false) _ (proper_nil _ _ _ t0) eq_refl ltac:(intros _ (s & x & Ex & _ & [He|(k & w & Hk)]); [apply nth_error_In, repeat_spec in Ex; subst x; discriminate|apply nth_error_In, repeat_spec in Hk; discriminate]) I E1).
  match type of P1 with proper _ _ _ _ _ ?t => eassert (E2 : execs 4 4 false (repeat L_main 5) t = Some _) by (vm_compute; reflexivity) end.
  assert (P2 := S _ _ (repeat L_main 5) _ _ P1 eq_refl E2).
  match type of P2 with proper _ _ _ _ _ ?t => eassert (E3 : exec 4 4 false (L_wait 0) t = Some _) by (vm_compute; reflexivity) end.
  assert (P3 := proper_snoc _ _ _ _ _ _ (L_wait 0) _ P2 eq_refl ltac:(discriminate) ltac:(exists (Slot (Some 0) (Some 0) false false), 0; split; [reflexivity|split; [reflexivity|left; reflexivity]]) E3).
  match type of P3 with proper _ _ _ _ _ ?t => eassert (E4 : execs 4 4 false (repeat L_main 6) t = Some _) by (vm_compute; reflexivity) end.
  assert (P4 := S _ _ (repeat L_main 6) _ _ P3 eq_refl E4).
  match type of P4 with proper _ _ _ _ _ ?t => eassert (E5 : exec 4 4 false (L_free 0) t = Some _) by (vm_compute; reflexivity) end.
  assert (P5 := proper_snoc _ _ _ _ _ _ (L_free 0) _ P4 eq_refl ltac:(discriminate) ltac:(exists (Slot (Some 0) (Some 0) true true), 0; split; reflexivity) E5).
  match type of P5 with proper _ _ _ _ _ ?t => eassert (E6 : execs 4 4 false (repeat L_main 2) t = Some _) by (vm_compute; reflexivity) end.
  assert (P6 := S _ _ (repeat L_main 2) _ _ P5 eq_refl E6).
  eexists. split; [exact P6|reflexivity].
Qed.
(** A wait without limit for work that was deferred and not dispatched reads before the start of the ring
    (tm_async.h:1112-1114 and 880-884). *)
Theorem C143_deferred_wait_refuted : exists ls t, forallb (fun l => negb (timed l)) ls = true /\ run true 1 ls = Some t /\ fault t = true.
Proof. exists [L_push true; L_wait 0; L_main; L_main]. eexists. repeat apply conj; vm_compute; reflexivity. Qed.

(** ** C144: slots *)
Theorem C144_slot_not_in_use_partial : forall N C checks n ls t deferred t' s w,
  careful N C checks (initial N C n) ls t -> ~ stale t -> exec N C checks (L_push deferred) t = Some t' ->
  (exists x', nth_error (slots t') s = Some x' /\ work x' = Some w) ->
  (exists x, nth_error (slots t) s = Some x /\ work x = Some w) \/ w = next_work t /\ ~ exists x v, nth_error (slots t) s = Some x /\ work x = Some v.
Proof.
  intros N C checks n ls t deferred t' s w H St He (x' & Ex' & Ew'). pose proof (careful_inv _ _ _ _ _ _ H) as I. unfold exec in He.
  destruct (fault t) eqn:Ef; [discriminate|]. destruct (main_at t) eqn:Em; try discriminate.
  destruct (allocate C t) as [[s0 t0]|] eqn:Ea; [|discriminate]. cbv beta iota in He.
  assert (Es : slots t' = slots t0) by (destruct deferred; injection He as <-; reflexivity). rewrite Es in Ex'. clear He Es.
  destruct (allocate_keeps C t s0 t0 I Em St Ea) as (I0 & _ & E0 & Nu & _).
  destruct (Nat.eq_dec s s0) as [->|Ne]; [right; split; [rewrite E0 in Ex'; injection Ex' as <-; cbn [work] in Ew'; congruence|exact Nu]|left].
  assert (Hs : nth_error (slots t) s = Some x' \/ work x' = None); [|destruct Hs as [Hs|Hs]; [eauto|congruence]].
  clear - Ea Ne Ex'. rewrite allocate_eq in Ea. unfold alloc_in in Ea.
  set (t1 := match first_block 0 (counts t) with Some _ => t | None => extended C t end) in *.
  assert (H1 : nth_error (slots t1) s = Some x' -> nth_error (slots t) s = Some x' \/ work x' = None).
  { unfold t1. destruct (first_block 0 (counts t)); [auto|]. cbn [extended slots]. intros E. destruct (Nat.lt_ge_cases s (length (slots t))) as [L|L].
    - rewrite nth_error_app1 in E by exact L. auto.
    - rewrite nth_error_app2 in E by exact L. apply nth_error_In, repeat_spec in E. subst x'. auto. }
  clearbody t1. apply H1. destruct (first_block 0 (counts t1)) as [i|]; [|discriminate]. cbv beta iota in Ea.
  destruct (first_true (i * C) (firstn C (skipn (i * C) (avail t1)))) as [s'|]; [|discriminate]. cbv beta iota in Ea.
  destruct (nth_error (slots t1) s') as [x|] eqn:Ex; [|discriminate]. cbv beta iota in Ea. destruct (nth_error (counts t1) i) as [c|]; [|discriminate]. injection Ea as <- <-.
  cbn [taken slots] in Ex'. rewrite nth_set_ne in Ex'; [exact Ex'|exact (nth_lt _ _ _ Ex)|exact Ne].
Qed.
Example C144_two_handles : exists t, run true 1 (push ++ push ++ [L_push true]) = Some t /\
  map work (firstn 4 (slots t)) = [Some 0; Some 1; Some 2; None].
Proof. eexists. apply conj; vm_compute; reflexivity. Qed.
(** The count of a block is not raised when a slot becomes free (tm_async.h:1910): after 256 pieces of work, each freed
    before the next, a new block is allocated although every slot of the first is free. *)
Definition push_free : list label := [L_push true; L_free 0; L_main; L_main].
Theorem C144_reuse_refuted : exists t t', run true 1 (rep 256 push_free) = Some t /\ run true 1 (rep 256 push_free ++ [L_push true]) = Some t' /\
  length (slots t) = 256 /\ forallb (fun b => b) (avail t) = true /\ forallb (fun x => match work x with None => true | Some _ => false end) (slots t) = true /\ length (slots t') = 512.
Proof.
  assert (E : match run true 1 (rep 256 push_free), run true 1 (rep 256 push_free ++ [L_push true]) with
    | Some t, Some t' => Nat.eqb (length (slots t)) 256 && forallb (fun b => b) (avail t) && forallb (fun x => match work x with None => true | Some _ => false end) (slots t) && Nat.eqb (length (slots t')) 512
    | _, _ => false end = true) by (vm_compute; reflexivity).
  destruct (run true 1 (rep 256 push_free)) as [t|]; [|discriminate]. destruct (run true 1 (rep 256 push_free ++ [L_push true])) as [t'|]; [|discriminate].
  rewrite !andb_true_iff in E. destruct E as [[[E1 E2] E3] E4]. exists t, t'. repeat apply conj; try reflexivity; try assumption; apply Nat.eqb_eq; assumption.
Qed.

(** ** C145: handles and error codes *)
Open Scope Z_scope.
Theorem C145_error_code : forall ec, 0 < ec <= 2147483647 -> exists h, handle_of_error ec = Some h /\ handle_valid h = false /\ error_of_handle h = Some ec.
Proof.
  intros ec H. exists (1 - ec). unfold handle_of_error. rewrite int32_ok by lia. cbv beta iota. rewrite int32_ok by lia. split; [f_equal; lia|]. unfold handle_valid, error_of_handle.
  destruct (Z.ltb_spec 0 (1 - ec)); [lia|]. split; [reflexivity|]. destruct (Z.leb_spec (1 - ec) 0); [|lia]. rewrite int32_ok by lia. cbv beta iota. rewrite int32_ok by lia. f_equal. lia.
Qed.
Theorem C145_index : forall i, 0 <= i < 2147483647 -> exists h, handle_of_index i = Some h /\ handle_valid h = true /\ error_of_handle h = Some 0 /\ index_of_handle h = Some i.
Proof.
  intros i H. exists (i + 1). unfold handle_of_index, index_of_handle, handle_valid, error_of_handle. rewrite !int32_ok by lia.
  destruct (Z.ltb_spec 0 (i + 1)); [|lia]. destruct (Z.leb_spec (i + 1) 0); [lia|]. repeat apply conj; try reflexivity. f_equal. lia.
Qed.
Theorem C145_distinct : forall a b ha hb, handle_of_index a = Some ha -> handle_of_index b = Some hb -> ha = hb -> a = b.
Proof. unfold handle_of_index, int32. intros a b ha hb. destruct ((_ <=? a + 1) && _); [|discriminate]. destruct ((_ <=? b + 1) && _); [|discriminate]. intros E1 E2 E. assert (a + 1 = ha) by congruence. assert (b + 1 = hb) by congruence. lia. Qed.
Example C145_enomem : exists h, handle_of_error 12 = Some h /\ h = -11 /\ error_of_handle h = Some 12. Proof. exists (-11). repeat apply conj; reflexivity. Qed.
(** an empty handle carries EPERM *)
Example C145_empty : error_of_handle 0 = Some 1 /\ handle_valid 0 = false. Proof. split; reflexivity. Qed.

Print Assumptions C140_wait_after_work_partial.
Print Assumptions C140_wait_before_frees_partial.
Print Assumptions C140_timed_wait_refuted.
Print Assumptions C140_late_event_refuted.
Print Assumptions C141_once_partial.
Print Assumptions C141_running_partial.
Print Assumptions C141_twice_refuted.
Print Assumptions C141_release_refuted.
Print Assumptions C142_nothing_lost_partial.
Print Assumptions C142_overflow_refuted.
Print Assumptions C143_bounded.
Print Assumptions C143_calls_return_partial.
Print Assumptions C143_completes_partial.
Print Assumptions C143_no_failure_partial.
Print Assumptions C143_deferred_wait_refuted.
Print Assumptions C144_slot_not_in_use_partial.
Print Assumptions C144_reuse_refuted.
Print Assumptions C145_error_code.
Print Assumptions C145_index.
Print Assumptions C145_distinct.
