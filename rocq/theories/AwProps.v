(** Properties of waiting on several handles (tm_async.h). The schedules are arbitrary interleavings of the calls of the
    main thread, including waits on any number of handles, the steps of any number of workers and of the dispatch
    thread, for any ring and block size and any number of objects the system can wait for. *)
From Coq Require Import Arith Bool List Lia.
From Verif Require Import Base AsModel AsSpec AsProofs AsSteps AsWorker AsMain AsCalls AsProgress AsRing AsQuiet AsLegal AsHandle AwModel AwSpec AwQueue AwReach AwAll AwMulti AwSys AwDist AwLive AwRuns.
Import ListNotations.

(** Careful runs by computation, for the examples *)
Definition stale_b (t : state) : bool :=
  existsb (fun s => match nth_error (slots t) s, nth_error (avail t) s with Some x, Some true => evt x || existsb (fun w => match w with W_set s' _ => Nat.eqb s' s | _ => false end) (workers t) | _, _ => false end) (seq 0 (length (slots t))).
Lemma stale_b_ok t : stale_b t = false -> ~ stale t.
Proof.
  intros H (s & x & Ex & Ea & E). rewrite <- not_true_iff_false in H. apply H. apply existsb_exists. exists s. split; [apply in_seq; assert (s < length (slots t)) by (apply nth_error_Some; congruence); lia|].
  rewrite Ex, Ea. destruct E as [->|(k & w & Ek)]; [reflexivity|]. apply orb_true_iff. right. apply existsb_exists. exists (W_set s w). split; [exact (nth_error_In _ _ Ek)|apply Nat.eqb_refl].
Qed.
Definition allowed_b (K : nat) (checks : bool) (t : state) (l : xlabel) : bool :=
  match l with
  | X l => negb (timed l) && negb (is_push l && stale_b t)
  | X_all _ | X_go _ _ => true
  | X_multi hs all m => if all then negb checks && match m with Poll => Nat.eqb (length hs) K | Timed => true | Forever => false end else match m with Forever => Nat.leb (length hs) K | _ => true end
  end.
Lemma allowed_b_ok K checks t l : allowed_b K checks t l = true -> allowed K checks t l.
Proof.
  destruct l as [l|hs|hs all m|over sel]; cbn [allowed_b allowed]; try (intros _; exact I).
  - rewrite andb_true_iff, !negb_true_iff. intros [-> H]. split; [reflexivity|]. intros E. rewrite E in H. exact (stale_b_ok _ H).
  - unfold fine_call. destruct all.
    + rewrite andb_true_iff, negb_true_iff. intros [-> H]. split; [reflexivity|]. destruct m; [apply Nat.eqb_eq; exact H|exact I|discriminate].
    + destruct m; try (intros _; exact I). apply Nat.leb_le.
Qed.
Fixpoint xrun_b (N C : nat) (checks : bool) (K : nat) (ls : list xlabel) (c : call) (t : state) : option (call * state) :=
  match ls with
  | [] => Some (c, t)
  | l :: ls => if allowed_b K checks t l then match xexec N C checks K l c t with Some (c, t) => xrun_b N C checks K ls c t | None => None end else None
  end.
Lemma xrun_b_ok N C checks K ls : forall c0 t0 ls0 c t c' t', xcareful N C checks K c0 t0 ls0 c t -> xrun_b N C checks K ls c t = Some (c', t') -> xcareful N C checks K c0 t0 (ls0 ++ ls) c' t'.
Proof.
  induction ls as [|l ls IH]; intros c0 t0 ls0 c t c' t' H E; cbn [xrun_b] in E.
  - injection E as <- <-. rewrite app_nil_r. exact H.
  - destruct (allowed_b K checks t l) eqn:Al; [|discriminate]. destruct (xexec N C checks K l c t) as [[c1 t1]|] eqn:X; [|discriminate].
    replace (ls0 ++ l :: ls) with ((ls0 ++ [l]) ++ ls) by (rewrite <- app_assoc; reflexivity). apply (IH c0 t0 (ls0 ++ [l]) c1 t1); [|exact E]. econstructor; eauto. exact (allowed_b_ok _ _ _ _ Al).
Qed.
Definition push : list xlabel := X (L_push false) :: repeat (X L_main) 5.
Definition steps (k n : nat) : list xlabel := repeat (X (L_worker k)) n.
Definition go (n : nat) : list xlabel := repeat (X_go false 0) n.
Definition rep {A} (n : nat) (l : list A) : list A := concat (repeat l n).
(** the sizes of the program, any number of threads *)
Definition xrun (checks : bool) (n : nat) (ls : list xlabel) : option (call * state) := xexecs 256 256 checks 64 ls (NoCall []) (initial 256 256 n).
(** small sizes *)
Definition small (checks : bool) (n : nat) (ls : list xlabel) : option (call * state) := xrun_b 4 4 checks 2 ls (NoCall []) (initial 4 4 n).
Lemma small_ok checks n ls c t : small checks n ls = Some (c, t) -> xcareful 4 4 checks 2 (NoCall []) (initial 4 4 n) ls c t.
Proof. intros H. apply (xrun_b_ok 4 4 checks 2 ls (NoCall []) (initial 4 4 n) [] (NoCall []) (initial 4 4 n)); [constructor|exact H]. Qed.

(** ** C175: waiting for all *)
(** When tma_wait_all returns TM_OK, the work of every valid handle has ended. Missing, as for C140: programs with timed
    waits on one handle, work issued while the event of a freed slot may still be set. *)
Theorem C175_all_ended_partial : forall N C checks n K ls hs a t over sel a' t',
  0 < N -> 0 < K -> xcareful N C checks K (NoCall []) (initial N C n) ls (All hs a) t ->
  xexec N C checks K (X_go over sel) (All hs a) t = Some (All hs a', t') -> apc_of a' = P_return true -> fault t' = false ->
  forall s, In (Some s) hs -> ended t' s.
Proof.
  intros N C checks n K ls hs a t over sel a' t' HN HK H St Ep F. destruct (go_inv N C n K checks HN HK _ _ _ _ _ _ _ H St) as [X|[_ X]]; [congruence|]. rewrite Ep in X. exact (X eq_refl).
Qed.
(** Whatever waits a program uses, each piece of work is done at most once, no wait reports an end that did not come, and
    work is freed only when it has ended or was withdrawn. *)
Theorem C175_history_partial : forall N C checks n K ls c t,
  0 < N -> 0 < K -> xcareful N C checks K (NoCall []) (initial N C n) ls c t -> history_ok (log t).
Proof. intros N C checks n K ls c t HN HK H. destruct (xcareful_inv N C n K checks HN HK _ _ _ H) as [[d R] _]. exact (i_log t (reach_inv _ _ _ _ _ _ R)). Qed.
(** A worker does one of three, the main thread does the two others, of which one was deferred; one handle is invalid. *)
Definition story : list xlabel := push ++ push ++ X (L_push true) :: steps 0 5 ++ [X_all [Some 2; None; Some 0; Some 1]].
Example C175_story : exists a t a' t',
  small true 1 (story ++ go 49 ++ steps 0 3 ++ go 12) = Some (All [Some 2; None; Some 0; Some 1] a, t) /\
  xexec 4 4 true 2 (X_go false 0) (All [Some 2; None; Some 0; Some 1] a) t = Some (All [Some 2; None; Some 0; Some 1] a', t') /\ apc_of a' = P_return true /\ fault t' = false /\
  log t' = [Dispatched 0; Dispatched 1; Started 0; Dispatched 2; Started 2; Finished 2; Waited 2 true; Started 1; Finished 1; Waited 1 true; Finished 0; Waited 0 true].
Proof. do 4 eexists. split; [vm_compute; reflexivity|]. split; [vm_compute; reflexivity|]. repeat apply conj; reflexivity. Qed.

(** ** C176: the wait for all returns *)
(** From the middle of any call the main thread and the threads of the pool can only make finitely many steps. *)
Theorem C176_bounded_partial : forall N C checks n K ls hs a t,
  0 < N -> 0 < K -> xcareful N C checks K (NoCall []) (initial N C n) ls (All hs a) t -> over_call (All hs a) = false ->
  exists bound, forall ls' c' t', forallb in_call ls' = true -> xexecs N C checks K ls' (All hs a) t = Some (c', t') -> length ls' <= bound.
Proof.
  intros N C checks n K ls hs a t HN HK H Oc. destruct (xcareful_inv N C n K checks HN HK _ _ _ H) as [R Iv]. destruct (xcareful_live N C n K checks HN HK _ _ _ H hs a eq_refl) as [X|(t0 & G)]; [congruence|].
  exists (measure K hs t0 a t). intros ls' c' t' Cl E. apply (call_bound N C n K checks HN HK hs ls' a t t0 c' t' Cl); [|exact G|exact E]. split; [exact R|]. destruct Iv as [X|[X|X]]; [auto|congruence|auto].
Qed.
(** When they are over, the call has returned TM_OK and all the work has ended; nothing has failed on the way. The
    handles are in use and differ. Missing: more dispatches than entries of the ring, and what is missing in C175. *)
Theorem C176_returns_partial : forall N C checks n K ls hs a t ls' c' t',
  0 < N -> 0 < K -> 0 < n -> xcareful N C checks K (NoCall []) (initial N C n) ls (All hs a) t -> over_call (All hs a) = false -> fault t = false ->
  unique hs -> (forall s, In (Some s) hs -> busy t s) ->
  forallb in_call ls' = true -> xexecs N C checks K ls' (All hs a) t = Some (c', t') -> dispatched_count (log t') < N ->
  fault t' = false /\
  ((forall l, in_call l = true -> xexec N C checks K l c' t' = None) -> exists a', c' = All hs a' /\ apc_of a' = P_return true /\ forall s, In (Some s) hs -> ended t' s).
Proof.
  intros N C checks n K ls hs a t ls' c' t' HN HK Hn H Oc F U Bu Cl E L. destruct (xcareful_inv N C n K checks HN HK _ _ _ H) as [R Iv]. apply (call_returns N C n K checks HN HK hs a t ls' c' t' Hn U); auto. constructor; auto.
  - destruct Iv as [X|[X|X]]; [congruence|congruence|exact X].
  - exact (xcareful_dist N C n K checks _ _ _ H hs a eq_refl U).
Qed.
Example C176_story : exists a t a' t',
  small true 1 story = Some (All [Some 2; None; Some 0; Some 1] a, t) /\ over_call (All [Some 2; None; Some 0; Some 1] a) = false /\ fault t = false /\
  map work (slots t) = [Some 0; Some 1; Some 2; None] /\
  xexecs 4 4 true 2 (go 49 ++ steps 0 3 ++ go 13 ++ steps 0 8) (All [Some 2; None; Some 0; Some 1] a) t = Some (All [Some 2; None; Some 0; Some 1] a', t') /\ dispatched_count (log t') = 3 /\
  apc_of a' = P_return true /\ worker_step 4 0 t' = None /\ dispatcher_step 4 t' = None /\ unique [Some 2; None; Some 0; Some 1].
Proof.
  do 4 eexists. split; [vm_compute; reflexivity|]. split; [reflexivity|]. split; [reflexivity|]. split; [reflexivity|]. split; [vm_compute; reflexivity|]. split; [reflexivity|]. split; [reflexivity|]. split; [reflexivity|]. split; [reflexivity|].
  intros i j s Hi Hj. destruct i as [|[|[|[|i]]]]; destruct j as [|[|[|[|j]]]]; cbn [nth_error] in Hi, Hj; try congruence; try (destruct i; discriminate Hi); try (destruct j; discriminate Hj); reflexivity.
Qed.
(** A handle given twice: the wait fails although nothing has ended (WaitForMultipleObjects, tm_async.h:1341-1349). *)
Theorem C176_twice_refuted : exists ls hs a t, xrun true 1 ls = Some (All hs a, t) /\ (forall s, In (Some s) hs -> busy t s) /\
  apc_of a = P_return false /\ fault t = false /\ log t = [Dispatched 0].
Proof.
  exists (push ++ steps 0 4 ++ X_all [Some 0; Some 0] :: go 11). do 3 eexists. split; [vm_compute; reflexivity|]. split; [|repeat apply conj; reflexivity].
  intros s [E|[E|[]]]; injection E as <-; (eexists; eexists; split; [reflexivity|reflexivity]).
Qed.

(** ** C177: waiting for any, and with a limit of time *)
(** When such a call returns TM_OK, the work of the handle it names has ended; if it waits for all, the work of every
    valid handle. Missing: see [fine_call] (the rest is refuted below), and what is missing in C175. *)
Theorem C177_found_ended_partial : forall N C checks n K ls p hs all m w t over sel i t',
  0 < N -> 0 < K -> xcareful N C checks K (NoCall []) (initial N C n) ls (Multi p hs all m w) t ->
  xexec N C checks K (X_go over sel) (Multi p hs all m w) t = Some (Multi p hs all m (W_return (Found i)), t') -> fault t' = false ->
  if all then forall s, In (Some s) hs -> ended t' s else exists s, nth_error hs i = Some (Some s) /\ ended t' s.
Proof.
  intros N C checks n K ls p hs all m w t over sel i t' HN HK H St F. destruct (go_inv N C n K checks HN HK _ _ _ _ _ _ _ H St) as [X|[_ X]]; [congruence|exact X].
Qed.
Example C177_any : exists p w t t', small true 1 (push ++ push ++ X_multi [Some 1; Some 0] false Forever :: go 5 ++ steps 0 8 ++ go 2) = Some (Multi p [Some 1; Some 0] false Forever w, t) /\
  xexec 4 4 true 2 (X_go false 0) (Multi p [Some 1; Some 0] false Forever w) t = Some (Multi p [Some 1; Some 0] false Forever (W_return (Found 1)), t') /\ fault t' = false /\
  log t' = [Dispatched 0; Dispatched 1; Started 0; Finished 0; Waited 0 true].
Proof. do 4 eexists. split; [vm_compute; reflexivity|]. split; [vm_compute; reflexivity|]. repeat apply conj; reflexivity. Qed.
Example C177_all_for : exists p w t t', small false 1 (push ++ push ++ X_multi [Some 1; Some 0] true Timed :: go 5 ++ steps 0 16 ++ go 4) = Some (Multi p [Some 1; Some 0] true Timed w, t) /\
  xexec 4 4 false 2 (X_go false 0) (Multi p [Some 1; Some 0] true Timed w) t = Some (Multi p [Some 1; Some 0] true Timed (W_return (Found 0)), t') /\ fault t' = false /\
  log t' = [Dispatched 0; Dispatched 1; Started 0; Finished 0; Started 1; Finished 1; Waited 1 true; Waited 0 true].
Proof. do 4 eexists. split; [vm_compute; reflexivity|]. split; [vm_compute; reflexivity|]. repeat apply conj; reflexivity. Qed.
Example C177_any_poll : exists p w t t', small false 2 (push ++ push ++ X (L_push true) :: X_multi [Some 2; None; Some 0; Some 1] false Poll :: go 10 ++ steps 0 8 ++ go 3) = Some (Multi p [Some 2; None; Some 0; Some 1] false Poll w, t) /\
  xexec 4 4 false 2 (X_go false 0) (Multi p [Some 2; None; Some 0; Some 1] false Poll w) t = Some (Multi p [Some 2; None; Some 0; Some 1] false Poll (W_return (Found 2)), t') /\ fault t' = false.
Proof. do 4 eexists. split; [vm_compute; reflexivity|]. split; [vm_compute; reflexivity|]. reflexivity. Qed.
(** Polling for all of fewer than 64 handles reads beyond the end of the handles (tm_async.h:1416). *)
Theorem C177_poll_all_reads_refuted : exists t p w, xrun true 1 (push ++ X_multi [Some 0] true Poll :: go 3) = Some (Multi p [Some 0] true Poll w, t) /\ fault t = true.
Proof. do 3 eexists. split; [vm_compute; reflexivity|reflexivity]. Qed.
(** Polling for all of 128 handles: TM_OK although none of the first 64 has begun (tm_async.h:1158-1162, 1416-1431). *)
Definition hs128 : list handle := map Some (seq 64 64 ++ [63] ++ seq 0 63).
Definition begun (l : list event) (w : nat) : bool := existsb (fun e => match e with Started v => Nat.eqb v w | _ => false end) l.
Lemma not_begun l : forallb (fun w => negb (begun l w)) (seq 64 64) = true -> forall w, 64 <= w < 128 -> ~ In (Started w) l.
Proof.
  intros E w L I. rewrite forallb_forall in E. specialize (E w ltac:(apply in_seq; lia)). rewrite negb_true_iff, <- not_true_iff_false in E. apply E. apply existsb_exists. exists (Started w). split; [exact I|apply Nat.eqb_refl].
Qed.
Theorem C177_poll_all_refuted : exists t p hs i, xrun true 1 (rep 128 push ++ rep 63 (steps 0 8) ++ X_multi hs128 true Poll :: go 131 ++ steps 0 8 ++ go 66) = Some (Multi p hs true Poll (W_return (Found i)), t) /\
  fault t = false /\ forall w, 64 <= w < 128 -> ~ In (Started w) (log t).
Proof.
  assert (B : match xrun true 1 (rep 128 push ++ rep 63 (steps 0 8) ++ X_multi hs128 true Poll :: go 131 ++ steps 0 8 ++ go 66) with
              | Some (Multi _ _ true Poll (W_return (Found _)), t) => negb (fault t) && forallb (fun w => negb (begun (log t) w)) (seq 64 64) | _ => false end = true) by (vm_compute; reflexivity).
  destruct (xrun true 1 _) as [[[|hs a|p hs [] [] [| | | | | |[i| | | |]]] t]|]; try discriminate B. apply andb_true_iff in B as [B1 B2]. exists t, p, hs, i. split; [reflexivity|]. split; [apply negb_true_iff; exact B1|]. exact (not_begun _ B2).
Qed.
(** Waiting for all with a limit, one of two has already ended: the assertion in line 1237 fails. *)
Theorem C177_assertion_refuted : exists t p w, xrun true 1 (push ++ push ++ steps 0 8 ++ X_multi [Some 0; Some 1] true Timed :: go 4 ++ steps 0 8 ++ go 2) = Some (Multi p [Some 0; Some 1] true Timed w, t) /\
  fault t = true /\ log t = [Dispatched 0; Dispatched 1; Started 0; Finished 0; Started 1; Finished 1; Waited 1 true].
Proof. do 3 eexists. split; [vm_compute; reflexivity|]. split; reflexivity. Qed.
(** With a limit of time more than 64 handles of work that goes on cannot be waited for: an error is returned at once
    (tm_async.h:1559). *)
Definition hs65 : list handle := map Some (rev (seq 0 65)).
Theorem C177_timed_many_refuted : exists t p, xrun true 1 (rep 65 push ++ X_multi hs65 false Timed :: go 131) = Some (Multi p hs65 false Timed (W_return Bad), t) /\ fault t = false.
Proof. do 2 eexists. split; [vm_compute; reflexivity|reflexivity]. Qed.
(** Waiting for any of 65 handles marks the work in the slot whose number is the index of the handle (tm_async.h:1702):
    the next wait for that work returns TM_OK before it has begun. *)
Theorem C177_any_many_refuted : exists t p, xrun true 1 (rep 65 push ++ X_multi hs65 false Forever :: go 262 ++ steps 0 8 ++ [X_go false 64; X_go false 0; X (L_wait 64); X L_main]) = Some (Multi p hs65 false Forever (W_return (Found 64)), t) /\
  fault t = false /\ nth_error hs65 64 = Some (Some 0) /\ skipn 65 (log t) = [Started 0; Finished 0; Waited 64 true].
Proof. do 2 eexists. split; [vm_compute; reflexivity|]. repeat apply conj; vm_compute; reflexivity. Qed.

Print Assumptions C175_all_ended_partial.
Print Assumptions C175_history_partial.
Print Assumptions C176_bounded_partial.
Print Assumptions C176_returns_partial.
Print Assumptions C176_twice_refuted.
Print Assumptions C177_found_ended_partial.
Print Assumptions C177_poll_all_reads_refuted.
Print Assumptions C177_poll_all_refuted.
Print Assumptions C177_assertion_refuted.
Print Assumptions C177_timed_many_refuted.
Print Assumptions C177_any_many_refuted.
