(** At most as much work dispatched as the ring has entries: nothing is lost and every call returns. *)
From Coq Require Import Arith Bool List Lia.
From Verif Require Import Base AsModel AsSpec AsProofs AsSteps AsWorker AsMain AsCalls.
Import ListNotations.

(** ** Nothing is freed: no slot is stale *)
Definition freeing (m : main) : bool := match m with M_free _ _ | M_fpop _ _ | M_fevent _ _ | M_fsignal _ _ | M_reset _ _ => true | _ => false end.
Lemma hfree_snoc l e : hfree (l ++ [e]) = hfree l + match e with Freed _ => 1 | _ => 0 end.
Proof. unfold hfree. apply h_snoc. Qed.
Lemma pop_slot_log s x t b t' : pop_slot s x t = Some (Some (b, t')) -> log t' = log t.
Proof. unfold pop_slot. destruct (ring_pos x) as [p|]; [|discriminate]. destruct (nth_error (ring (wq t)) p) as [y|]; [|discriminate]. cbv beta iota. destruct (match y with Some s' => Nat.eqb s' s | None => false end); intros [= <- <-]; reflexivity. Qed.
Lemma no_free_step N C checks l t t' :
  freeing (main_at t) = false /\ hfree (log t) = 0 -> is_free l = false -> exec N C checks l t = Some t' -> freeing (main_at t') = false /\ hfree (log t') = 0.
Proof.
  intros [Hm Hl] Hf. unfold exec. destruct (fault t); [discriminate|]. destruct l as [deferred|s|s|s|s| | |k|]; try discriminate Hf.
  - destruct (main_at t) eqn:Em; try discriminate. rewrite allocate_eq. unfold alloc_in.
    set (t0 := match first_block 0 (counts t) with Some _ => t | None => extended C t end).
    assert (H0 : main_at t0 = M_ready /\ log t0 = log t) by (unfold t0; destruct (first_block 0 (counts t)); auto). clearbody t0.
    destruct (first_block 0 (counts t0)) as [i|]; [|discriminate]. cbv beta iota. destruct (first_true _ _) as [s|]; [|discriminate]. cbv beta iota.
    destruct (nth_error (slots t0) s); [|discriminate]. cbv beta iota. destruct (nth_error (counts t0) i); [|discriminate]. cbv beta iota. intros [= <-].
    destruct H0 as [H0 H1]. destruct deferred; cbn [taken main_at log with_main]; rewrite ?H0, ?H1; auto.
  - destruct (main_at t) eqn:Em; try discriminate. destruct (in_use t s) as [[x w]|]; intros [= <-]; [|cbn [failed main_at log]; rewrite Em; auto].
    unfold begin_dispatch. destruct (ring_pos x); [rewrite Em; auto|auto].
  - destruct (main_at t) eqn:Em; try discriminate. destruct (in_use t s) as [[x w]|]; intros [= <-]; [auto|cbn [failed main_at log]; rewrite Em; auto].
  - destruct (main_at t) eqn:Em; try discriminate. destruct (in_use t s) as [[x w]|]; intros [= <-]; [auto|cbn [failed main_at log]; rewrite Em; auto].
  - unfold main_step.
    destruct (main_at t) as [|s|s|d s|d s p|d s p|d s|s w inf|s w|s w inf|s w ok|s w|s w w'|s w|s w|s w|s w|s w|s w|s w] eqn:Em; try discriminate Hm; try discriminate; intros H;
      repeat (match goal with
        | H : context [match ?e with _ => _ end] |- _ => destruct e eqn:?; cbv beta iota in H; try discriminate H
        end);
      injection H as <-; cbn [main_at log with_main with_q with_wq with_dq with_slot logged failed] in *; rewrite ?hfree_snoc, ?Em; auto;
      try (destruct d; cbn [main_at log with_main with_q with_wq with_dq with_slot logged failed] in *; rewrite ?hfree_snoc; auto);
      try (split; [reflexivity|lia]); split; try reflexivity; match goal with H : pop_slot _ _ _ = Some (Some _) |- _ => apply pop_slot_log in H; rewrite H; exact Hl end.
  - destruct (main_at t) eqn:Em; try discriminate. destruct inf; [discriminate|]. intros [= <-]. auto.
  - unfold worker_step. destruct (nth_error (workers t) k) as [w0|]; [|discriminate]. cbv beta iota. intros H.
    destruct w0; repeat (match goal with
        | H : context [match ?e with _ => _ end] |- _ => destruct e; cbv beta iota in H; try discriminate H
        end); injection H as <-; cbn [main_at log with_worker with_wq with_slot logged failed] in *; rewrite ?hfree_snoc; auto; (split; [exact Hm|lia]).
  - unfold dispatcher_step. destruct (dispatcher t); [|discriminate]. cbn [negb]. intros H.
    repeat (match goal with
        | H : context [match ?e with _ => _ end] |- _ => destruct e; cbv beta iota in H; try discriminate H
        end); injection H as <-; cbn [main_at log with_wq with_dq failed] in *; auto.
Qed.
Lemma not_stale t : inv t -> hfree (log t) = 0 -> ~ stale t.
Proof.
  intros I H (s & x & Ex & Ea & S). pose proof (i_slot t I s) as V. unfold slot_inv in V. rewrite Ex in V. destruct (work x) as [w|].
  - destruct V as [_ V]. unfold used, av in V. rewrite Ea in V. cbn [flag] in V. lia.
  - unfold unused in V. destruct V as (_ & _ & _ & _ & V). specialize (V H). destruct S as [S|(k & w & S)].
    + rewrite S in V. cbn [flag] in V. lia.
    + pose proof (tot_ge (w_late s) _ _ _ S) as G. cbn [w_late] in G. rewrite same_refl in G. unfold c_late in V. lia.
Qed.
Lemma careful_execs N C checks t ls t1 ls' t2 :
  careful N C checks t ls t1 -> forallb (fun l => negb (timed l) && negb (is_push l)) ls' = true -> execs N C checks ls' t1 = Some t2 -> careful N C checks t (ls ++ ls') t2.
Proof.
  revert ls t1. induction ls' as [|l ls' IH]; intros ls t1 H Hl He.
  - cbn [execs] in He. injection He as <-. rewrite app_nil_r. exact H.
  - cbn [execs] in He. destruct (exec N C checks l t1) as [t3|] eqn:E; [|discriminate]. cbn [forallb] in Hl. apply andb_true_iff in Hl as [Hl1 Hl2]. apply andb_true_iff in Hl1 as [Ha Hb].
    replace (ls ++ l :: ls') with ((ls ++ [l]) ++ ls') by (rewrite <- app_assoc; reflexivity). apply (IH _ t3); [|exact Hl2|exact He].
    apply (careful_snoc N C checks t ls t1 l t3 H); [apply negb_true_iff; exact Ha| |exact E]. apply negb_true_iff in Hb. rewrite Hb. discriminate.
Qed.
(** first issue work, wait and so on, then free it *)
Theorem phases_careful N C checks n ls1 ls2 t :
  forallb (fun l => negb (timed l) && negb (is_free l)) ls1 = true -> forallb (fun l => negb (timed l) && negb (is_push l)) ls2 = true ->
  execs N C checks (ls1 ++ ls2) (initial N C n) = Some t -> careful N C checks (initial N C n) (ls1 ++ ls2) t.
Proof.
  intros H1 H2 H.
  assert (A : forall ls ls0 t0 t1, forallb (fun l => negb (timed l) && negb (is_free l)) ls = true -> careful N C checks (initial N C n) ls0 t0 ->
     freeing (main_at t0) = false /\ hfree (log t0) = 0 -> execs N C checks ls t0 = Some t1 -> careful N C checks (initial N C n) (ls0 ++ ls) t1).
  { induction ls as [|l ls IH]; intros ls0 t0 t1 Hl Hc Hn He.
    - cbn [execs] in He. injection He as <-. rewrite app_nil_r. exact Hc.
    - cbn [execs] in He. destruct (exec N C checks l t0) as [t3|] eqn:E; [|discriminate]. cbn [forallb] in Hl. apply andb_true_iff in Hl as [Hl1 Hl2]. apply andb_true_iff in Hl1 as [Ha Hb].
      apply negb_true_iff in Ha. apply negb_true_iff in Hb.
      replace (ls0 ++ l :: ls) with ((ls0 ++ [l]) ++ ls) by (rewrite <- app_assoc; reflexivity). apply (IH _ t3); [exact Hl2| |exact (no_free_step N C checks l t0 t3 Hn Hb E)|exact He].
      apply (careful_snoc N C checks _ ls0 t0 l t3 Hc Ha); [|exact E]. intros _. apply not_stale; [exact (careful_inv N C checks n ls0 t0 Hc)|tauto]. }
  assert (S : exists t1, execs N C checks ls1 (initial N C n) = Some t1 /\ execs N C checks ls2 t1 = Some t).
  { clear -H. revert H. generalize (initial N C n) as t0. induction ls1 as [|l ls IH]; intros t0 H; [exists t0; auto|]. cbn [app execs] in *. destruct (exec N C checks l t0) as [t1|]; [|discriminate]. exact (IH t1 H). }
  destruct S as (t1 & E1 & E2). apply (careful_execs N C checks _ ls1 t1 ls2 t); [|exact H2|exact E2].
  apply (A ls1 [] (initial N C n) t1 H1); [constructor|split; reflexivity|exact E1].
Qed.
