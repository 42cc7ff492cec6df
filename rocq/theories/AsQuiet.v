(** When nothing but a call can happen, everything dispatched is done; and that comes to pass. *)
From Coq Require Import Arith Bool List Lia.
From Verif Require Import Base AsModel AsSpec AsProofs AsSteps AsWorker AsMain AsCalls AsProgress AsRing.
Import ListNotations.

(** ** Steps become fewer *)
Definition w_weight (w : worker) : nat := match w with W_idle => 0 | W_credit => 7 | W_claimed _ => 6 | W_took _ => 5 | W_run _ => 4 | W_running _ _ => 3 | W_ran _ _ => 2 | W_set _ _ => 1 end.
Definition m_weight (m : main) : nat :=
  match m with
  | M_ready => 0 | M_try _ => 20 | M_claim false _ => 19 | M_store false _ _ => 18 | M_block _ => 17 | M_claim true _ => 16 | M_store true _ _ => 15 | M_pos _ _ _ => 14 | M_post _ _ => 9
  | M_wait _ _ _ => 9 | M_pop _ _ => 8 | M_run _ _ => 7 | M_running _ _ _ => 6 | M_ran _ _ => 5 | M_set _ _ => 4 | M_event _ _ _ => 3 | M_signal _ _ _ => 2
  | M_free _ _ => 9 | M_fpop _ _ => 8 | M_fevent _ _ => 7 | M_fsignal _ _ => 6 | M_reset _ _ => 5
  end.
Definition weight (t : state) : nat :=
  8 * read_sem (wq t) + read_sem (dq t) + tot w_weight (workers t) + m_weight (main_at t) + (if dispatcher t then 1 else 0) + (if fault t then 0 else 1).
Lemma pop_slot_weight s x t b t' : pop_slot s x t = Some (Some (b, t')) ->
  read_sem (wq t') = read_sem (wq t) /\ dq t' = dq t /\ workers t' = workers t /\ dispatcher t' = dispatcher t /\ fault t' = fault t.
Proof. intros H. apply pop_slot_some in H as [->|(p & _ & ->)]; repeat split. Qed.
Ltac weigh H Em := repeat match type of H with context [match ?e with _ => _ end] => destruct e eqn:?; cbv beta iota in H; try discriminate H end;
  injection H as <-; unfold weight; projections; rewrite ?Em; cbn [m_weight w_weight].
Lemma step_weight N C checks l t t' : is_call l = false -> exec N C checks l t = Some t' -> weight t' < weight t.
Proof.
  intros Hl. unfold exec. destruct (fault t) eqn:Ef; [discriminate|]. destruct l as [deferred|s|s|s|s| | |k|]; try discriminate Hl.
  - unfold main_step. destruct (main_at t) as [|s|s|d s|d s p|d s p|d s|s w inf|s w|s w inf|s w ok|s w|s w w'|s w|s w|s w|s w|s w|s w|s w] eqn:Em; intros H; try discriminate H.
    + weigh H Em; rewrite ?Ef; lia.
    + weigh H Em; rewrite ?Ef; lia.
    + destruct d; cbn [the_q with_q] in H; weigh H Em; rewrite ?Ef; lia.
    + destruct d; cbn [the_q with_q] in H; weigh H Em; rewrite ?Ef; lia.
    + destruct d; cbn [the_q with_q] in H; weigh H Em; rewrite ?Ef; lia.
    + destruct d; cbn [the_q with_q] in H; weigh H Em; rewrite ?Ef; lia.
    + weigh H Em; rewrite ?Ef; lia.
    + destruct (nth_error (slots t) s) as [x|]; [|discriminate]. cbv beta iota in H. destruct (pop_slot s x t) as [[[b t1]|]|] eqn:Ep; cbv beta iota in H; [| |discriminate].
      * apply pop_slot_weight in Ep as (P1 & P2 & P3 & P4 & P5). destruct b; injection H as <-; unfold weight; projections; rewrite ?P1, ?P2, ?P3, ?P4, ?P5, ?Em, ?Ef; cbn [m_weight]; lia.
      * injection H as <-. unfold weight; projections. rewrite Em, Ef. lia.
    + weigh H Em; rewrite ?Ef; lia.
    + weigh H Em; rewrite ?Ef; lia.
    + weigh H Em; rewrite ?Ef; lia.
    + weigh H Em; rewrite ?Ef; lia.
    + weigh H Em; rewrite ?Ef; lia.
    + weigh H Em; rewrite ?Ef; lia.
    + weigh H Em; rewrite ?Ef; lia.
    + destruct (nth_error (slots t) s) as [x|]; [|discriminate]. cbv beta iota in H. destruct (pop_slot s x t) as [[[b t1]|]|] eqn:Ep; cbv beta iota in H; [| |discriminate].
      * apply pop_slot_weight in Ep as (P1 & P2 & P3 & P4 & P5). destruct b; injection H as <-; unfold weight; projections; rewrite ?P1, ?P2, ?P3, ?P4, ?P5, ?Em, ?Ef; cbn [m_weight]; lia.
      * injection H as <-. unfold weight; projections. rewrite Em, Ef. lia.
    + weigh H Em; rewrite ?Ef; lia.
    + weigh H Em; rewrite ?Ef; lia.
    + destruct (nth_error (slots t) s) as [x|]; [|discriminate]. cbv beta iota in H.
      destruct (checks && negb (signaled x) && match ring_pos x with Some _ => true | None => false end); injection H as <-; unfold weight; projections; rewrite Em, Ef; cbn [m_weight]; lia.
  - destruct (main_at t) eqn:Em; try discriminate. destruct inf; [discriminate|]. intros [= <-]. unfold weight; projections. rewrite Em. cbn [m_weight]. lia.
  - unfold worker_step. destruct (nth_error (workers t) k) as [w0|] eqn:Ek; [|discriminate]. cbv beta iota.
    assert (T : forall w1, tot w_weight (set (workers t) k w1) + w_weight w0 = tot w_weight (workers t) + w_weight w1) by (intros; apply tot_set; exact Ek).
    destruct w0 as [| |p|o|s|s w|s w|s w]; cbn [w_weight] in T; intros H.
    + destruct (read_sem (wq t)) as [|n] eqn:Er; [discriminate|]. injection H as <-. unfold weight; projections. specialize (T W_credit). cbn [w_weight] in T. rewrite Er. lia.
    + injection H as <-. unfold weight; projections. match goal with |- context [set (workers t) k ?w] => specialize (T w) end. cbn [w_weight] in T. lia.
    + destruct (nth_error (ring (wq t)) p); [|discriminate]. injection H as <-. unfold weight; projections. match goal with |- context [set (workers t) k ?w] => specialize (T w) end. cbn [w_weight] in T. lia.
    + injection H as <-. unfold weight; projections. match goal with |- context [set (workers t) k ?w] => specialize (T w) end. destruct o; cbn [w_weight] in T; lia.
    + destruct (nth_error (slots t) s) as [x|]; [|discriminate]. cbv beta iota in H. destruct (work x) as [w|]; injection H as <-; unfold weight; projections; [|rewrite Ef; lia].
      match goal with |- context [set (workers t) k ?w] => specialize (T w) end. cbn [w_weight] in T. lia.
    + injection H as <-. unfold weight; projections. match goal with |- context [set (workers t) k ?w] => specialize (T w) end. cbn [w_weight] in T. lia.
    + destruct (nth_error (slots t) s) as [x|]; [|discriminate]. injection H as <-. unfold weight; projections. match goal with |- context [set (workers t) k ?w] => specialize (T w) end. cbn [w_weight] in T. lia.
    + destruct (nth_error (slots t) s) as [x|]; [|discriminate]. injection H as <-. unfold weight; projections. match goal with |- context [set (workers t) k ?w] => specialize (T w) end. cbn [w_weight] in T. lia.
  - unfold dispatcher_step. destruct (dispatcher t) eqn:Ed; [|discriminate]. cbn [negb]. intros H.
    destruct (read_sem (dq t)) as [|n] eqn:Er.
    + destruct (arr t); [discriminate|]. destruct (write_sem (wq t)); [discriminate|]. injection H as <-. unfold weight; projections. rewrite Ed, Er. lia.
    + destruct (nth_error (ring (dq t)) (read_pos (dq t))) as [o|]; [|discriminate]. cbv beta iota in H. destruct o; [destruct (Nat.leb 16 (length (arr t) + 1))|]; injection H as <-; unfold weight; projections; rewrite ?Ed, ?Er, ?Ef; lia.
Qed.
Lemma steps_weight N C checks ls t t' : forallb (fun l => negb (is_call l)) ls = true -> execs N C checks ls t = Some t' -> length ls + weight t' <= weight t.
Proof.
  revert t. induction ls as [|l ls IH]; intros t Hl H; cbn [execs] in H.
  - injection H as <-. reflexivity.
  - destruct (exec N C checks l t) as [t1|] eqn:E; [|discriminate]. cbn [forallb] in Hl. apply andb_true_iff in Hl as [Ha Hb]. apply negb_true_iff in Ha.
    pose proof (step_weight N C checks l t t1 Ha E). specialize (IH t1 Hb H). cbn [length]. lia.
Qed.

(** ** The number of workers *)
Lemma workers_len N C checks l t t' : exec N C checks l t = Some t' -> length (workers t') = length (workers t).
Proof.
  unfold exec. destruct (fault t) eqn:Ef; [discriminate|]. destruct l as [deferred|s|s|s|s| | |k|].
  - destruct (main_at t) eqn:Em; try discriminate. rewrite allocate_eq. unfold alloc_in.
    set (t0 := match first_block 0 (counts t) with Some _ => t | None => extended C t end).
    assert (H0 : workers t0 = workers t) by (unfold t0; destruct (first_block 0 (counts t)); auto). clearbody t0.
    destruct (first_block 0 (counts t0)) as [i|]; [|discriminate]. cbv beta iota.
    destruct (first_true (i * C) (firstn C (skipn (i * C) (avail t0)))) as [s'|]; [|discriminate]. cbv beta iota.
    destruct (nth_error (slots t0) s') as [x|]; [|discriminate]. cbv beta iota.
    destruct (nth_error (counts t0) i) as [c|]; [|discriminate]. cbv beta iota.
    destruct deferred; intros [= <-]; projections; cbn [taken workers with_main]; rewrite H0; reflexivity.
  - destruct (main_at t); try discriminate. destruct (in_use t s) as [[x w]|]; intros [= <-]; [|reflexivity]. unfold begin_dispatch. destruct (ring_pos x); reflexivity.
  - destruct (main_at t); try discriminate. destruct (in_use t s) as [[x w]|]; intros [= <-]; reflexivity.
  - destruct (main_at t); try discriminate. destruct (in_use t s) as [[x w]|]; intros [= <-]; reflexivity.
  - destruct (main_at t); try discriminate. destruct (in_use t s) as [[x w]|]; intros [= <-]; reflexivity.
  - intros H. unfold main_step in H.
    destruct (main_at t) as [|s|s|d s|d s p|d s p|d s|s w inf|s w|s w inf|s w ok|s w|s w w'|s w|s w|s w|s w|s w|s w|s w] eqn:Em; try discriminate;
     try (destruct d; cbn [the_q with_q] in H);
     try (destruct (nth_error (slots t) s) as [x|]; [|discriminate]; cbv beta iota in H; destruct (pop_slot s x t) as [[[b t1]|]|] eqn:Ep; cbv beta iota in H;
       [apply pop_slot_weight in Ep as (_ & _ & P & _); destruct b; injection H as <-; projections; rewrite P; reflexivity|injection H as <-; reflexivity|discriminate H]; fail);
     repeat match type of H with context [match ?e with _ => _ end] => destruct e; cbv beta iota in H; try discriminate H end; injection H as <-; reflexivity.
  - destruct (main_at t); try discriminate. destruct inf; [discriminate|]. intros [= <-]. reflexivity.
  - unfold worker_step. destruct (nth_error (workers t) k) as [w0|] eqn:Ek; [|discriminate]. cbv beta iota. pose proof (nth_lt _ _ _ Ek) as L.
    intros H. repeat match type of H with context [match ?e with _ => _ end] => destruct e; cbv beta iota in H; try discriminate H end; injection H as <-; projections; rewrite ?set_len by exact L; reflexivity.
  - unfold dispatcher_step. intros H. repeat match type of H with context [match ?e with _ => _ end] => destruct e; cbv beta iota in H; try discriminate H end; injection H as <-; reflexivity.
Qed.
Lemma careful_len N C checks n ls t : careful N C checks (initial N C n) ls t -> length (workers t) = n.
Proof.
  intros H. remember (initial N C n) as t0 eqn:E0. induction H as [t|t ls t1 l t2 H IH Ht Hp He]; [subst; apply repeat_length|]. rewrite (workers_len _ _ _ _ _ _ He). exact (IH E0).
Qed.

(** ** Places in the rings *)
Definition pos_slot (N : nat) (x : slot) : Prop := match ring_pos x with Some p => p < N | None => True end.
Definition pos_ok (N : nat) (t : state) : Prop :=
  Forall (pos_slot N) (slots t) /\ match main_at t with M_store _ _ p | M_pos _ _ p => p < N | _ => True end /\ write_pos (wq t) < N /\ write_pos (dq t) < N.
Lemma Forall_set {A} (P : A -> Prop) l i x : Forall P l -> P x -> Forall P (set l i x).
Proof. intros H Hx. apply Forall_forall. intros y Hy. rewrite Forall_forall in H. unfold set in Hy. apply in_app_iff in Hy as [Hy|[<-|Hy]]; [|exact Hx|].
  - apply H. rewrite <- (firstn_skipn i l). apply in_app_iff. auto.
  - apply H. rewrite <- (firstn_skipn (S i) l). apply in_app_iff. auto. Qed.
Lemma Forall_nth_some {A} (P : A -> Prop) l i x : Forall P l -> nth_error l i = Some x -> P x.
Proof. intros H E. rewrite Forall_forall in H. apply H. exact (nth_error_In _ _ E). Qed.
Lemma exec_pos N C checks l t t' : pos_ok N t -> exec N C checks l t = Some t' -> pos_ok N t'.
Proof.
  intros (P1 & P2 & P3 & P4). unfold exec. destruct (fault t) eqn:Ef; [discriminate|].
  assert (Md : forall m, m < N -> forall k, k mod N < N) by (intros; apply Nat.mod_upper_bound; lia). specialize (Md _ P3).
  assert (Sl : forall s x y, nth_error (slots t) s = Some x -> ring_pos y = ring_pos x -> Forall (pos_slot N) (set (slots t) s y)).
  { intros s x y Ex E. apply Forall_set; [exact P1|]. pose proof (Forall_nth_some _ _ _ _ P1 Ex) as Q. unfold pos_slot in *. rewrite E. exact Q. }
  destruct l as [deferred|s|s|s|s| | |k|].
  - destruct (main_at t) eqn:Em; try discriminate. rewrite allocate_eq. unfold alloc_in.
    set (t0 := match first_block 0 (counts t) with Some _ => t | None => extended C t end).
    assert (H0 : Forall (pos_slot N) (slots t0) /\ wq t0 = wq t /\ dq t0 = dq t /\ main_at t0 = M_ready).
    { unfold t0; destruct (first_block 0 (counts t)); [auto|]. cbn [extended slots wq dq main_at]. split; [|auto]. apply Forall_app. split; [exact P1|]. apply Forall_forall. intros x Hx. apply repeat_spec in Hx. subst x. exact I. }
    clearbody t0. destruct H0 as (H0 & H1 & H2 & H3).
    destruct (first_block 0 (counts t0)) as [i|]; [|discriminate]. cbv beta iota.
    destruct (first_true (i * C) (firstn C (skipn (i * C) (avail t0)))) as [s'|] eqn:Ft; [|discriminate]. cbv beta iota.
    destruct (nth_error (slots t0) s') as [x|] eqn:Ex; [|discriminate]. cbv beta iota.
    destruct (nth_error (counts t0) i) as [c|]; [|discriminate]. cbv beta iota.
    assert (Q : pos_ok N (taken s' i x c t0)).
    { split; [cbn [taken slots]; apply Forall_set; [exact H0|exact I]|]. cbn [taken wq dq main_at]. rewrite H1, H2, H3. auto. }
    destruct deferred; intros [= <-]; [exact Q|]. destruct Q as (Q1 & Q2 & Q3 & Q4). split; [exact Q1|]. projections. auto.
  - destruct (main_at t) eqn:Em; try discriminate. destruct (in_use t s) as [[x w]|]; intros [= <-]; [unfold begin_dispatch; destruct (ring_pos x)|]; split; projections; rewrite ?Em; auto.
  - destruct (main_at t) eqn:Em; try discriminate. destruct (in_use t s) as [[x w]|]; intros [= <-]; split; projections; rewrite ?Em; auto.
  - destruct (main_at t) eqn:Em; try discriminate. destruct (in_use t s) as [[x w]|]; intros [= <-]; split; projections; rewrite ?Em; auto.
  - destruct (main_at t) eqn:Em; try discriminate. destruct (in_use t s) as [[x w]|]; intros [= <-]; split; projections; rewrite ?Em; auto.
  - intros H. unfold main_step in H.
    destruct (main_at t) as [|s|s|d s|d s p|d s p|d s|s w inf|s w|s w inf|s w ok|s w|s w w'|s w|s w|s w|s w|s w|s w|s w] eqn:Em; try discriminate;
     try (destruct d; cbn [the_q with_q] in H);
     try (destruct (nth_error (slots t) s) as [x|] eqn:Ex; [|discriminate]; cbv beta iota in H; destruct (pop_slot s x t) as [[[b t1]|]|] eqn:Ep; cbv beta iota in H;
       [apply pop_slot_some in Ep as [->|(p & _ & ->)]; destruct b; injection H as <-; split; projections; auto|injection H as <-; split; projections; rewrite ?Em; auto|discriminate H]; fail);
     repeat match type of H with context [match ?e with _ => _ end] => destruct e eqn:?; cbv beta iota in H; try discriminate H end; injection H as <-; split; projections; rewrite ?Em; eauto; try exact P1;
     try (eapply Sl; [eassumption|reflexivity]); try (apply Forall_set; [exact P1|]; exact P2); try (apply Forall_set; [exact P1|exact I]).
  - destruct (main_at t) eqn:Em; try discriminate. destruct inf; [discriminate|]. intros [= <-]. split; projections; auto.
  - unfold worker_step. destruct (nth_error (workers t) k) as [w0|] eqn:Ek; [|discriminate]. cbv beta iota.
    intros H. destruct w0; repeat match type of H with context [match ?e with _ => _ end] => destruct e eqn:?; cbv beta iota in H; try discriminate H end; injection H as <-; split; projections; auto; eapply Sl; try eassumption; reflexivity.
  - unfold dispatcher_step. intros H. repeat match type of H with context [match ?e with _ => _ end] => destruct e eqn:?; cbv beta iota in H; try discriminate H end; injection H as <-; split; projections; auto.
Qed.
Lemma careful_pos N C checks n ls t : 0 < N -> careful N C checks (initial N C n) ls t -> pos_ok N t.
Proof.
  intros L H. remember (initial N C n) as t0 eqn:E0. induction H as [t|t ls t1 l t2 H IH Ht Hp He]; [subst|exact (exec_pos _ _ _ _ _ _ (IH E0) He)].
  split; [apply Forall_forall; intros x Hx; apply repeat_spec in Hx; subst x; exact I|]. cbn [initial main_at wq dq new_queue write_pos]. auto.
Qed.

(** ** Nothing can happen *)
Definition only_calls (N C : nat) (checks : bool) (t : state) : Prop := forall l, is_call l = false -> exec N C checks l t = None.
Lemma slot_there t s : inv t -> c_new t s + c_in t s + c_out t s + c_late t s > 0 -> exists x, nth_error (slots t) s = Some x.
Proof. intros I H. pose proof (i_slot t I s) as V. unfold slot_inv in V. destruct (nth_error (slots t) s) as [x|]; [eauto|lia]. Qed.
Lemma all_idle N C checks t d c r : inv t -> ring_inv N t d c r -> fault t = false -> only_calls N C checks t ->
  forall k w, nth_error (workers t) k = Some w -> w = W_idle /\ read_sem (wq t) = 0.
Proof.
  intros I R Ef H k w Hk. specialize (H (L_worker k) eq_refl). unfold exec in H. rewrite Ef in H. unfold worker_step in H. rewrite Hk in H. cbv beta iota in H.
  assert (A1 : forall s f, f = w_new \/ f = w_out \/ f = w_late -> f s w = 1 -> exists x, nth_error (slots t) s = Some x).
  { intros s f Hf E. apply slot_there; [exact I|]. unfold c_new, c_in, c_out, c_late. pose proof (tot_ge (f s) _ _ _ Hk). destruct Hf as [->|[->| ->]]; lia. }
  destruct w as [| |p|o|s|s w|s w|s w]; try discriminate H.
  - destruct (read_sem (wq t)); [auto|discriminate].
  - exfalso. destruct (nth_error (ring (wq t)) p) eqn:E; [discriminate|]. apply nth_error_None in E. rewrite (r_len _ _ _ _ _ R) in E.
    pose proof (r_claimed _ _ _ _ _ R _ _ Hk). pose proof (r_rsem _ _ _ _ _ R). pose proof (r_d _ _ _ _ _ R). pose proof (r_N _ _ _ _ _ R). lia.
  - exfalso. destruct (A1 s w_new) as [x Ex]; [auto|cbn [w_new]; apply same_refl|]. rewrite Ex in H. cbv beta iota in H. destruct (work x); discriminate.
  - exfalso. destruct (A1 s w_out) as [x Ex]; [auto|cbn [w_out]; apply same_refl|]. rewrite Ex in H. discriminate.
  - exfalso. destruct (A1 s w_late) as [x Ex]; [auto|cbn [w_late]; apply same_refl|]. rewrite Ex in H. discriminate.
Qed.
Lemma quiet_counts N C checks t d c r :
  inv t -> ring_inv N t d c r -> fault t = false -> only_calls N C checks t -> 0 < length (workers t) -> storing (main_at t) = 0 -> posting (main_at t) = 0 ->
  forall s, c_new t s = m_new s (main_at t) /\ c_in t s = m_in s (main_at t) /\ c_out t s = m_out s (main_at t) /\ c_late t s = m_late s (main_at t).
Proof.
  intros I R Ef H L St Po s. pose proof (all_idle N C checks t d c r I R Ef H) as Idle.
  assert (Rs : read_sem (wq t) = 0).
  { destruct (nth_error (workers t) 0) as [w|] eqn:E; [exact (proj2 (Idle _ _ E))|]. apply nth_error_None in E. lia. }
  assert (Zw : forall f : worker -> nat, f W_idle = 0 -> tot f (workers t) = 0) by (intros f Hf; apply tot_zero; intros i x Hi; destruct (Idle _ _ Hi) as [-> _]; exact Hf).
  assert (Zr : tot (cell s) (ring (wq t)) = 0).
  { apply tot_zero. intros p y Hp. pose proof (r_rsem _ _ _ _ _ R) as E. rewrite Rs, St, Po, (Zw has_credit) in E by reflexivity.
    assert (y = None); [|subst y; reflexivity]. destruct (Nat.lt_ge_cases p r) as [Lp|Lp].
    - destruct (r_read_done _ _ _ _ _ R p Lp) as [A|[k A]]; [congruence|]. destruct (Idle _ _ A). discriminate.
    - pose proof (nth_lt _ _ _ Hp) as Lq. rewrite (r_len _ _ _ _ _ R) in Lq. assert (A : nth_error (ring (wq t)) p = Some None) by (apply (r_free _ _ _ _ _ R); [lia|exact Lq]). congruence. }
  unfold c_new, c_in, c_out, c_late. rewrite !Zw by reflexivity. rewrite Zr, (r_arr _ _ _ _ _ R), (r_dring _ _ _ _ _ R), tot_repeat by reflexivity. cbn [tot fold_right]. repeat split; lia.
Qed.
Theorem quiet_ready N C checks t d c r :
  inv t -> ring_inv N t d c r -> pos_ok N t -> fault t = false -> 0 < length (workers t) -> only_calls N C checks t -> main_at t = M_ready.
Proof.
  intros I R Ps Ef L H.
  assert (Pop : forall s x, nth_error (slots t) s = Some x -> exists o, pop_slot s x t = Some o).
  { intros s x Ex. unfold pop_slot. destruct (ring_pos x) as [p|] eqn:Ep; [|eauto]. pose proof (Forall_nth_some _ _ _ _ (proj1 Ps) Ex) as Q. unfold pos_slot in Q. rewrite Ep in Q.
    destruct (nth_error (ring (wq t)) p) as [y|] eqn:E; [|apply nth_error_None in E; rewrite (r_len _ _ _ _ _ R) in E; lia]. cbv beta iota. destruct (match y with Some s' => Nat.eqb s' s | None => false end); eauto. } pose proof (i_main t I) as M. unfold main_inv in M. pose proof (H L_main eq_refl) as Hm. unfold exec in Hm. rewrite Ef in Hm. unfold main_step in Hm.
  pose proof (quiet_counts N C checks t d c r I R Ef H L) as Z.
  assert (Ev : forall s w x, nth_error (slots t) s = Some x -> work x = Some w -> hp x > 0 -> (forall s', m_new s' (main_at t) = 0 /\ m_in s' (main_at t) = 0 /\ m_out s' (main_at t) = 0 /\ m_late s' (main_at t) = 0 /\ resetting s' (main_at t) = 0) ->
     storing (main_at t) = 0 -> posting (main_at t) = 0 -> evt x = true).
  { intros s w x Ex Ew Px Hz St Po. destruct (Z St Po s) as (Z1 & Z2 & Z3 & Z4). specialize (Hz s). pose proof (i_slot t I s) as V. unfold slot_inv in V. rewrite Ex, Ew, Ef in V. destruct V as [_ V]. cbn [flag] in V.
    destruct (evt x); [reflexivity|exfalso]. cbn [flag] in V. unfold used in V. lia. }
  destruct (main_at t) as [|s|s|dd s|dd s p|dd s p|dd s|s w inf|s w|s w inf|s w ok|s w|s w w'|s w|s w|s w|s w|s w|s w|s w] eqn:Em; [reflexivity|exfalso..];
    pose proof (r_main _ _ _ _ _ R) as X; rewrite Em in X; cbn [elsewhere] in X; try discriminate X; try (destruct dd; [discriminate X|]); clear X; cbn [the_q with_q] in Hm; try discriminate Hm.
  - destruct (write_sem (wq t)); discriminate.
  - destruct (nth_error (ring (wq t)) p) as [y|] eqn:E; [cbv beta iota in Hm; destruct y; discriminate|]. apply nth_error_None in E. rewrite (r_len _ _ _ _ _ R) in E.
    pose proof (r_store _ _ _ _ _ R s p Em). pose proof (r_d _ _ _ _ _ R). pose proof (r_N _ _ _ _ _ R). lia.
  - destruct M as (x & w & Ex & Ew). rewrite Ex in Hm. discriminate.
  - destruct M as (x & w & Ex & Ew & _). rewrite Ex in Hm. cbv beta iota in Hm. rewrite Ew in Hm. discriminate.
  - destruct M as (-> & x & Ex & Ew). rewrite Ex in Hm. cbv beta iota in Hm. destruct (signaled x); discriminate.
  - destruct M as (x & Ex & _). rewrite Ex in Hm. cbv beta iota in Hm. destruct (Pop s x Ex) as [[[[] t1]|] Eo]; rewrite Eo in Hm; discriminate.
  - destruct M as (-> & x & Ex & Ew & Px). rewrite Ex in Hm. cbv beta iota in Hm. rewrite (Ev s w x Ex Ew Px) in Hm; try reflexivity; [discriminate|]. intros s'. repeat split.
  - destruct M as (x & Ex & _). rewrite Ex in Hm. discriminate.
  - destruct M as (x & Ex & Ew). rewrite Ex in Hm. cbv beta iota in Hm. rewrite Ew in Hm. discriminate.
  - destruct M as (x & Ex & _). rewrite Ex in Hm. discriminate.
  - destruct M as (x & Ex & _). rewrite Ex in Hm. discriminate.
  - destruct M as (x & Ex & _). rewrite Ex in Hm. cbv beta iota in Hm. destruct (ring_pos x); [destruct (signaled x)|]; discriminate.
  - destruct M as (x & Ex & _). rewrite Ex in Hm. cbv beta iota in Hm. destruct (Pop s x Ex) as [[[[] t1]|] Eo]; rewrite Eo in Hm; discriminate.
  - destruct M as (x & Ex & Ew & Px). rewrite Ex in Hm. cbv beta iota in Hm. rewrite (Ev s w x Ex Ew Px) in Hm; try reflexivity; [discriminate|]. intros s'. repeat split.
  - destruct M as (x & Ex & _). rewrite Ex in Hm. discriminate.
  - destruct M as (x & Ex & _). rewrite Ex in Hm. cbv beta iota in Hm. destruct (checks && negb (signaled x) && match ring_pos x with Some _ => true | None => false end); discriminate.
Qed.
Theorem quiet_done N C checks t d c r :
  inv t -> ring_inv N t d c r -> pos_ok N t -> fault t = false -> 0 < length (workers t) -> only_calls N C checks t ->
  forall w, In (Dispatched w) (log t) -> In (Finished w) (log t) \/ In (Withdrawn w) (log t).
Proof.
  intros I R Ps Ef L H w Hd. pose proof (quiet_ready N C checks t d c r I R Ps Ef L H) as Em.
  pose proof (quiet_counts N C checks t d c r I R Ef H L) as Z. rewrite Em in Z. specialize (Z eq_refl eq_refl).
  pose proof (i_lt t I _ Hd) as Lt. cbn [about] in Lt. destruct (i_all t I w Lt) as [(s & x & Ex & Ew)|Hf].
  - destruct (Z s) as (Z1 & Z2 & Z3 & Z4). cbn [m_new m_in m_out m_late] in Z1, Z2, Z3, Z4. pose proof (i_slot t I s) as V. unfold slot_inv in V. rewrite Ex, Ew, Ef in V. destruct V as [_ V]. cbn [flag] in V.
    rewrite <- hF_in. left. apply hD_in in Hd. rewrite Em in V. cbn [resetting] in V. unfold used in V. lia.
  - apply in_split in Hf as (b & a & E). pose proof (i_log t I b (Freed w) a E) as F. cbn [event_ok] in F.
    assert (Hb : In (Dispatched w) b).
    { rewrite E in Hd. apply in_app_iff in Hd as [Hd|[Hd|Hd]]; [exact Hd|discriminate|]. exfalso.
      apply in_split in Hd as (a1 & a2 & E2). pose proof (i_log t I (b ++ Freed w :: a1) (Dispatched w) a2) as D.
      rewrite E, E2, <- app_assoc in D. specialize (D eq_refl). cbn [event_ok] in D. destruct D as [D1 D2]. apply D2. apply in_app_iff. right. left. reflexivity. }
    rewrite E. rewrite !in_app_iff. destruct F as (F1 & F2). tauto.
Qed.

