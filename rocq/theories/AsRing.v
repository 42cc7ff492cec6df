(** The positions of the work ring while no more work was dispatched than it has entries. *)
From Coq Require Import Arith Bool List Lia.
From Verif Require Import Base AsModel AsSpec AsProofs AsSteps AsWorker AsMain AsCalls AsProgress.
Import ListNotations.

Definition trying (m : main) : nat := match m with M_try _ | M_claim false _ => 1 | _ => 0 end.
Definition claiming (m : main) : nat := match m with M_claim false _ => 1 | _ => 0 end.
Definition storing (m : main) : nat := match m with M_store false _ _ => 1 | _ => 0 end.
Definition posting (m : main) : nat := match m with M_pos false _ _ | M_post false _ => 1 | _ => 0 end.
Definition elsewhere (m : main) : bool := match m with M_block _ | M_claim true _ | M_store true _ _ | M_pos true _ _ | M_post true _ => true | _ => false end.
Definition has_credit (w : worker) : nat := match w with W_credit => 1 | _ => 0 end.
(** [c]: positions claimed for writing, [r]: for reading, [d]: dispatches begun *)
Record ring_inv (N : nat) (t : state) (d c r : nat) : Prop := {
  r_dq : read_sem (dq t) = 0; r_arr : arr t = []; r_dring : ring (dq t) = repeat None N;
  r_main : elsewhere (main_at t) = false;
  r_len : length (ring (wq t)) = N;
  r_write : write_pos (wq t) = c mod N; r_read : read_pos (wq t) = r mod N;
  r_d : c + trying (main_at t) <= d; r_N : d <= N;
  r_wsem : N <= write_sem (wq t) + c + claiming (main_at t);
  r_store : forall s p, main_at t = M_store false s p -> p + 1 = c;
  r_free : forall p, c <= p + storing (main_at t) -> p < N -> nth_error (ring (wq t)) p = Some None;
  r_rsem : read_sem (wq t) + tot has_credit (workers t) + r + storing (main_at t) + posting (main_at t) = c;
  r_claimed : forall k p, nth_error (workers t) k = Some (W_claimed p) -> p < r;
  r_read_done : forall p, p < r -> nth_error (ring (wq t)) p = Some None \/ exists k, nth_error (workers t) k = Some (W_claimed p)
}.
Lemma ring_initial N C n : ring_inv N (initial N C n) 0 0 0.
Proof.
  assert (Nth : forall p, p < N -> nth_error (repeat (@None nat) N) p = Some None).
  { intros p L. destruct (nth_error (repeat None N) p) as [y|] eqn:E; [|apply nth_error_None in E; rewrite repeat_length in E; lia]. apply nth_error_In, repeat_spec in E. subst y. reflexivity. }
  constructor; unfold initial, new_queue; projections; cbn [trying claiming storing posting] in *; try reflexivity; try lia.
  - apply repeat_length.
  - destruct N as [|N']; [reflexivity|]. rewrite Nat.mod_0_l by lia. reflexivity.
  - destruct N as [|N']; [reflexivity|]. rewrite Nat.mod_0_l by lia. reflexivity.
  - discriminate.
  - intros p _ L. apply Nth. exact L.
  - rewrite tot_repeat by reflexivity. reflexivity.
  - intros k p H. apply nth_error_In, repeat_spec in H. discriminate.
Qed.
(** fields that matter *)
Lemma ring_same N t t' d c r :
  ring_inv N t d c r -> wq t' = wq t -> dq t' = dq t -> arr t' = arr t -> main_at t' = main_at t ->
  (tot has_credit (workers t') = tot has_credit (workers t)) ->
  (forall k p, nth_error (workers t') k = Some (W_claimed p) <-> nth_error (workers t) k = Some (W_claimed p)) -> ring_inv N t' d c r.
Proof.
  intros R E1 E2 E3 E4 E5 E6. destruct R. constructor; rewrite ?E1, ?E2, ?E3, ?E4, ?E5; try assumption.
  - intros k p H. apply E6 in H. eauto.
  - intros p L. destruct (r_read_done0 p L) as [A|[k A]]; [auto|]. right. exists k. apply E6. exact A.
Qed.
Lemma claimed_set (l : list worker) k w0 w1 k' p :
  nth_error l k = Some w0 -> (forall q, w0 <> W_claimed q) -> (forall q, w1 <> W_claimed q) ->
  nth_error (set l k w1) k' = Some (W_claimed p) <-> nth_error l k' = Some (W_claimed p).
Proof.
  intros H N0 N1. pose proof (nth_lt _ _ _ H) as L. destruct (Nat.eq_dec k' k) as [->|Ne].
  - rewrite nth_set_eq, H by exact L. split; intros [= E]; [elim (N1 p E)|elim (N0 p E)].
  - rewrite nth_set_ne by assumption. reflexivity.
Qed.
Lemma ring_worker N k t t' d c r : ring_inv N t d c r -> worker_step N k t = Some t' -> exists r', ring_inv N t' d c r'.
Proof.
  intros R. unfold worker_step. destruct (nth_error (workers t) k) as [w0|] eqn:Ek; [|discriminate]. cbv beta iota.
  pose proof (nth_lt _ _ _ Ek) as Lk.
  assert (T : forall w1, tot has_credit (set (workers t) k w1) + has_credit w0 = tot has_credit (workers t) + has_credit w1) by (intros; apply tot_set; exact Ek).
  assert (Plain : forall w1 t1, has_credit w0 = 0 -> has_credit w1 = 0 -> (forall q, w0 <> W_claimed q) -> (forall q, w1 <> W_claimed q) ->
     wq t1 = wq t -> dq t1 = dq t -> arr t1 = arr t -> main_at t1 = main_at t -> workers t1 = set (workers t) k w1 -> exists r', ring_inv N t1 d c r').
  { intros w1 t1 C0 C1 N0 N1 E1 E2 E3 E4 E5. exists r. apply (ring_same N t t1); try assumption; rewrite E5; [specialize (T w1); lia|]. intros. apply claimed_set with (w0 := w0); assumption. }
  destruct R.
  destruct w0 as [| |p|o|s|s w|s w|s w].
  - destruct (read_sem (wq t)) as [|n] eqn:Er; [discriminate|]. intros [= <-]. exists r. specialize (T W_credit). cbn [has_credit] in T.
    constructor; projections; try assumption; [lia|..].
    + intros k' p H. apply claimed_set with (w0 := W_idle) in H; [eauto|assumption|discriminate|discriminate].
    + intros p L. destruct (r_read_done0 p L) as [A|[k' A]]; [auto|]. right. exists k'. apply claimed_set with (w0 := W_idle); [assumption|discriminate|discriminate|assumption].
  - intros [= <-]. exists (r + 1). specialize (T (W_claimed (read_pos (wq t)))). cbn [has_credit] in T.
    assert (Lr : r < c) by lia. assert (Ln : r < N) by lia. assert (Rp : read_pos (wq t) = r) by (rewrite r_read0; apply Nat.mod_small; exact Ln).
    constructor; projections; try assumption; [|lia|..].
    + rewrite Rp. reflexivity.
    + intros k' p H. destruct (Nat.eq_dec k' k) as [->|Ne]; [rewrite nth_set_eq in H by exact Lk; assert (p = read_pos (wq t)) by congruence; lia|rewrite nth_set_ne in H by assumption; specialize (r_claimed0 _ _ H); lia].
    + intros p L. destruct (Nat.eq_dec p r) as [->|Np]; [right; exists k; rewrite nth_set_eq by exact Lk; rewrite Rp; reflexivity|].
      destruct (r_read_done0 p) as [A|[k' A]]; [lia|auto|]. right. exists k'. destruct (Nat.eq_dec k' k) as [->|Ne]; [congruence|]. rewrite nth_set_ne by assumption. exact A.
  - destruct (nth_error (ring (wq t)) p) as [y|] eqn:Ep; [|discriminate]. cbv beta iota. intros [= <-]. exists r. specialize (T (W_took y)). cbn [has_credit] in T. pose proof (nth_lt _ _ _ Ep) as Lp.
    assert (Nth : forall q, nth_error (ring (wq t)) q = Some None -> nth_error (set (ring (wq t)) p None) q = Some None).
    { intros q A. destruct (Nat.eq_dec q p) as [->|Nq]; [apply nth_set_eq; exact Lp|rewrite nth_set_ne by assumption; exact A]. }
    constructor; projections; try assumption; [rewrite set_len by exact Lp; assumption| |lia| |].
    + intros q A B. apply Nth. auto.
    + intros k' q H. destruct (Nat.eq_dec k' k) as [->|Ne]; [rewrite nth_set_eq in H by exact Lk; discriminate|rewrite nth_set_ne in H by assumption; eauto].
    + intros q L. destruct (Nat.eq_dec q p) as [->|Nq]; [left; apply nth_set_eq; exact Lp|]. destruct (r_read_done0 q L) as [A|[k' A]]; [left; apply Nth; exact A|].
      right. exists k'. destruct (Nat.eq_dec k' k) as [->|Ne]; [congruence|]. rewrite nth_set_ne by assumption. exact A.
  - intros [= <-]. exists r. set (w1 := match o with Some s => W_run s | None => W_idle end). assert (Hw : has_credit w1 = 0 /\ forall q, w1 <> W_claimed q) by (unfold w1; destruct o; split; try reflexivity; discriminate).
    destruct Hw as [Hw Hq]. specialize (T w1). cbn [has_credit] in T.
    constructor; projections; try assumption; [destruct (Nat.ltb (write_sem (wq t)) N); lia|lia|..].
    + intros k' p H. apply claimed_set with (w0 := W_took o) in H; [eauto|assumption|discriminate|exact Hq].
    + intros p L. destruct (r_read_done0 p L) as [A|[k' A]]; [auto|]. right. exists k'. apply claimed_set with (w0 := W_took o); [assumption|discriminate|exact Hq|assumption].
  - destruct (nth_error (slots t) s) as [x|]; [|discriminate]. cbv beta iota. destruct (work x) as [w|]; intros [= <-].
    + apply (Plain (W_running s w)); try reflexivity; discriminate.
    + exists r. constructor; assumption.
  - intros [= <-]. apply (Plain (W_ran s w)); try reflexivity; discriminate.
  - destruct (nth_error (slots t) s) as [x|]; [|discriminate]. cbv beta iota. intros [= <-]. apply (Plain (W_set s w)); try reflexivity; discriminate.
  - destruct (nth_error (slots t) s) as [x|]; [|discriminate]. cbv beta iota. intros [= <-]. apply (Plain W_idle); try reflexivity; discriminate.
Qed.
Lemma ring_dispatcher N t t' d c r : ring_inv N t d c r -> dispatcher_step N t = Some t' -> False.
Proof. intros R. unfold dispatcher_step. destruct (dispatcher t); [|discriminate]. cbn [negb]. rewrite (r_dq _ _ _ _ _ R), (r_arr _ _ _ _ _ R). discriminate. Qed.
(** main steps outside of pushing: only where it is and the ring's entries may change *)
Lemma ring_quiet N t t' d c r :
  ring_inv N t d c r -> dq t' = dq t -> arr t' = arr t -> workers t' = workers t ->
  trying (main_at t) = 0 -> storing (main_at t) = 0 -> posting (main_at t) = 0 -> claiming (main_at t) = 0 ->
  trying (main_at t') = 0 -> storing (main_at t') = 0 -> posting (main_at t') = 0 -> claiming (main_at t') = 0 -> elsewhere (main_at t') = false ->
  (wq t' = wq t \/ exists p, p < length (ring (wq t)) /\ wq t' = put_ring (wq t) p None) -> ring_inv N t' d c r.
Proof.
  intros R E2 E3 E4 A1 A2 A3 A4 B1 B2 B3 B4 B5 Hw. destruct R. rewrite A1, A2, A3, A4 in *.
  assert (Ns : forall s p, main_at t' <> M_store false s p) by (intros s p E; rewrite E in B2; discriminate).
  destruct Hw as [Hw|(p & Lp & Hw)].
  - constructor; rewrite ?Hw, ?E2, ?E3, ?E4, ?B1, ?B2, ?B3, ?B4; try assumption; try reflexivity. intros s p E. elim (Ns s p E).
  - assert (Nth : forall q, nth_error (ring (wq t)) q = Some None -> nth_error (set (ring (wq t)) p None) q = Some None).
    { intros q A. destruct (Nat.eq_dec q p) as [->|Nq]; [apply nth_set_eq; exact Lp|rewrite nth_set_ne by assumption; exact A]. }
    constructor; rewrite ?Hw, ?E2, ?E3, ?E4, ?B1, ?B2, ?B3, ?B4; unfold put_ring; cbn [ring read_pos write_pos read_sem write_sem]; try assumption; try reflexivity.
    + rewrite set_len by exact Lp. assumption.
    + intros s q E. elim (Ns s q E).
    + intros q A B. apply Nth. auto.
    + intros q L. destruct (r_read_done0 q L) as [A|A]; [left; apply Nth; exact A|auto].
Qed.
Lemma pop_slot_some s x t b t' : pop_slot s x t = Some (Some (b, t')) ->
  (t' = t \/ exists p, p < length (ring (wq t)) /\ t' = with_wq (put_ring (wq t) p None) t).
Proof.
  unfold pop_slot. destruct (ring_pos x) as [p|]; [|discriminate]. destruct (nth_error (ring (wq t)) p) as [y|] eqn:Ep; [|discriminate]. cbv beta iota.
  destruct (match y with Some s' => Nat.eqb s' s | None => false end); intros [= <- <-]; [right; exists p; split; [exact (nth_lt _ _ _ Ep)|reflexivity]|auto].
Qed.
Lemma ring_main N checks t t' d c r : ring_inv N t d c r -> main_step N checks t = Some t' -> exists c' , ring_inv N t' d c' r.
Proof.
  intros R. unfold main_step. destruct (main_at t) as [|s|s|dd s|dd s p|dd s p|dd s|s w inf|s w|s w inf|s w ok|s w|s w w'|s w|s w|s w|s w|s w|s w|s w] eqn:Em;
    try (pose proof (r_main _ _ _ _ _ R) as X; rewrite Em in X; cbn [elsewhere] in X; destruct dd; [discriminate X|]; clear X); cbn [the_q with_q].
  - discriminate.
  - pose proof R as R0. destruct R. rewrite Em in *. cbn [trying claiming storing posting] in *. destruct (write_sem (wq t)) as [|n] eqn:Ews; [exfalso; lia|]. intros [= <-].
    exists c. constructor; projections; cbn [trying claiming storing posting elsewhere]; try assumption; try lia; try reflexivity. discriminate.
  - pose proof (r_main _ _ _ _ _ R) as X. rewrite Em in X. discriminate X.
  - destruct R. rewrite Em in *. cbn [trying claiming storing posting] in *. intros [= <-]. assert (Lc : c < N) by lia. assert (Wp : write_pos (wq t) = c) by (rewrite r_write0; apply Nat.mod_small; exact Lc).
    exists (c + 1). constructor; projections; cbn [trying claiming storing posting elsewhere]; try assumption; try lia; try reflexivity.
    + rewrite Wp. reflexivity.
    + intros s' p' [= _ <-]. lia.
    + intros p' A B. apply r_free0; lia.
  - destruct R. rewrite Em in *. cbn [trying claiming storing posting] in *. specialize (r_store0 s p eq_refl). rewrite (r_free0 p) by lia. cbv beta iota. intros [= <-]. assert (Lp : p < length (ring (wq t))) by (rewrite r_len0; lia).
    exists c. constructor; projections; cbn [trying claiming storing posting elsewhere]; try assumption; try lia; try reflexivity.
    + rewrite set_len by exact Lp. assumption.
    + intros s' p' E. discriminate.
    + intros q A B. rewrite nth_set_ne by (try exact Lp; lia). apply r_free0; lia.
    + intros q L. rewrite nth_set_ne by (try exact Lp; lia). exact (r_read_done0 q L).
  - destruct (nth_error (slots t) s) as [x|]; [|discriminate]. cbv beta iota. intros [= <-]. destruct R. rewrite Em in *. cbn [trying claiming storing posting] in *.
    exists c. constructor; projections; cbn [trying claiming storing posting elsewhere]; try assumption; try lia; try reflexivity; discriminate.
  - destruct (nth_error (slots t) s) as [x|]; [|discriminate]. cbv beta iota. destruct (work x) as [w|]; [|discriminate]. cbv beta iota. intros [= <-]. destruct R. rewrite Em in *. cbn [trying claiming storing posting] in *.
    assert (L : Nat.ltb (read_sem (wq t)) N = true) by (apply Nat.ltb_lt; lia). rewrite L.
    exists c. constructor; projections; cbn [trying claiming storing posting elsewhere]; try assumption; try lia; try reflexivity; discriminate.
  - intros H. exists c. repeat match goal with H : context [match ?e with _ => _ end] |- _ => destruct e; cbv beta iota in H; try discriminate H end; injection H as <-;
      apply (ring_quiet N t); try assumption; rewrite ?Em; try reflexivity; left; reflexivity.
  - intros H. exists c. destruct (nth_error (slots t) s) as [x|]; [|discriminate]. cbv beta iota in H. destruct (pop_slot s x t) as [[[b t1]|]|] eqn:Ep; cbv beta iota in H; [| |discriminate].
    + apply pop_slot_some in Ep. destruct b; injection H as <-; (destruct Ep as [->|(p & Lp & ->)]; apply (ring_quiet N t); try assumption; rewrite ?Em; try reflexivity; [left; reflexivity|right; exists p; auto]).
    + injection H as <-. destruct R. constructor; assumption.
  - intros H. exists c. repeat match goal with H : context [match ?e with _ => _ end] |- _ => destruct e; cbv beta iota in H; try discriminate H end; injection H as <-;
      apply (ring_quiet N t); try assumption; rewrite ?Em; try reflexivity; left; reflexivity.
  - intros H. exists c. repeat match goal with H : context [match ?e with _ => _ end] |- _ => destruct e; cbv beta iota in H; try discriminate H end; injection H as <-;
      apply (ring_quiet N t); try assumption; rewrite ?Em; try reflexivity; left; reflexivity.
  - intros H. exists c. destruct (nth_error (slots t) s) as [x|]; [|discriminate]. cbv beta iota in H. destruct (work x); injection H as <-.
    + apply (ring_quiet N t); try assumption; rewrite ?Em; try reflexivity; left; reflexivity.
    + destruct R. constructor; assumption.
  - intros H. exists c. injection H as <-. apply (ring_quiet N t); try assumption; rewrite ?Em; try reflexivity; left; reflexivity.
  - intros H. exists c. repeat match goal with H : context [match ?e with _ => _ end] |- _ => destruct e; cbv beta iota in H; try discriminate H end; injection H as <-;
      apply (ring_quiet N t); try assumption; rewrite ?Em; try reflexivity; left; reflexivity.
  - intros H. exists c. repeat match goal with H : context [match ?e with _ => _ end] |- _ => destruct e; cbv beta iota in H; try discriminate H end; injection H as <-;
      apply (ring_quiet N t); try assumption; rewrite ?Em; try reflexivity; left; reflexivity.
  - intros H. exists c. repeat match goal with H : context [match ?e with _ => _ end] |- _ => destruct e; cbv beta iota in H; try discriminate H end; injection H as <-;
      apply (ring_quiet N t); try assumption; rewrite ?Em; try reflexivity; left; reflexivity.
  - intros H. exists c. destruct (nth_error (slots t) s) as [x|]; [|discriminate]. cbv beta iota in H. destruct (pop_slot s x t) as [[[b t1]|]|] eqn:Ep; cbv beta iota in H; [| |discriminate].
    + apply pop_slot_some in Ep. destruct b; injection H as <-; (destruct Ep as [->|(p & Lp & ->)]; apply (ring_quiet N t); try assumption; rewrite ?Em; try reflexivity; [left; reflexivity|right; exists p; auto]).
    + injection H as <-. destruct R. constructor; assumption.
  - intros H. exists c. repeat match goal with H : context [match ?e with _ => _ end] |- _ => destruct e; cbv beta iota in H; try discriminate H end; injection H as <-;
      apply (ring_quiet N t); try assumption; rewrite ?Em; try reflexivity; left; reflexivity.
  - intros H. exists c. repeat match goal with H : context [match ?e with _ => _ end] |- _ => destruct e; cbv beta iota in H; try discriminate H end; injection H as <-;
      apply (ring_quiet N t); try assumption; rewrite ?Em; try reflexivity; left; reflexivity.
  - intros H. exists c. destruct (nth_error (slots t) s) as [x|]; [|discriminate]. cbv beta iota in H.
    destruct (checks && negb (signaled x) && match ring_pos x with Some _ => true | None => false end); injection H as <-.
    + destruct R. constructor; assumption.
    + apply (ring_quiet N t); try assumption; rewrite ?Em; try reflexivity; left; reflexivity.
Qed.
Lemma ring_exec N C checks l t t' d c r :
  ring_inv N t d c r -> timed l = false -> d + (if dispatches l then 1 else 0) <= N -> exec N C checks l t = Some t' ->
  exists c' r', ring_inv N t' (d + (if dispatches l then 1 else 0)) c' r'.
Proof.
  intros R Ht Hd. unfold exec. destruct (fault t); [discriminate|].
  assert (More : forall n, d + n <= N -> main_at t = M_ready -> forall t1, wq t1 = wq t -> dq t1 = dq t -> arr t1 = arr t -> workers t1 = workers t ->
     (main_at t1 = M_ready \/ (exists s, main_at t1 = M_try s /\ n = 1) \/ (exists s w, main_at t1 = M_wait s w true \/ main_at t1 = M_free s w)) -> exists c' r', ring_inv N t1 (d + n) c' r').
  { intros n Ln Em t1 E1 E2 E3 E4 Hm. exists c, r. destruct R. rewrite Em in *. cbn [trying claiming storing posting] in *.
    constructor; rewrite ?E1, ?E2, ?E3, ?E4; try assumption;
      (destruct Hm as [->|[(s & -> & ->)|(s & w & [-> | ->])]]; cbn [trying claiming storing posting elsewhere]; try assumption; try lia; try reflexivity; try discriminate). }
  destruct l as [deferred|s|s|s|s| | |k|]; try discriminate Ht; cbn [dispatches] in *.
  - destruct (main_at t) eqn:Em; try discriminate. rewrite allocate_eq. unfold alloc_in.
    set (t0 := match first_block 0 (counts t) with Some _ => t | None => extended C t end).
    assert (H0 : wq t0 = wq t /\ dq t0 = dq t /\ arr t0 = arr t /\ workers t0 = workers t /\ main_at t0 = M_ready) by (unfold t0; destruct (first_block 0 (counts t)); auto).
    clearbody t0. destruct H0 as (F1 & F2 & F3 & F4 & F5).
    destruct (first_block 0 (counts t0)) as [i|]; [|discriminate]. cbv beta iota. destruct (first_true _ _) as [s|]; [|discriminate]. cbv beta iota.
    destruct (nth_error (slots t0) s); [|discriminate]. cbv beta iota. destruct (nth_error (counts t0) i); [|discriminate]. cbv beta iota. intros [= <-].
    apply More; auto; destruct deferred; try assumption. + left. exact F5. + right. left. exists s. auto.
  - destruct (main_at t) eqn:Em; try discriminate. destruct (in_use t s) as [[x w]|]; intros [= <-].
    + apply More; auto; unfold begin_dispatch; destruct (ring_pos x); auto. right. left. exists s. auto.
    + apply More; auto.
  - destruct (main_at t) eqn:Em; try discriminate. destruct (in_use t s) as [[x w]|]; intros [= <-]; apply More; auto. right. right. exists s, w. auto.
  - destruct (main_at t) eqn:Em; try discriminate. destruct (in_use t s) as [[x w]|]; intros [= <-]; apply More; auto. right. right. exists s, w. auto.
  - intros H. rewrite Nat.add_0_r. destruct (ring_main N checks t t' d c r R H) as [c' R']. eauto.
  - intros H. rewrite Nat.add_0_r. destruct (ring_worker N k t t' d c r R H) as [r' R']. eauto.
  - intros H. elim (ring_dispatcher N t t' d c r R H).
Qed.
Lemma filter_snoc {A} (f : A -> bool) l x : length (filter f (l ++ [x])) = length (filter f l) + (if f x then 1 else 0).
Proof. rewrite filter_app, app_length. cbn [filter]. destruct (f x); reflexivity. Qed.
Lemma careful_ring N C checks n ls t : careful N C checks (initial N C n) ls t -> length (filter dispatches ls) <= N ->
  exists c r, ring_inv N t (length (filter dispatches ls)) c r.
Proof.
  intros H. remember (initial N C n) as t0 eqn:E0. induction H as [t|t ls t1 l t2 H IH Ht Hp He]; intros L.
  - subst t. exists 0, 0. apply ring_initial.
  - rewrite filter_snoc in *. destruct (IH E0) as (c & r & R); [lia|]. exact (ring_exec N C checks l t1 t2 _ c r R Ht L He).
Qed.
