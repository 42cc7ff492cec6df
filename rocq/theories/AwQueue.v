(** The dispatch queue: one thread writes, one reads, so that a place waited for is empty. *)
From Coq Require Import Arith Bool List Lia.
From Verif Require Import Base AsModel AsSpec AsProofs AsSteps AsWorker AsMain AsCalls AsProgress AsRing.
Import ListNotations.

Definition d_claim (m : main) : nat := match m with M_claim true _ => 1 | _ => 0 end.
Definition d_store (m : main) : nat := match m with M_store true _ _ => 1 | _ => 0 end.
Definition d_post (m : main) : nat := match m with M_pos true _ _ | M_post true _ => 1 | _ => 0 end.
(** [r] places were read, [c] claimed for writing *)
Record dq_at (N : nat) (q : queue) (m : main) (r c : nat) : Prop := {
  d_len : length (ring q) = N; d_le : r + d_store m <= c;
  d_read : read_pos q = r mod N; d_write : write_pos q = c mod N;
  d_wsem : write_sem q + c + d_claim m = N + r;
  d_rsem : read_sem q + d_post m + d_store m + r = c;
  d_full : forall j, r <= j -> j + d_store m < c -> exists s, nth_error (ring q) (j mod N) = Some (Some s);
  d_empty : forall p, p < N -> (forall j, r <= j -> j + d_store m < c -> j mod N <> p) -> nth_error (ring q) p = Some None;
  d_at : forall s p, m = M_store true s p -> p = (c - 1) mod N
}.
Definition dq_inv (N : nat) (t : state) : Prop := exists r c, dq_at N (dq t) (main_at t) r c.
Lemma mod_ne N a b : a < b -> b < a + N -> a mod N <> b mod N.
Proof.
  intros L1 L2 E. assert (N <> 0) by lia. pose proof (Nat.div_mod a N H). pose proof (Nat.div_mod b N H). rewrite E in H0.
  assert (a / N < b / N \/ a / N >= b / N) as [|] by lia; nia.
Qed.
Lemma dq_initial N C n : dq_inv N (initial N C n).
Proof.
  exists 0, 0. constructor; unfold initial, new_queue; projections; cbn [d_store d_claim d_post] in *; try lia; try discriminate.
  - apply repeat_length.
  - destruct N as [|N']; [reflexivity|]. rewrite Nat.mod_0_l by lia. reflexivity.
  - destruct N as [|N']; [reflexivity|]. rewrite Nat.mod_0_l by lia. reflexivity.
  - intros p L _. destruct (nth_error (repeat None N) p) as [y|] eqn:E; [|apply nth_error_None in E; rewrite repeat_length in E; lia]. apply nth_error_In, repeat_spec in E. subst y. reflexivity.
Qed.
Lemma dq_same N t t' : dq_inv N t -> dq t' = dq t -> d_claim (main_at t') = d_claim (main_at t) -> d_store (main_at t') = d_store (main_at t) -> d_post (main_at t') = d_post (main_at t) ->
  (forall s p, main_at t' = M_store true s p -> main_at t = M_store true s p) -> dq_inv N t'.
Proof.
  intros (r & c & D) E1 E2 E3 E4 E5. exists r, c. destruct D. constructor; rewrite ?E1, ?E2, ?E3, ?E4; try assumption. intros s p H. exact (d_at0 s p (E5 s p H)).
Qed.
Ltac same_dq t := apply (dq_same _ t); [assumption|reflexivity|..]; projections; repeat match goal with E : main_at t = _ |- _ => rewrite E end; try reflexivity; try discriminate; auto.
(** in the dispatch queue the compare-and-swap always succeeds *)
Lemma dq_cas N t s p : dq_inv N t -> main_at t = M_store true s p -> nth_error (ring (dq t)) p = Some None.
Proof.
  intros (r & c & []) E. rewrite E in *. cbn [d_store d_claim d_post] in *. specialize (d_at0 s p eq_refl). subst p. apply d_empty0.
  - apply Nat.mod_upper_bound. lia.
  - intros j L1 L2. apply mod_ne; lia.
Qed.
Lemma dq_main N checks t t' : dq_inv N t -> main_step N checks t = Some t' -> dq_inv N t'.
Proof.
  intros D H. unfold main_step in H. pose proof (dq_cas N t) as Cas.
  destruct (main_at t) as [|s|s|dd s|dd s p|dd s p|dd s|s w inf|s w|s w inf|s w ok|s w|s w w'|s w|s w|s w|s w|s w|s w|s w] eqn:Em; try discriminate H; try (destruct dd; cbn [the_q with_q] in H);
    try (repeat match type of H with context [match ?e with _ => _ end] => lazymatch e with pop_slot _ _ _ => fail | _ => destruct e eqn:?; cbv beta iota in H; try discriminate H end end; injection H as <-; same_dq t; fail).
  - (* M_block *) destruct D as (r & c & D). destruct D. rewrite Em in *. cbn [d_store d_claim d_post] in *. destruct (write_sem (dq t)) as [|n] eqn:Ew; [discriminate|]. injection H as <-.
    exists r, c. constructor; projections; cbn [d_store d_claim d_post]; try assumption; try lia. discriminate.
  - (* claim *) destruct D as (r & c & D). destruct D. rewrite Em in *. cbn [d_store d_claim d_post] in *. injection H as <-.
    assert (HN : N <> 0) by lia.
    exists r, (c + 1). constructor; projections; cbn [d_store d_claim d_post]; try assumption; try lia.
    + rewrite d_write0. rewrite Nat.add_mod_idemp_l by exact HN. reflexivity.
    + intros j A B. apply d_full0; lia.
    + intros p A B. apply d_empty0; [exact A|]. intros j A1 A2. apply B; lia.
    + intros s' p' [= _ <-]. rewrite d_write0. f_equal. lia.
  - (* store *) specialize (Cas s p D eq_refl). rewrite Cas in H. cbv beta iota in H. injection H as <-.
    destruct D as (r & c & D). destruct D. rewrite Em in *. cbn [d_store d_claim d_post] in *. specialize (d_at0 s p eq_refl). pose proof (nth_lt _ _ _ Cas) as Lp.
    assert (HN : N <> 0) by lia.
    exists r, c. constructor; projections; cbn [d_store d_claim d_post]; try assumption; try lia.
    + rewrite set_len by exact Lp. assumption.
    + intros j A B. destruct (Nat.eq_dec (j mod N) p) as [->|Ne]; [exists s; apply nth_set_eq; exact Lp|]. rewrite nth_set_ne by assumption. apply d_full0; [exact A|].
      assert (j <> c - 1) by (intros ->; congruence). lia.
    + intros q A B. destruct (Nat.eq_dec q p) as [->|Ne]; [elim (B (c - 1)); [lia|lia|congruence]|]. rewrite nth_set_ne by assumption. apply d_empty0; [exact A|]. intros j A1 A2. apply B; lia.
    + discriminate.
  - (* post *) destruct (nth_error (slots t) s) as [x|]; [|discriminate]. cbv beta iota in H. destruct (work x) as [w|]; [|discriminate]. cbv beta iota in H. injection H as <-.
    destruct D as (r & c & D). destruct D. rewrite Em in *. cbn [d_store d_claim d_post] in *.
    assert (L : Nat.ltb (read_sem (dq t)) N = true) by (apply Nat.ltb_lt; lia). rewrite L.
    exists r, c. constructor; projections; cbn [d_store d_claim d_post]; try assumption; try lia. discriminate.
  - (* M_pop *) destruct (nth_error (slots t) s) as [x|]; [|discriminate]. cbv beta iota in H. destruct (pop_slot s x t) as [[[b t1]|]|] eqn:Ep; cbv beta iota in H; [| |discriminate].
    + apply pop_slot_some in Ep. destruct b; injection H as <-; (destruct Ep as [->|(p & Lp & ->)]; same_dq t).
    + injection H as <-. same_dq t.
  - (* M_fpop *) destruct (nth_error (slots t) s) as [x|]; [|discriminate]. cbv beta iota in H. destruct (pop_slot s x t) as [[[b t1]|]|] eqn:Ep; cbv beta iota in H; [| |discriminate].
    + apply pop_slot_some in Ep. destruct b; injection H as <-; (destruct Ep as [->|(p & Lp & ->)]; same_dq t).
    + injection H as <-. same_dq t.
Qed.
Lemma dq_worker N k t t' : dq_inv N t -> worker_step N k t = Some t' -> dq_inv N t'.
Proof.
  intros D H. unfold worker_step in H. repeat match type of H with context [match ?e with _ => _ end] => destruct e eqn:?; cbv beta iota in H; try discriminate H end; injection H as <-; same_dq t.
Qed.
Lemma dq_dispatcher N t t' : dq_inv N t -> dispatcher_step N t = Some t' -> dq_inv N t'.
Proof.
  intros D H. unfold dispatcher_step in H. destruct (negb (dispatcher t)); [discriminate|]. destruct (read_sem (dq t)) as [|n] eqn:Er.
  - repeat match type of H with context [match ?e with _ => _ end] => destruct e eqn:?; cbv beta iota in H; try discriminate H end; injection H as <-; same_dq t.
  - assert (G : forall t1, dq t1 = Queue (set (ring (dq t)) (read_pos (dq t)) None) ((read_pos (dq t) + 1) mod N) (write_pos (dq t)) n (if Nat.ltb (write_sem (dq t)) N then write_sem (dq t) + 1 else write_sem (dq t)) -> main_at t1 = main_at t -> dq_inv N t1).
    { intros t1 E1 E2. destruct D as (r & c & D). destruct D. exists (r + 1), c.
      assert (HN : N <> 0).
      { intros ->. lia. }
      assert (L : Nat.ltb (write_sem (dq t)) N = true) by (apply Nat.ltb_lt; lia). rewrite L in E1.
      assert (Lr : read_pos (dq t) < length (ring (dq t))) by (rewrite d_len0, d_read0; apply Nat.mod_upper_bound; exact HN).
      constructor; rewrite ?E1, ?E2; cbn [ring read_pos write_pos read_sem write_sem]; try assumption; try lia.
      - rewrite set_len by exact Lr. assumption.
      - rewrite d_read0. rewrite Nat.add_mod_idemp_l by exact HN. reflexivity.
      - intros j A B. rewrite nth_set_ne; [apply d_full0; lia|exact Lr|]. rewrite d_read0. intros E. symmetry in E. revert E. apply mod_ne; lia.
      - intros p A B. destruct (Nat.eq_dec p (read_pos (dq t))) as [->|Ne]; [apply nth_set_eq; exact Lr|]. rewrite nth_set_ne by assumption. apply d_empty0; [exact A|].
        intros j A1 A2 E. destruct (Nat.eq_dec j r) as [->|Nj]; [congruence|]. elim (B j); [lia|lia|exact E]. }
    destruct (nth_error (ring (dq t)) (read_pos (dq t))) as [y|]; [|discriminate]. cbv beta iota in H.
    destruct y as [s|]; [destruct (Nat.leb 16 (length (arr t) + 1))|]; injection H as <-; apply G; reflexivity.
Qed.
Lemma dq_exec N C checks l t t' : dq_inv N t -> exec N C checks l t = Some t' -> dq_inv N t'.
Proof.
  intros D. unfold exec. destruct (fault t); [discriminate|]. destruct l as [deferred|s|s|s|s| | |k|].
  - destruct (main_at t) eqn:Em; try discriminate. rewrite allocate_eq. unfold alloc_in.
    set (t0 := match first_block 0 (counts t) with Some _ => t | None => extended C t end).
    assert (H0 : dq t0 = dq t /\ main_at t0 = main_at t) by (unfold t0; destruct (first_block 0 (counts t)); auto). clearbody t0. destruct H0 as [H0 H1].
    destruct (first_block 0 (counts t0)) as [i|]; [|discriminate]. cbv beta iota.
    destruct (first_true (i * C) (firstn C (skipn (i * C) (avail t0)))) as [s'|]; [|discriminate]. cbv beta iota.
    destruct (nth_error (slots t0) s') as [x|]; [|discriminate]. cbv beta iota.
    destruct (nth_error (counts t0) i) as [cc|]; [|discriminate]. cbv beta iota.
    destruct deferred; intros [= <-]; apply (dq_same N t); try assumption; projections; cbn [taken dq main_at with_main]; rewrite ?H0, ?H1, ?Em; try reflexivity; discriminate.
  - destruct (main_at t) eqn:Em; try discriminate. destruct (in_use t s) as [[x w]|]; intros [= <-]; [unfold begin_dispatch; destruct (ring_pos x)|]; try assumption; same_dq t.
  - destruct (main_at t) eqn:Em; try discriminate. destruct (in_use t s) as [[x w]|]; intros [= <-]; same_dq t.
  - destruct (main_at t) eqn:Em; try discriminate. destruct (in_use t s) as [[x w]|]; intros [= <-]; same_dq t.
  - destruct (main_at t) eqn:Em; try discriminate. destruct (in_use t s) as [[x w]|]; intros [= <-]; same_dq t.
  - apply dq_main. exact D.
  - destruct (main_at t) as [| | | | | | | | |s w inf| | | | | | | | | |] eqn:Em; try discriminate. destruct inf; [discriminate|]. intros [= <-]. same_dq t.
  - apply dq_worker. exact D.
  - apply dq_dispatcher. exact D.
Qed.
Lemma careful_dq N C checks n ls t : careful N C checks (initial N C n) ls t -> dq_inv N t.
Proof.
  intros H. remember (initial N C n) as t0 eqn:E0. induction H as [t|t ls t1 l t2 H IH Tl Ps Ex]; [subst; apply dq_initial|]. eapply dq_exec; [apply IH; exact E0|exact Ex].
Qed.
