(** Programs that make the calls they may make do not fail. *)
From Coq Require Import Arith Bool List Lia.
From Verif Require Import Base AsModel AsSpec AsProofs AsSteps AsWorker AsMain AsCalls AsProgress AsRing AsQuiet.
Import ListNotations.

Lemma proper_careful N C checks t ls t' : proper N C checks t ls t' -> careful N C checks t ls t'.
Proof. intros H. induction H; [constructor|econstructor; eassumption]. Qed.
Definition wait_ok (t : state) : Prop := match main_at t with M_wait s _ _ | M_pop s _ => exists x p, nth_error (slots t) s = Some x /\ ring_pos x = Some p | _ => True end.
Lemma same_pos (l : list slot) s x y s' x' p : nth_error l s = Some x -> ring_pos y = ring_pos x -> nth_error l s' = Some x' -> ring_pos x' = Some p ->
  exists x1 p1, nth_error (set l s y) s' = Some x1 /\ ring_pos x1 = Some p1.
Proof.
  intros E Ey E' Ep. pose proof (nth_lt _ _ _ E) as L. destruct (Nat.eq_dec s' s) as [->|Ne].
  - exists y, p. rewrite nth_set_eq by exact L. split; [reflexivity|congruence].
  - exists x', p. rewrite nth_set_ne by assumption. auto.
Qed.
Lemma wait_ok_frame t t' : wait_ok t -> main_at t' = main_at t -> (slots t' = slots t \/ exists s x y, nth_error (slots t) s = Some x /\ ring_pos y = ring_pos x /\ slots t' = set (slots t) s y) -> wait_ok t'.
Proof.
  intros H Em Hs. unfold wait_ok in *. rewrite Em. destruct Hs as [->|(s & x & y & Ex & Ey & ->)]; [exact H|].
  destruct (main_at t); try exact I; destruct H as (x' & p & Ex' & Ep); eapply same_pos; eassumption.
Qed.
Lemma legal_step N C l t t' d c r :
  inv t -> ring_inv N t d c r -> fault t = false -> wait_ok t -> timed l = false -> legal t l -> exec N C false l t = Some t' -> fault t' = false /\ wait_ok t'.
Proof.
  intros I R Ef Wo Tl Lg. unfold exec. rewrite Ef. destruct l as [deferred|s|s|s|s| | |k|]; try discriminate Tl.
  - destruct (main_at t) eqn:Em; try discriminate. rewrite allocate_eq. unfold alloc_in.
    set (t0 := match first_block 0 (counts t) with Some _ => t | None => extended C t end).
    assert (H0 : fault t0 = fault t /\ main_at t0 = main_at t) by (unfold t0; destruct (first_block 0 (counts t)); auto). clearbody t0. destruct H0 as [H0 H1].
    destruct (first_block 0 (counts t0)) as [i|]; [|discriminate]. cbv beta iota.
    destruct (first_true (i * C) (firstn C (skipn (i * C) (avail t0)))) as [s'|]; [|discriminate]. cbv beta iota.
    destruct (nth_error (slots t0) s') as [x|]; [|discriminate]. cbv beta iota.
    destruct (nth_error (counts t0) i) as [cc|]; [|discriminate]. cbv beta iota.
    destruct deferred; intros [= <-]; unfold wait_ok; projections; cbn [taken fault main_at with_main]; rewrite ?H0, ?H1, ?Ef, ?Em; auto.
  - destruct (main_at t) eqn:Em; try discriminate. destruct Lg as (x & w & Ex & Ew). unfold in_use. rewrite Ex. cbv beta iota. rewrite Ew. cbv beta iota. intros [= <-].
    unfold begin_dispatch, wait_ok. destruct (ring_pos x); projections; rewrite ?Em; auto.
  - destruct (main_at t) eqn:Em; try discriminate. destruct Lg as (x & w & Ex & Ew & Hd). unfold in_use. rewrite Ex. cbv beta iota. rewrite Ew. cbv beta iota. intros [= <-].
    unfold wait_ok. projections. split; [exact Ef|]. exists x. pose proof (i_slot t I s) as V. unfold slot_inv in V. rewrite Ex, Ew, Ef in V. destruct V as [_ V]. cbn [flag] in V. apply hD_in in Hd.
    assert (P : hp x > 0) by (unfold used in V; lia). destruct (ring_pos x) as [p|] eqn:E; [eauto|]. unfold hp in P. rewrite E in P. lia.
  - destruct (main_at t) eqn:Em; try discriminate. destruct Lg as (x & w & Ex & Ew). unfold in_use. rewrite Ex. cbv beta iota. rewrite Ew. cbv beta iota. intros [= <-]. unfold wait_ok. projections. auto.
  - unfold main_step. pose proof (i_main t I) as M. unfold main_inv in M.
    destruct (main_at t) as [|s|s|dd s|dd s p|dd s p|dd s|s w inf|s w|s w inf|s w ok|s w|s w w'|s w|s w|s w|s w|s w|s w|s w] eqn:Em; intros H; try discriminate H;
      try (destruct dd; cbn [the_q with_q] in H);
      try (repeat match type of H with context [match ?e with _ => _ end] => destruct e eqn:?; cbv beta iota in H; try discriminate H end; injection H as <-; unfold wait_ok; projections; auto; fail).
    + destruct M as (_ & x & Ex & Ew). unfold wait_ok in Wo. rewrite Em in Wo. rewrite Ex in H. cbv beta iota in H. destruct (signaled x); [|destruct inf]; injection H as <-; unfold wait_ok; projections; auto.
    + unfold wait_ok in Wo. rewrite Em in Wo. destruct Wo as (x & p & Ex & Ep). rewrite Ex in H. cbv beta iota in H. unfold pop_slot in H. rewrite Ep in H.
      destruct (nth_error (ring (wq t)) p) as [y|]; [|discriminate]. cbv beta iota in H. destruct (match y with Some s' => Nat.eqb s' s | None => false end); cbv beta iota in H; injection H as <-; unfold wait_ok; projections; auto.
    + destruct M as (x & Ex & Ew). rewrite Ex in H. cbv beta iota in H. rewrite Ew in H. injection H as <-. unfold wait_ok. projections. auto.
    + destruct M as (x & Ex & Ew & Px). rewrite Ex in H. cbv beta iota in H. unfold pop_slot in H. unfold hp in Px. destruct (ring_pos x) as [p|]; [|lia].
      destruct (nth_error (ring (wq t)) p) as [y|]; [|discriminate]. cbv beta iota in H. destruct (match y with Some s' => Nat.eqb s' s | None => false end); cbv beta iota in H; injection H as <-; unfold wait_ok; projections; auto.
  - unfold worker_step. destruct (nth_error (workers t) k) as [w0|] eqn:Ek; [|discriminate]. cbv beta iota. intros H. destruct w0 as [| |p|o|s|s w|s w|s w].
    + destruct (read_sem (wq t)) as [|n]; [discriminate|]. injection H as <-. split; [exact Ef|]. apply (wait_ok_frame t); auto.
    + injection H as <-. split; [exact Ef|]. apply (wait_ok_frame t); auto.
    + destruct (nth_error (ring (wq t)) p); [|discriminate]. injection H as <-. split; [exact Ef|]. apply (wait_ok_frame t); auto.
    + injection H as <-. split; [exact Ef|]. apply (wait_ok_frame t); auto.
    + destruct (nth_error (slots t) s) as [x|] eqn:Ex; [|discriminate]. cbv beta iota in H. destruct (work x) as [w|] eqn:Ew.
      * injection H as <-. split; [exact Ef|]. apply (wait_ok_frame t); auto.
      * exfalso. pose proof (tot_ge (w_new s) _ _ _ Ek) as G. cbn [w_new] in G. rewrite same_refl in G.
        pose proof (i_slot t I s) as V. unfold slot_inv in V. rewrite Ex, Ew in V. unfold unused, c_new in V. destruct V as [_ V]. lia.
    + injection H as <-. split; [exact Ef|]. apply (wait_ok_frame t); auto.
    + destruct (nth_error (slots t) s) as [x|] eqn:Ex; [|discriminate]. injection H as <-. split; [exact Ef|]. apply (wait_ok_frame t); [assumption|reflexivity|]. right. exists s, x, (set_signaled x). auto.
    + destruct (nth_error (slots t) s) as [x|] eqn:Ex; [|discriminate]. injection H as <-. split; [exact Ef|]. apply (wait_ok_frame t); [assumption|reflexivity|]. right. exists s, x, (set_event x). auto.
  - unfold dispatcher_step. rewrite (r_dq _ _ _ _ _ R), (r_arr _ _ _ _ _ R). destruct (negb (dispatcher t)); discriminate.
Qed.
Theorem proper_no_fault N C n ls t : proper N C false (initial N C n) ls t -> length (filter dispatches ls) <= N -> fault t = false.
Proof.
  intros H. enough (A : length (filter dispatches ls) <= N -> fault t = false /\ wait_ok t) by (intros L; exact (proj1 (A L))).
  remember (initial N C n) as t0 eqn:E0. induction H as [t|t ls t1 l t2 H IH Ht Hp Hl He]; intros L; [subst; split; [reflexivity|exact I]|].
  rewrite filter_app, app_length in L. destruct (IH E0) as [Ef Wo]; [lia|]. apply proper_careful in H. subst t.
  destruct (careful_ring N C false n ls t1 H) as (c & r & R); [lia|]. eapply legal_step; try eassumption. exact (careful_inv _ _ _ _ _ _ H).
Qed.
