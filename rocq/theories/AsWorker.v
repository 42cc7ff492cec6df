(** The steps of workers and of the dispatch thread keep the invariant. *)
From Coq Require Import Arith Bool List Lia.
From Verif Require Import Base AsModel AsSpec AsProofs AsSteps.
Import ListNotations.

Ltac projections := cbn [slots avail counts wq dq arr dispatcher main_at workers log next_work fault with_main with_worker with_wq with_dq with_slot logged failed put_ring ring read_pos write_pos read_sem write_sem work ring_pos signaled evt set_signaled set_event] in *.
Ltac each := unfold used in *; repeat match goal with H : _ /\ _ |- _ => destruct H end; repeat match goal with |- _ /\ _ => split end; first [assumption | lia].

Lemma running_other t k s w s' w' : (forall k s w, nth_error (workers t) k = Some (W_running s w) -> exists x, nth_error (slots t) s = Some x /\ work x = Some w) ->
  nth_error (workers t) k = Some (W_running s w) -> s = s' -> (exists x, nth_error (slots t) s' = Some x /\ work x = Some w') -> w = w'.
Proof. intros H Hk -> (x & Hx & Wx). destruct (H _ _ _ Hk) as (y & Hy & Wy). congruence. Qed.

(** A worker's step that concerns one slot, in use *)
Lemma worker_slot t t' k w0 w1 s x x' w :
  inv t -> nth_error (workers t) k = Some w0 -> workers t' = set (workers t) k w1 ->
  main_at t' = main_at t -> avail t' = avail t -> next_work t' = next_work t -> wq t' = wq t -> dq t' = dq t -> arr t' = arr t -> fault t' = fault t ->
  nth_error (slots t) s = Some x -> work x = Some w -> nth_error (slots t') s = Some x' -> slots t' = set (slots t) s x' \/ slots t' = slots t ->
  work x' = work x -> hp x' = hp x -> (evt x = true -> evt x' = true) ->
  log t' = log t \/ (exists e, log t' = log t ++ [e] /\ event_ok (log t) e /\ (e = Started w \/ e = Finished w)) ->
  (forall s', s' <> s -> w_in s' w0 = 0 /\ w_out s' w0 = 0 /\ w_late s' w0 = 0 /\ w_new s' w0 = 0 /\ w_in s' w1 = 0 /\ w_out s' w1 = 0 /\ w_late s' w1 = 0 /\ w_new s' w1 = 0) ->
  w_new s w1 + w_in s w1 + w_out s w1 <= w_new s w0 + w_in s w0 + w_out s w0 ->
  (forall w', w1 = W_running s w' -> w' = w) -> (forall s' w', w1 = W_running s' w' -> s' = s) ->
  slot_inv t' s -> inv t'.
Proof.
  intros I Ek E1 E2 E3 E4 E5 E6 E7 E8 Ex Ew Ex' Es Wx Px Vx Lg Hw Hsum Hr Hr' V.
  pose proof (nth_lt _ _ _ Ek) as Lk. pose proof (nth_lt _ _ _ Ex) as Ls.
  assert (Lw : w < next_work t). { pose proof (i_slot t I s) as Q. unfold slot_inv in Q. rewrite Ex, Ew in Q. tauto. }
  assert (Hc : forall s', _) by (intros s'; exact (counts_worker t t' k w0 w1 s' Ek E1 E2)).
  assert (Hq : forall s', in_queues t' s' = in_queues t s') by (intros; unfold in_queues; rewrite E5, E6, E7; reflexivity).
  assert (Hs : forall s', s' <> s -> nth_error (slots t') s' = nth_error (slots t) s').
  { intros s' Ne. destruct Es as [->| ->]; [apply nth_set_ne; assumption|reflexivity]. }
  apply (inv_same t t' I).
  - destruct Es as [Es|Es]; [exact (keeps_slot t t' s x x' Ex Es Wx E3 E4)|apply keeps_refl; assumption].
  - destruct Lg as [L|(e & L & He & [-> | ->])]; [left; exact L|right; eexists; repeat split; [exact L|try exact He..|exact Lw]; try apply He..].
  - intros s'. destruct (Nat.eq_dec s' s) as [->|Ne]; [exact V|]. destruct (Hc s') as (Q1 & Q2 & Q3 & Q4). rewrite Hq in Q4. specialize (Hw s' Ne).
    assert (Fa : fault t' = false -> fault t = false) by (rewrite E8; auto). assert (Av : av t' s' = av t s') by (unfold av; rewrite E3; reflexivity).
    assert (Le : exists le, log t' = log t ++ le) by (destruct Lg as [L|(e & L & _)]; [exists []; rewrite app_nil_r; exact L|exists [e]; exact L]).
    apply (slot_frame t t' s' Le (Hs s' Ne) Av); try (rewrite E2; reflexivity); try exact Fa; try lia; [|exact (i_slot t I s')].
    intros y v Hy Wy. destruct Lg as [->|(e & -> & _ & He)]; [repeat split; reflexivity|]. apply log_other. intros A.
    apply Ne. apply (i_inj t I s' s y x w); try assumption. destruct He as [-> | ->]; cbn [about] in A; congruence.
  - apply (main_other t t' E2); [| | | | |exact (i_main t I)].
    + intros s' y Hy. destruct (Nat.eq_dec s' s) as [->|Ne].
      * exists x'. repeat split; [exact Ex'|congruence|congruence|]. assert (y = x) by congruence. subst y. exact Vx.
      * rewrite (Hs s' Ne). exists y. auto.
    + intros s'. destruct (Hc s') as (Q1 & Q2 & Q3 & Q4). rewrite Hq in Q4. destruct (Nat.eq_dec s' s) as [->|Ne]; [lia|]. specialize (Hw s' Ne). lia.
    + intros v. destruct Lg as [->|(e & -> & _ & [-> | ->])]; [reflexivity|..]; unfold hD; rewrite h_snoc; lia.
    + intros v. destruct Lg as [->|(e & -> & _ & [-> | ->])]; [lia|..]; unfold hF; rewrite h_snoc; lia.
    + intros v. destruct Lg as [->|(e & -> & _ & [-> | ->])]; [lia|..]; unfold hW; rewrite h_snoc; lia.
  - intros k' s' w' H. rewrite E1 in H. destruct (Nat.eq_dec k' k) as [->|Nk].
    + rewrite nth_set_eq in H by exact Lk. assert (Q : w1 = W_running s' w') by congruence. pose proof (Hr' _ _ Q) as A. subst s'. rewrite (Hr _ Q). exists x'. split; [exact Ex'|congruence].
    + rewrite nth_set_ne in H by assumption. destruct (i_running t I _ _ _ H) as (y & Hy & Wy). destruct (Nat.eq_dec s' s) as [->|Ne].
      * exists x'. split; [exact Ex'|congruence].
      * rewrite (Hs s' Ne). eauto.
Qed.

Lemma worker_keeps N k t t' : inv t -> worker_step N k t = Some t' -> inv t'.
Proof.
  intros I. unfold worker_step. destruct (nth_error (workers t) k) as [w0|] eqn:Ek; [|discriminate]. cbv beta iota.
  pose proof (nth_lt _ _ _ Ek) as Lk.
  assert (Move : forall w1 q, (forall s, w_in s w0 = w_in s w1 /\ w_out s w0 = w_out s w1 /\ w_late s w0 = w_late s w1) ->
      (forall s, w_new s w0 + tot (cell s) (ring (wq t)) = w_new s w1 + tot (cell s) (ring q)) ->
      (forall s w, w1 <> W_running s w) -> inv (with_worker k w1 (with_wq q t))).
  { intros w1 q H1 H2 H3. apply (inv_moves t); try reflexivity; [exact I|auto| |].
    - intros s. destruct (counts_worker t (with_worker k w1 (with_wq q t)) k w0 w1 s Ek eq_refl eq_refl) as (Q1 & Q2 & Q3 & Q4).
      specialize (H1 s). specialize (H2 s). unfold in_queues in Q4. projections. lia.
    - intros k' s w H. apply (running_set _ _ _ _ _ _ Lk H (H3 s w)). }
  destruct w0 as [| |p|o|s|s w|s w|s w].
  - destruct (read_sem (wq t)) as [|n]; [discriminate|]. intros [= <-]. apply Move; intros; cbn; try tauto; discriminate.
  - intros [= <-]. apply Move; intros; cbn; try tauto; discriminate.
  - destruct (nth_error (ring (wq t)) p) as [o|] eqn:Ep; [|discriminate]. cbv beta iota. intros [= <-].
    apply Move; intros; try (cbn; tauto); try discriminate. unfold put_ring. cbn [ring]. pose proof (tot_set (cell s) _ _ None _ Ep) as Q.
    cbn [cell w_new] in *. destruct o as [s'|]; cbn [cell] in *; lia.
  - intros [= <-]. apply Move; intros; destruct o; cbn; try tauto; discriminate.
  - destruct (nth_error (slots t) s) as [x|] eqn:Ex; [|discriminate]. cbv beta iota. destruct (work x) as [w|] eqn:Ew; intros [= <-].
    + set (t1 := logged (Started w) (with_worker k (W_running s w) t)).
      assert (Ge : c_new t s > 0). { unfold c_new. pose proof (tot_ge (w_new s) _ _ _ Ek) as G. cbn [w_new] in G. rewrite same_refl in G. lia. }
      pose proof (i_slot t I s) as V. unfold slot_inv in V. rewrite Ex, Ew in V. destruct V as [Lw V].
      assert (NW : hW (log t) w = 0).
      { destruct (Nat.eq_dec (hW (log t) w) 0) as [E|E]; [exact E|]. exfalso. assert (Re : resetting s (main_at t) > 0) by (unfold used in V; lia).
        pose proof (i_main t I) as M. unfold main_inv in M. destruct (main_at t); cbn [resetting] in Re; try lia. apply same_pos in Re as <-.
        destruct M as (_ & _ & _ & M & _). lia. }
      assert (Z : hS (log t) w = 0 /\ hX (log t) w = 0) by (unfold used in V; lia). destruct Z as [Z1 Z2].
      apply (worker_slot t t1 k (W_run s) (W_running s w) s x x w); try reflexivity; auto.
      * right. eexists. split; [reflexivity|]. split; [|left; reflexivity]. cbn [event_ok]. rewrite <- hS_in, <- hW_in, <- hX_in. lia.
      * intros s' Ne. cbn [w_in w_out w_late w_new]. rewrite (same_ne _ _ Ne). repeat split; reflexivity.
      * cbn [w_in w_out w_late w_new]. lia.
      * intros w' E. congruence.
      * intros s' w' E. congruence.
      * destruct (counts_worker t t1 k (W_run s) (W_running s w) s Ek eq_refl eq_refl) as (Q1 & Q2 & Q3 & Q4).
        change (in_queues t1 s) with (in_queues t s) in Q4. cbn [w_in w_out w_late w_new] in *. rewrite same_refl in *.
        unfold slot_inv. change (slots t1) with (slots t). rewrite Ex, Ew. split; [exact Lw|]. change (log t1) with (log t ++ [Started w]). unfold hD, hS, hF, hW, hX in *. rewrite !h_snoc, same_refl.
        change (av t1 s) with (av t s). change (main_at t1) with (main_at t). change (fault t1) with (fault t). each.
    + apply (inv_moves t); try reflexivity; [exact I|intros [=]|auto|eauto].
  - intros [= <-]. set (t1 := logged (Finished w) (with_worker k (W_ran s w) t)).
    destruct (i_running t I _ _ _ Ek) as (x & Ex & Ew).
    assert (Ge : c_in t s > 0). { unfold c_in. pose proof (tot_ge (w_in s) _ _ _ Ek) as G. cbn [w_in] in G. rewrite same_refl in G. lia. }
    pose proof (i_slot t I s) as V. unfold slot_inv in V. rewrite Ex, Ew in V. destruct V as [Lw V].
    assert (Z : hS (log t) w > 0 /\ hF (log t) w = 0 /\ hX (log t) w = 0) by (unfold used in V; lia). destruct Z as (Z1 & Z2 & Z3).
    apply (worker_slot t t1 k (W_running s w) (W_ran s w) s x x w); try reflexivity; auto.
    + right. eexists. split; [reflexivity|]. split; [|right; reflexivity]. cbn [event_ok]. rewrite <- hS_in, <- hF_in, <- hX_in. lia.
    + intros s' Ne. cbn [w_in w_out w_late w_new]. rewrite (same_ne _ _ Ne). repeat split; reflexivity.
    + cbn [w_in w_out w_late w_new]. lia.
    + intros w' E. discriminate.
    + intros s' w' E. discriminate.
    + destruct (counts_worker t t1 k (W_running s w) (W_ran s w) s Ek eq_refl eq_refl) as (Q1 & Q2 & Q3 & Q4).
      change (in_queues t1 s) with (in_queues t s) in Q4. cbn [w_in w_out w_late w_new] in *. rewrite same_refl in *.
      unfold slot_inv. change (slots t1) with (slots t). rewrite Ex, Ew. split; [exact Lw|]. change (log t1) with (log t ++ [Finished w]). unfold hD, hS, hF, hW, hX in *. rewrite !h_snoc, same_refl.
      change (av t1 s) with (av t s). change (main_at t1) with (main_at t). change (fault t1) with (fault t). each.
  - destruct (nth_error (slots t) s) as [x|] eqn:Ex; [|discriminate]. cbv beta iota. intros [= <-].
    set (t1 := with_worker k (W_set s w) (with_slot s (set_signaled x) t)).
    assert (Ge : c_out t s > 0). { unfold c_out. pose proof (tot_ge (w_out s) _ _ _ Ek) as G. cbn [w_out] in G. rewrite same_refl in G. lia. }
    pose proof (i_slot t I s) as V. unfold slot_inv in V. rewrite Ex in V. destruct (work x) as [v|] eqn:Ew; [|unfold unused in V; lia]. destruct V as [Lw V].
    pose proof (nth_lt _ _ _ Ex) as Ls. assert (Ex1 : nth_error (slots t1) s = Some (set_signaled x)) by (apply nth_set_eq; exact Ls).
    apply (worker_slot t t1 k (W_ran s w) (W_set s w) s x (set_signaled x) v); try reflexivity; auto.
    + intros s' Ne. cbn [w_in w_out w_late w_new]. rewrite (same_ne _ _ Ne). repeat split; reflexivity.
    + cbn [w_in w_out w_late w_new]. lia.
    + intros w' E. discriminate.
    + intros s' w' E. discriminate.
    + destruct (counts_worker t t1 k (W_ran s w) (W_set s w) s Ek eq_refl eq_refl) as (Q1 & Q2 & Q3 & Q4).
      change (in_queues t1 s) with (in_queues t s) in Q4. cbn [w_in w_out w_late w_new] in *. rewrite same_refl in *.
      unfold slot_inv. rewrite Ex1. cbn [work set_signaled signaled evt flag]. rewrite Ew. split; [exact Lw|]. change (log t1) with (log t). change (hp (set_signaled x)) with (hp x).
      change (av t1 s) with (av t s). change (main_at t1) with (main_at t). change (fault t1) with (fault t). each.
  - destruct (nth_error (slots t) s) as [x|] eqn:Ex; [|discriminate]. cbv beta iota. intros [= <-].
    set (t1 := with_worker k W_idle (with_slot s (set_event x) t)).
    pose proof (nth_lt _ _ _ Ex) as Ls. assert (Ex1 : nth_error (slots t1) s = Some (set_event x)) by (apply nth_set_eq; exact Ls).
    assert (Hc : forall s', _) by (intros s'; exact (counts_worker t t1 k (W_set s w) W_idle s' Ek eq_refl eq_refl)).
    assert (Ge : c_late t s > 0). { unfold c_late. pose proof (tot_ge (w_late s) _ _ _ Ek) as G. cbn [w_late] in G. rewrite same_refl in G. lia. }
    apply (inv_same t t1 I).
    + apply (keeps_slot t t1 s x (set_event x)); auto.
    + left. reflexivity.
    + intros s'. destruct (Hc s') as (Q1 & Q2 & Q3 & Q4). change (in_queues t1 s') with (in_queues t s') in Q4. cbn [w_in w_out w_late w_new] in *.
      destruct (Nat.eq_dec s' s) as [->|Ne].
      * rewrite same_refl in *. pose proof (i_slot t I s) as V. unfold slot_inv in V |- *. rewrite Ex1. rewrite Ex in V. cbn [work set_event signaled evt flag].
        change (av t1 s) with (av t s). change (main_at t1) with (main_at t). change (fault t1) with (fault t). change (log t1) with (log t). change (hp (set_event x)) with (hp x).
        destruct (work x) as [v|]; [|unfold unused in *; lia]. destruct V as [Lv V]. split; [exact Lv|]. each.
      * rewrite (same_ne _ _ Ne) in *. apply (slot_frame t t1); try reflexivity; try lia; [exists []; symmetry; apply app_nil_r|apply nth_set_ne; assumption|auto|auto|exact (i_slot t I s')].
    + apply (main_other t t1 eq_refl); try (intros; reflexivity || apply Nat.le_refl); [| |exact (i_main t I)].
      * intros s' y Hy. destruct (Nat.eq_dec s' s) as [->|Ne].
        -- exists (set_event x). assert (y = x) by congruence. subst y. auto.
        -- exists y. split; [|auto]. rewrite <- Hy. apply nth_set_ne; assumption.
      * intros s'. destruct (Hc s') as (Q1 & Q2 & Q3 & Q4). change (in_queues t1 s') with (in_queues t s') in Q4. cbn [w_in w_out w_late w_new] in *. lia.
    + intros k' s' w' H. apply running_set in H; [|exact Lk|discriminate]. destruct H as [k2 H]. destruct (i_running t I _ _ _ H) as (y & Hy & Wy). destruct (Nat.eq_dec s' s) as [->|Ne].
      * exists (set_event x). split; [exact Ex1|]. cbn [work set_event]. congruence.
      * exists y. split; [|exact Wy]. rewrite <- Hy. apply nth_set_ne; assumption.
Qed.

Lemma dispatcher_keeps N t t' : inv t -> dispatcher_step N t = Some t' -> inv t'.
Proof.
  intros I. unfold dispatcher_step. destruct (dispatcher t); [|discriminate]. cbn [negb].
  destruct (read_sem (dq t)) as [|n].
  - destruct (arr t) as [|a l] eqn:Ea; [discriminate|]. destruct (write_sem (wq t)) as [|m]; [discriminate|]. intros [= <-].
    apply (inv_moves t); try reflexivity; [exact I|auto|intros s; unfold c_new, c_in, c_out, c_late; projections; auto|eauto].
  - destruct (nth_error (ring (dq t)) (read_pos (dq t))) as [o|] eqn:Ep; [|discriminate]. cbv beta iota.
    assert (Q : forall s, tot (cell s) (set (ring (dq t)) (read_pos (dq t)) None) + cell s o = tot (cell s) (ring (dq t))).
    { intros s. rewrite (tot_set _ _ _ _ _ Ep). cbn [cell]. lia. }
    destruct o as [s|].
    + destruct (Nat.leb 16 (length (arr t) + 1)).
      * intros [= <-]. match goal with |- inv ?X => set (t1 := X) end.
        assert (C : forall s', c_new t1 s' + cell s' (Some s) = c_new t s').
        { intros s'. unfold t1, c_new. projections. specialize (Q s'). lia. }
        apply (inv_same t t1 I); [apply keeps_refl; reflexivity|left; reflexivity| |apply (main_other t t1 eq_refl); try (intros; reflexivity || apply Nat.le_refl); [eauto 6| |exact (i_main t I)]|exact (i_running t I)].
        -- intros s'. pose proof (i_slot t I s') as V. specialize (C s'). unfold slot_inv in *. change (slots t1) with (slots t).
           change (c_in t1 s') with (c_in t s'). change (c_out t1 s') with (c_out t s'). change (c_late t1 s') with (c_late t s'). change (av t1 s') with (av t s').
           change (main_at t1) with (main_at t). change (log t1) with (log t). change (next_work t1) with (next_work t). change (flag (fault t1)) with 1.
           destruct (nth_error (slots t) s') as [x|]; [|lia]. destruct (work x) as [w|]; [|unfold unused in *; lia]. destruct V as [Lw V]. split; [exact Lw|]. each.
        -- intros s'. specialize (C s'). change (c_in t1 s') with (c_in t s'). change (c_out t1 s') with (c_out t s'). lia.
      * intros [= <-]. apply (inv_moves t); try reflexivity; [exact I|auto| |eauto].
        intros s'. unfold c_new, c_in, c_out, c_late. projections. rewrite tot_app. cbn [tot fold_right]. specialize (Q s'). cbn [cell] in Q. repeat split; lia.
    + intros [= <-]. apply (inv_moves t); try reflexivity; [exact I|auto| |eauto].
      intros s'. unfold c_new, c_in, c_out, c_late. projections. specialize (Q s'). cbn [cell] in Q. repeat split; lia.
Qed.
