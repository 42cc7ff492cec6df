(** Every step of the thread pool in a careful schedule keeps the invariant. *)
From Coq Require Import Arith Bool List Lia ZifyBool ZifyNat.
From Verif Require Import Base AsModel AsSpec AsProofs.
Import ListNotations.

Lemma h_snoc (f : event -> nat) l e : tot f (l ++ [e]) = tot f l + f e.
Proof. rewrite tot_app. cbn [tot fold_right]. lia. Qed.
Lemma log_other l e w : about e <> w ->
  hD (l ++ [e]) w = hD l w /\ hS (l ++ [e]) w = hS l w /\ hF (l ++ [e]) w = hF l w /\ hW (l ++ [e]) w = hW l w /\ hX (l ++ [e]) w = hX l w.
Proof.
  intros H. unfold hD, hS, hF, hW, hX. rewrite !h_snoc.
  destruct e; cbn [about] in H; repeat split; rewrite ?same_ne by (intros E; apply H; symmetry; exact E); lia.
Qed.
Definition in_queues (t : state) (s : nat) : nat := tot (cell s) (ring (wq t)) + tot (cell s) (ring (dq t)) + tot (same s) (arr t).
Lemma counts_worker t t' k w w' s :
  nth_error (workers t) k = Some w -> workers t' = set (workers t) k w' -> main_at t' = main_at t ->
  c_in t' s + w_in s w = c_in t s + w_in s w' /\ c_out t' s + w_out s w = c_out t s + w_out s w' /\
  c_late t' s + w_late s w = c_late t s + w_late s w' /\
  c_new t' s + w_new s w + in_queues t s = c_new t s + w_new s w' + in_queues t' s.
Proof.
  intros Hk Ew Em. unfold c_in, c_out, c_late, c_new, in_queues. rewrite Ew, Em.
  pose proof (tot_set (w_in s) _ _ w' _ Hk). pose proof (tot_set (w_out s) _ _ w' _ Hk).
  pose proof (tot_set (w_late s) _ _ w' _ Hk). pose proof (tot_set (w_new s) _ _ w' _ Hk). lia.
Qed.
Lemma counts_main t t' s :
  workers t' = workers t ->
  c_in t' s + m_in s (main_at t) = c_in t s + m_in s (main_at t') /\ c_out t' s + m_out s (main_at t) = c_out t s + m_out s (main_at t') /\
  c_late t' s + m_late s (main_at t) = c_late t s + m_late s (main_at t') /\
  c_new t' s + m_new s (main_at t) + in_queues t s = c_new t s + m_new s (main_at t') + in_queues t' s.
Proof. intros Ew. unfold c_in, c_out, c_late, c_new, in_queues. rewrite Ew. lia. Qed.

(** What a step that issues and frees nothing has to keep *)
Definition keeps (t t' : state) : Prop :=
  (forall s x', nth_error (slots t') s = Some x' -> exists x, nth_error (slots t) s = Some x /\ work x' = work x) /\
  (forall s x, nth_error (slots t) s = Some x -> exists x', nth_error (slots t') s = Some x' /\ work x' = work x) /\
  length (slots t') = length (slots t) /\ avail t' = avail t /\ next_work t' = next_work t.
Definition log_step (t t' : state) : Prop :=
  log t' = log t \/ exists e, log t' = log t ++ [e] /\ event_ok (log t) e /\ about e < next_work t.
Lemma inv_same t t' :
  inv t -> keeps t t' -> log_step t t' ->
  (forall s, slot_inv t' s) -> main_inv t' ->
  (forall k s w, nth_error (workers t') k = Some (W_running s w) -> exists x, nth_error (slots t') s = Some x /\ work x = Some w) ->
  inv t'.
Proof.
  intros I (K1 & K2 & K3 & K4 & K5) L Hs Hm Hr. constructor; try assumption.
  - intros s s' x x' w H1 W1 H2 W2. destruct (K1 _ _ H1) as (y & Hy & Ey), (K1 _ _ H2) as (y' & Hy' & Ey').
    apply (i_inj t I s s' y y' w); congruence.
  - destruct L as [->|(e & -> & He & _)]; [exact (i_log t I)|apply history_snoc; [exact (i_log t I)|exact He]].
  - rewrite K5. intros e He. destruct L as [L|(e' & L & _ & Le)]; rewrite L in He; [exact (i_lt t I e He)|].
    apply in_app_or in He as [He|[<-|[]]]; [exact (i_lt t I e He)|exact Le].
  - rewrite K5. intros w Hw. destruct (i_all t I w Hw) as [(s & x & Hx & Wx)|F].
    + left. destruct (K2 _ _ Hx) as (x' & Hx' & E). exists s, x'. split; [exact Hx'|congruence].
    + right. destruct L as [->|(e & -> & _)]; [exact F|apply in_or_app; left; exact F].
  - rewrite K3, K4. exact (i_len t I).
Qed.
Lemma keeps_refl t t' : slots t' = slots t -> avail t' = avail t -> next_work t' = next_work t -> keeps t t'.
Proof. intros E1 E2 E3. unfold keeps. rewrite E1, E2, E3. repeat split; eauto. Qed.
Lemma keeps_slot t t' s x x' : nth_error (slots t) s = Some x -> slots t' = set (slots t) s x' -> work x' = work x -> avail t' = avail t -> next_work t' = next_work t -> keeps t t'.
Proof.
  intros Hx E Ew E2 E3. pose proof (nth_lt _ _ _ Hx) as L. unfold keeps. rewrite E, E2, E3. repeat split; [| |apply set_len; exact L].
  - intros s' y Hy. destruct (Nat.eq_dec s' s) as [->|Ne].
    + rewrite nth_set_eq in Hy by exact L. injection Hy as <-. eauto.
    + rewrite nth_set_ne in Hy by assumption. eauto.
  - intros s' y Hy. destruct (Nat.eq_dec s' s) as [->|Ne].
    + rewrite nth_set_eq by exact L. exists x'. split; [reflexivity|congruence].
    + rewrite nth_set_ne by assumption. eauto.
Qed.
(** The main thread's part when another thread takes a step *)
Lemma main_other t t' :
  main_at t' = main_at t ->
  (forall s x, nth_error (slots t) s = Some x -> exists x', nth_error (slots t') s = Some x' /\ work x' = work x /\ hp x' = hp x /\ (evt x = true -> evt x' = true)) ->
  (forall s, c_new t' s + c_in t' s + c_out t' s <= c_new t s + c_in t s + c_out t s) ->
  (forall w, hD (log t') w = hD (log t) w) -> (forall w, hF (log t) w <= hF (log t') w) -> (forall w, hW (log t) w <= hW (log t') w) ->
  main_inv t -> main_inv t'.
Proof.
  intros Em Hs Hc HD HF HW. unfold main_inv. rewrite Em.
  assert (K : forall s w, (exists x, nth_error (slots t) s = Some x /\ work x = Some w) -> exists x, nth_error (slots t') s = Some x /\ work x = Some w)
    by (intros s w (x & Hx & Wx); destruct (Hs _ _ Hx) as (x' & Hx' & E & _); exists x'; split; [exact Hx'|congruence]).
  assert (K2 : forall s, (exists x w, nth_error (slots t) s = Some x /\ work x = Some w) -> exists x w, nth_error (slots t') s = Some x /\ work x = Some w)
    by (intros s (x & w & Hx & Wx); destruct (Hs _ _ Hx) as (x' & Hx' & E & _); exists x', w; split; [exact Hx'|congruence]).
  assert (K3 : forall s w, (exists x, nth_error (slots t) s = Some x /\ work x = Some w /\ evt x = true) -> exists x, nth_error (slots t') s = Some x /\ work x = Some w /\ evt x = true)
    by (intros s w (x & Hx & Wx & V); destruct (Hs _ _ Hx) as (x' & Hx' & E & _ & E2); exists x'; repeat split; [exact Hx'|congruence|auto]).
  assert (K4 : forall s w, (exists x, nth_error (slots t) s = Some x /\ work x = Some w /\ hp x > 0) -> exists x, nth_error (slots t') s = Some x /\ work x = Some w /\ hp x > 0)
    by (intros s w (x & Hx & Wx & V); destruct (Hs _ _ Hx) as (x' & Hx' & E & E2 & _); exists x'; repeat split; [exact Hx'|congruence|lia]).
  destruct (main_at t); intros H; auto; try (destruct H as [H1 H2]; split; auto; fail).
  - destruct H as (x & w & Hx & Wx & P & D). destruct (Hs _ _ Hx) as (x' & Hx' & E & E2 & _). exists x', w. repeat split; [exact Hx'|congruence|lia|rewrite HD; exact D].
  - destruct H as (x & Hx & Wx & Z & D). destruct (Hs _ _ Hx) as (x' & Hx' & E & _). exists x'. repeat split; [exact Hx'|congruence|specialize (Hc s); lia|].
    rewrite HD. intros Q. specialize (HF w). specialize (HW w). destruct (D Q); lia.
Qed.
Lemma inv_moves t t' :
  inv t -> slots t' = slots t -> avail t' = avail t -> next_work t' = next_work t -> log t' = log t -> main_at t' = main_at t ->
  (fault t' = false -> fault t = false) ->
  (forall s, c_new t' s = c_new t s /\ c_in t' s = c_in t s /\ c_out t' s = c_out t s /\ c_late t' s = c_late t s) ->
  (forall k s w, nth_error (workers t') k = Some (W_running s w) -> exists k', nth_error (workers t) k' = Some (W_running s w)) ->
  inv t'.
Proof.
  intros I Es Ea En El Em Ef Hc Hr. apply (inv_same t t' I).
  - apply keeps_refl; assumption.
  - left. exact El.
  - intros s. destruct (Hc s) as (C1 & C2 & C3 & C4). apply (slot_frame t); try (rewrite ?Es, ?Em; assumption || reflexivity); [exists []; rewrite app_nil_r; exact El|unfold av; rewrite Ea; reflexivity|lia| |exact (i_slot t I s)].
    intros. rewrite El. auto.
  - apply (main_other t t' Em); try (rewrite ?El; intros; lia); [rewrite Es; eauto 6| |exact (i_main t I)].
    intros s. destruct (Hc s) as (-> & -> & -> & _). lia.
  - intros k s w H. destruct (Hr _ _ _ H) as [k' H']. rewrite Es. exact (i_running t I _ _ _ H').
Qed.
Lemma running_set (l : list worker) k w0 s w k' :
  k < length l -> nth_error (set l k w0) k' = Some (W_running s w) -> w0 <> W_running s w -> exists k', nth_error l k' = Some (W_running s w).
Proof.
  intros L H Ne. destruct (Nat.eq_dec k' k) as [->|Nk].
  - rewrite nth_set_eq in H by exact L. congruence.
  - rewrite nth_set_ne in H by assumption. eauto.
Qed.
