(** The steps of the main thread keep the invariant. *)
From Coq Require Import Arith Bool List Lia.
From Verif Require Import Base AsModel AsSpec AsProofs AsSteps AsWorker.
Import ListNotations.

Definition idle_for (s : nat) (m : main) : Prop :=
  m_new s m = 0 /\ m_in s m = 0 /\ m_out s m = 0 /\ m_late s m = 0 /\ pushing s m = 0 /\ resetting s m = 0 /\ placed s m = 0.
(** A step that concerns one slot, in use *)
Lemma main_slot t t' s x x' w :
  inv t -> workers t' = workers t -> avail t' = avail t -> next_work t' = next_work t -> (fault t' = false -> fault t = false) ->
  nth_error (slots t) s = Some x -> work x = Some w -> nth_error (slots t') s = Some x' -> slots t' = set (slots t) s x' \/ slots t' = slots t ->
  work x' = work x ->
  log t' = log t \/ (exists e, log t' = log t ++ [e] /\ event_ok (log t) e /\ about e = w) ->
  (forall s', s' <> s -> idle_for s' (main_at t) /\ idle_for s' (main_at t') /\ in_queues t' s' = in_queues t s') ->
  slot_inv t' s -> main_inv t' -> inv t'.
Proof.
  intros I E1 E3 E4 Ef Ex Ew Ex' Es Wx Lg Hm V M.
  pose proof (nth_lt _ _ _ Ex) as Ls.
  assert (Lw : w < next_work t). { pose proof (i_slot t I s) as Q. unfold slot_inv in Q. rewrite Ex, Ew in Q. tauto. }
  assert (Hs : forall s', s' <> s -> nth_error (slots t') s' = nth_error (slots t) s').
  { intros s' Ne. destruct Es as [->| ->]; [apply nth_set_ne; assumption|reflexivity]. }
  apply (inv_same t t' I).
  - destruct Es as [Es|Es]; [exact (keeps_slot t t' s x x' Ex Es Wx E3 E4)|apply keeps_refl; assumption].
  - destruct Lg as [L|(e & L & He & A)]; [left; exact L|right; exists e; split; [exact L|split; [exact He|rewrite A; exact Lw]]].
  - intros s'. destruct (Nat.eq_dec s' s) as [->|Ne]; [exact V|]. destruct (Hm s' Ne) as ((A1 & A2 & A3 & A4 & A5 & A6 & A7) & (B1 & B2 & B3 & B4 & B5 & B6 & B7) & Q).
    destruct (counts_main t t' s' E1) as (Q1 & Q2 & Q3 & Q4).
    assert (Av : av t' s' = av t s') by (unfold av; rewrite E3; reflexivity).
    assert (Le : exists le, log t' = log t ++ le) by (destruct Lg as [L|(e & L & _)]; [exists []; rewrite app_nil_r; exact L|exists [e]; exact L]).
    apply (slot_frame t t' s' Le (Hs s' Ne) Av); try exact Ef; try lia; [|exact (i_slot t I s')].
    intros y v Hy Wy. destruct Lg as [->|(e & -> & _ & A)]; [repeat split; reflexivity|]. apply log_other. rewrite A. intros ->.
    apply Ne. exact (i_inj t I s' s y x v Hy Wy Ex Ew).
  - exact M.
  - intros k s' w' H. rewrite E1 in H. destruct (i_running t I _ _ _ H) as (y & Hy & Wy). destruct (Nat.eq_dec s' s) as [->|Ne].
    + exists x'. split; [exact Ex'|congruence].
    + rewrite (Hs s' Ne). eauto.
Qed.
Ltac idle Ne := unfold idle_for; cbn [main_at with_main with_wq with_dq with_q with_slot logged failed m_new m_in m_out m_late pushing resetting placed]; rewrite ?(same_ne _ _ Ne); repeat split; reflexivity.
Lemma q_ring t q s : in_queues (with_wq q t) s + tot (cell s) (ring (wq t)) = in_queues t s + tot (cell s) (ring q).
Proof. unfold in_queues. projections. lia. Qed.
Lemma q_ring_d t d q s : in_queues (with_q d q t) s + tot (cell s) (ring (the_q d t)) = in_queues t s + tot (cell s) (ring q).
Proof. unfold in_queues. destruct d; cbn [with_q the_q]; projections; lia. Qed.
Lemma hp_pos x : hp x > 0 -> exists p, ring_pos x = Some p.
Proof. unfold hp. destruct (ring_pos x); [eauto|lia]. Qed.

(** A step that concerns slot [s], in use, with the events [le] *)
Lemma main_case t t1 m0 m1 le s x x' w :
  inv t -> main_at t = m0 -> main_at t1 = m1 ->
  workers t1 = workers t -> avail t1 = avail t -> next_work t1 = next_work t -> fault t1 = fault t -> log t1 = log t ++ le ->
  nth_error (slots t) s = Some x -> work x = Some w -> nth_error (slots t1) s = Some x' -> slots t1 = set (slots t) s x' \/ slots t1 = slots t ->
  work x' = work x ->
  (forall s', s' <> s -> idle_for s' m0 /\ idle_for s' m1 /\ in_queues t1 s' = in_queues t s') ->
  (used (c_new t s) (c_in t s) (c_out t s) (c_late t s) (av t s) (flag (signaled x)) (flag (evt x)) (hp x) (pushing s m0) (resetting s m0) (placed s m0) (flag (fault t))
           (hD (log t) w) (hS (log t) w) (hF (log t) w) (hW (log t) w) (hX (log t) w) ->
   c_in t1 s + m_in s m0 = c_in t s + m_in s m1 -> c_out t1 s + m_out s m0 = c_out t s + m_out s m1 ->
   c_late t1 s + m_late s m0 = c_late t s + m_late s m1 ->
   c_new t1 s + m_new s m0 + in_queues t s = c_new t s + m_new s m1 + in_queues t1 s /\ m_new s m0 <= c_new t s ->
   (le = [] \/ exists e, le = [e] /\ event_ok (log t) e /\ about e = w) /\
   used (c_new t1 s) (c_in t1 s) (c_out t1 s) (c_late t1 s) (av t s) (flag (signaled x')) (flag (evt x')) (hp x') (pushing s m1) (resetting s m1) (placed s m1) (flag (fault t))
           (hD (log t) w + hD le w) (hS (log t) w + hS le w) (hF (log t) w + hF le w) (hW (log t) w + hW le w) (hX (log t) w + hX le w) /\ main_inv t1) ->
  inv t1.
Proof.
  intros I M0 M1 E1 E2 E3 E4 E5 Ex Ew Ex' Es Wx Hm H. pose proof (i_slot t I s) as V. unfold slot_inv in V. rewrite Ex, Ew, M0 in V. destruct V as [Lw V].
  destruct (counts_main t t1 s E1) as (Q1 & Q2 & Q3 & Q4). rewrite M0, M1 in *. assert (G : m_new s m0 <= c_new t s) by (unfold c_new; rewrite M0; lia).
  destruct (H V Q1 Q2 Q3 (conj Q4 G)) as (Le & U & M).
  apply (main_slot t t1 s x x' w); auto; [congruence| | |].
  - destruct Le as [->|(e & -> & He & A)]; [left; rewrite E5; apply app_nil_r|right; exists e; auto].
  - rewrite M0, M1. exact Hm.
  - unfold slot_inv. rewrite Ex', Wx, Ew, E3. split; [exact Lw|].
    replace (av t1 s) with (av t s) by (unfold av; rewrite E2; reflexivity). rewrite E4, E5, M1. unfold hD, hS, hF, hW, hX in *. rewrite !tot_app. exact U.
Qed.
Lemma tot_nil {A} (f : A -> nat) : tot f [] = 0.
Proof. reflexivity. Qed.
Lemma app_nil {A} (l : list A) : l = l ++ [].
Proof. symmetry. apply app_nil_r. Qed.
Ltac idles Ne := unfold idle_for; cbn [m_new m_in m_out m_late pushing resetting placed]; rewrite ?(same_ne _ _ Ne); repeat split; reflexivity.
Ltac others := intros s' Ne; split; [idles Ne|split; [idles Ne|]].
Ltac fields := solve [reflexivity | assumption | apply app_nil | auto].
Ltac here := cbn [m_new m_in m_out m_late pushing resetting placed] in *; unfold hD, hS, hF, hW, hX in *; cbn [tot fold_right] in *; rewrite ?same_refl in *.


(** Freeing the slot at the end *)
Definition freed (s w : nat) (t : state) : state :=
  let t' := with_slot s no_slot t in
  logged (Freed w) (State (slots t') (set (avail t') s true) (counts t') (wq t') (dq t') (arr t') (dispatcher t') M_ready (workers t') (log t') (next_work t') (fault t')).
Lemma freed_keeps t s w : inv t -> main_at t = M_reset s w -> inv (freed s w t).
Proof.
  intros I Em. pose proof (i_main t I) as M. unfold main_inv in M. rewrite Em in M. destruct M as (x & Ex & Ew & Z & Dx).
  set (t1 := freed s w t). pose proof (nth_lt _ _ _ Ex) as Ls. assert (La : s < length (avail t)) by (rewrite (i_len t I); exact Ls).
  assert (Es : slots t1 = set (slots t) s no_slot) by reflexivity. assert (Ea : avail t1 = set (avail t) s true) by reflexivity.
  assert (Hs : forall s', s' <> s -> nth_error (slots t1) s' = nth_error (slots t) s') by (intros s' Ne; apply nth_set_ne; assumption).
  assert (Hc : forall s', _) by (intros s'; exact (counts_main t t1 s' eq_refl)). rewrite Em in Hc.
  assert (Eq : forall s', in_queues t1 s' = in_queues t s') by reflexivity.
  pose proof (i_slot t I s) as V. unfold slot_inv in V. rewrite Ex, Ew, Em in V. destruct V as [Lw V].
  constructor.
  - intros s'. destruct (Hc s') as (Q1 & Q2 & Q3 & Q4). rewrite Eq in Q4. change (main_at t1) with M_ready in *. cbn [m_new m_in m_out m_late] in *. destruct (Nat.eq_dec s' s) as [->|Ne].
    + unfold slot_inv. rewrite Es, nth_set_eq by exact Ls. cbn [no_slot work signaled evt ring_pos hp flag]. unfold unused, av, hfree. change (log t1) with (log t ++ [Freed w]). rewrite h_snoc, Ea, nth_set_eq by exact La. cbn [flag]. lia.
    + assert (Av : av t1 s' = av t s') by (unfold av; rewrite Ea, nth_set_ne by assumption; reflexivity).
      apply (slot_frame t t1 s' (ex_intro _ [Freed w] eq_refl) (Hs s' Ne) Av); try lia; try (rewrite Em; cbn [pushing resetting placed]; rewrite ?(same_ne _ _ Ne); reflexivity); [auto|auto| |exact (i_slot t I s')].
      intros y v Hy Wy. apply log_other. cbn [about]. intros ->. apply Ne. exact (i_inj t I s' s y x v Hy Wy Ex Ew).
  - intros s1 s2 y1 y2 v H1 W1 H2 W2. rewrite Es in H1, H2. destruct (Nat.eq_dec s1 s) as [->|N1]; [rewrite nth_set_eq in H1 by exact Ls; injection H1 as <-; discriminate|].
    destruct (Nat.eq_dec s2 s) as [->|N2]; [rewrite nth_set_eq in H2 by exact Ls; injection H2 as <-; discriminate|].
    rewrite nth_set_ne in H1, H2 by assumption. exact (i_inj t I s1 s2 y1 y2 v H1 W1 H2 W2).
  - intros k s' w' H. change (workers t1) with (workers t) in H. destruct (Nat.eq_dec s' s) as [->|Ne].
    + exfalso. pose proof (tot_ge (w_in s) _ _ _ H) as G. cbn [w_in] in G. rewrite same_refl in G. unfold c_in in Z. lia.
    + rewrite (Hs s' Ne). exact (i_running t I _ _ _ H).
  - exact Logic.I.
  - change (log t1) with (log t ++ [Freed w]). apply history_snoc; [exact (i_log t I)|]. cbn [event_ok]. rewrite <- hX_in, <- hS_in, <- hF_in, <- hD_in, <- hW_in. split; [unfold used in V; lia|]. split; [unfold used in V; lia|exact Dx].
  - change (log t1) with (log t ++ [Freed w]). change (next_work t1) with (next_work t). intros e He. apply in_app_or in He as [He|[<-|[]]]; [exact (i_lt t I e He)|exact Lw].
  - change (log t1) with (log t ++ [Freed w]). change (next_work t1) with (next_work t). intros v Hv. destruct (i_all t I v Hv) as [(s' & y & Hy & Wy)|F].
    + destruct (Nat.eq_dec s' s) as [->|Ne]; [right; apply in_or_app; right; left; congruence|]. left. exists s', y. rewrite (Hs s' Ne). auto.
    + right. apply in_or_app. left. exact F.
  - rewrite Es, Ea, !set_len by assumption. exact (i_len t I).
Qed.

Lemma main_keeps N checks t t' : inv t -> main_step N checks t = Some t' -> inv t'.
Proof.
  intros I. unfold main_step. pose proof (i_main t I) as M. unfold main_inv in M.
  destruct (main_at t) as [|s|s|d s|d s p|d s p|d s|s w inf|s w|s w inf|s w ok|s w|s w w'|s w|s w|s w|s w|s w|s w|s w] eqn:Em.
  - discriminate.
  - destruct M as (x & w & Ex & Ew). destruct (write_sem (wq t)) as [|n]; intros [= <-]; match goal with |- inv ?X => set (t1 := X) end.
    + apply (main_case t t1 _ (M_block s) [] s x x w I Em); try fields; [others; reflexivity|].
      intros V Q1 Q2 Q3 Q4. change (in_queues t1 s) with (in_queues t s) in Q4. here. split; [auto|]. split; [each|exists x, w; auto].
    + assert (Eq : forall s', in_queues t1 s' = in_queues t s') by (intros; unfold in_queues, t1; projections; reflexivity).
      apply (main_case t t1 _ (M_claim false s) [] s x x w I Em); try fields; [others; apply Eq|].
      intros V Q1 Q2 Q3 Q4. rewrite Eq in Q4. here. split; [auto|]. split; [each|exists x, w; auto].
  - destruct M as (x & w & Ex & Ew). destruct (write_sem (dq t)) as [|n]; intros [= <-]; match goal with |- inv ?X => set (t1 := X) end.
    assert (Eq : forall s', in_queues t1 s' = in_queues t s') by (intros; unfold in_queues, t1; projections; reflexivity).
    apply (main_case t t1 _ (M_claim true s) [] s x x w I Em); try fields; [others; apply Eq|].
    intros V Q1 Q2 Q3 Q4. rewrite Eq in Q4. here. split; [auto|]. split; [each|exists x, w; auto].
  - destruct M as (x & w & Ex & Ew). intros [= <-]; match goal with |- inv ?X => set (t1 := X) end.
    assert (Eq : forall s', in_queues t1 s' = in_queues t s') by (intros; unfold in_queues, t1; destruct d; reflexivity).
    apply (main_case t t1 _ (M_store d s (write_pos (the_q d t))) [] s x x w I Em); try (destruct d; fields); [others; apply Eq|].
    intros V Q1 Q2 Q3 Q4. rewrite Eq in Q4. here. split; [auto|]. split; [each|exists x, w; destruct d; auto].
  - destruct M as (x & w & Ex & Ew). destruct (nth_error (ring (the_q d t)) p) as [y|] eqn:Ep; [|discriminate]. cbv beta iota.
    destruct y as [y|]; intros [= <-]; match goal with |- inv ?X => set (t1 := X) end.
    + apply (main_case t t1 _ (if d then M_ready else M_block s) [] s x x w I Em); try fields; [intros s' Ne; split; [idles Ne|split; [destruct d; idles Ne|reflexivity]]|].
      intros V Q1 Q2 Q3 Q4. change (in_queues t1 s) with (in_queues t s) in Q4. split; [auto|]. unfold main_inv. destruct d; here; (split; [each|cbn [t1 main_at with_main]; auto; exists x, w; auto]).
    + assert (Eq : forall s', in_queues t1 s' = in_queues t s' + same s' s).
      { intros s'. pose proof (q_ring_d t d (put_ring (the_q d t) p (Some s)) s') as Q. unfold put_ring in Q. cbn [ring] in Q.
        rewrite <- (Nat.add_0_r (tot (cell s') (set _ _ _))) in Q. change 0 with (cell s' None) in Q at 1. rewrite (tot_set _ _ _ _ _ Ep) in Q. cbn [cell] in Q.
        unfold t1. change (in_queues (with_main (M_pos d s p) (with_q d (put_ring (the_q d t) p (Some s)) t)) s') with (in_queues (with_q d (put_ring (the_q d t) p (Some s)) t) s'). unfold put_ring. lia. }
      apply (main_case t t1 _ (M_pos d s p) [] s x x w I Em); try (destruct d; fields); [others; rewrite Eq, (same_ne _ _ Ne); lia|].
      intros V Q1 Q2 Q3 Q4. rewrite Eq in Q4. here. split; [auto|]. split; [each|exists x, w; destruct d; auto].
  - destruct M as (x & w & Ex & Ew). rewrite Ex. cbv beta iota. intros [= <-]; match goal with |- inv ?X => set (t1 := X) end.
    set (x' := Slot (work x) (Some p) (signaled x) (evt x)). pose proof (nth_lt _ _ _ Ex) as Ls. assert (Ex1 : nth_error (slots t1) s = Some x') by (apply nth_set_eq; exact Ls).
    apply (main_case t t1 _ (M_post d s) [] s x x' w I Em); try fields; [others; reflexivity|].
    intros V Q1 Q2 Q3 Q4. change (in_queues t1 s) with (in_queues t s) in Q4. here. split; [auto|]. change (hp x') with 1. split; [cbn [x' signaled evt]; each|].
    exists x', w. cbn [x' work]. change (hp x') with 1. split; [exact Ex1|]. split; [exact Ew|]. split; [lia|]. change (log t1) with (log t). unfold used in V. unfold hD. lia.
  - destruct M as (x & w & Ex & Ew & Px & Dx). rewrite Ex. cbv beta iota. rewrite Ew. cbv beta iota. intros [= <-]; match goal with |- inv ?X => set (t1 := X) end.
    assert (Eq : forall s', in_queues t1 s' = in_queues t s') by (intros; unfold in_queues, t1; destruct d; reflexivity).
    apply (main_case t t1 _ M_ready [Dispatched w] s x x w I Em); try (destruct d; fields); [others; apply Eq|].
    intros V Q1 Q2 Q3 Q4. rewrite Eq in Q4. split; [right; eexists; split; [reflexivity|split; [|reflexivity]]|].
    + cbn [event_ok]. rewrite <- hD_in, <- hX_in. unfold used in V. lia.
    + here. split; [each|destruct d; exact Logic.I].
  - destruct M as (-> & x & Ex & Ew). rewrite Ex. cbv beta iota. destruct (signaled x) eqn:Sx; intros [= <-]; match goal with |- inv ?X => set (t1 := X) end.
    + apply (main_case t t1 _ M_ready [Waited w true] s x x w I Em); try fields; [others; reflexivity|].
      intros V Q1 Q2 Q3 Q4. change (in_queues t1 s) with (in_queues t s) in Q4. rewrite Sx in V. cbn [flag] in V. split; [right; eexists; split; [reflexivity|split; [|reflexivity]]|].
      * cbn [event_ok]. rewrite <- hF_in, <- hX_in. unfold used in V. lia.
      * rewrite Sx. cbn [flag]. here. split; [each|exact Logic.I].
    + apply (main_case t t1 _ (M_pop s w) [] s x x w I Em); try fields; [others; reflexivity|].
      intros V Q1 Q2 Q3 Q4. change (in_queues t1 s) with (in_queues t s) in Q4. here. split; [auto|]. split; [each|exists x; auto].
  - destruct M as (x & Ex & Ew). rewrite Ex. cbv beta iota. unfold pop_slot. destruct (ring_pos x) as [p|] eqn:Px.
    + destruct (nth_error (ring (wq t)) p) as [y|] eqn:Ep; [|discriminate]. cbv beta iota.
      destruct y as [y|]; [destruct (Nat.eqb_spec y s) as [->|Ny]|]; intros [= <-]; match goal with |- inv ?X => set (t1 := X) end.
      * assert (Eq : forall s', in_queues t1 s' + same s' s = in_queues t s').
        { intros s'. pose proof (tot_set (cell s') _ _ None _ Ep) as Q. cbn [cell] in Q. unfold t1, in_queues. projections. lia. }
        apply (main_case t t1 _ (M_run s w) [] s x x w I Em); try fields; [others; specialize (Eq s'); rewrite (same_ne _ _ Ne) in Eq; lia|].
        intros V Q1 Q2 Q3 Q4. specialize (Eq s). here. split; [auto|]. split; [each|exists x; auto].
      * apply (main_case t t1 _ (M_event s w true) [] s x x w I Em); try fields; [others; reflexivity|].
        intros V Q1 Q2 Q3 Q4. change (in_queues t1 s) with (in_queues t s) in Q4. here. split; [auto|]. split; [each|split; [reflexivity|exists x; unfold hp; rewrite Px; auto]].
      * apply (main_case t t1 _ (M_event s w true) [] s x x w I Em); try fields; [others; reflexivity|].
        intros V Q1 Q2 Q3 Q4. change (in_queues t1 s) with (in_queues t s) in Q4. here. split; [auto|]. split; [each|split; [reflexivity|exists x; unfold hp; rewrite Px; auto]].
    + intros [= <-]. apply (inv_moves t); try reflexivity; [exact I|intros [=]|auto|eauto].
  - destruct M as (-> & x & Ex & Ew & Px). rewrite Ex. cbv beta iota. destruct (evt x) eqn:Vx; [|discriminate]. intros [= <-]. match goal with |- inv ?X => set (t1 := X) end.
    apply (main_case t t1 _ (M_signal s w true) [] s x x w I Em); try fields; [others; reflexivity|].
    intros V Q1 Q2 Q3 Q4. change (in_queues t1 s) with (in_queues t s) in Q4. here. split; [auto|]. split; [each|exists x; auto].
  - destruct M as (x & Ex & Ew & Vx). rewrite Ex. cbv beta iota. intros [= <-]. match goal with |- inv ?X => set (t1 := X) end.
    pose proof (nth_lt _ _ _ Ex) as Ls. assert (Ex1 : nth_error (slots t1) s = Some (set_signaled x)) by (apply nth_set_eq; exact Ls).
    apply (main_case t t1 _ M_ready [Waited w ok] s x (set_signaled x) w I Em); try fields; [others; reflexivity|].
    intros V Q1 Q2 Q3 Q4. change (in_queues t1 s) with (in_queues t s) in Q4. rewrite Vx in V. cbn [flag] in V. split; [right; eexists; split; [reflexivity|split; [|reflexivity]]|].
    + cbn [event_ok]. rewrite <- hF_in, <- hX_in. unfold used in V. lia.
    + change (hp (set_signaled x)) with (hp x). cbn [set_signaled signaled evt]. rewrite Vx. cbn [flag]. here. split; [each|exact Logic.I].
  - destruct M as (x & Ex & Ew). rewrite Ex. cbv beta iota. rewrite Ew. intros [= <-]. match goal with |- inv ?X => set (t1 := X) end.
    apply (main_case t t1 _ (M_running s w w) [Started w] s x x w I Em); try fields; [others; reflexivity|].
    intros V Q1 Q2 Q3 Q4. change (in_queues t1 s) with (in_queues t s) in Q4.
    assert (Ge : c_new t s > 0) by (unfold c_new; rewrite Em; cbn [m_new]; rewrite same_refl; lia).
    split; [right; eexists; split; [reflexivity|split; [|reflexivity]]|].
    + cbn [event_ok resetting] in *. rewrite <- hS_in, <- hW_in, <- hX_in. unfold used in V. lia.
    + here. split; [each|split; [reflexivity|exists x; auto]].
  - destruct M as (-> & x & Ex & Ew). intros [= <-]. match goal with |- inv ?X => set (t1 := X) end.
    apply (main_case t t1 _ (M_ran s w) [Finished w] s x x w I Em); try fields; [others; reflexivity|].
    intros V Q1 Q2 Q3 Q4. change (in_queues t1 s) with (in_queues t s) in Q4.
    assert (Ge : c_in t s > 0) by (unfold c_in; rewrite Em; cbn [m_in]; rewrite same_refl; lia).
    split; [right; eexists; split; [reflexivity|split; [|reflexivity]]|].
    + cbn [event_ok] in *. rewrite <- hS_in, <- hF_in, <- hX_in. unfold used in V. lia.
    + here. split; [each|exists x; auto].
  - destruct M as (x & Ex & Ew). rewrite Ex. cbv beta iota. intros [= <-]. match goal with |- inv ?X => set (t1 := X) end.
    pose proof (nth_lt _ _ _ Ex) as Ls. assert (Ex1 : nth_error (slots t1) s = Some (set_signaled x)) by (apply nth_set_eq; exact Ls).
    apply (main_case t t1 _ (M_set s w) [] s x (set_signaled x) w I Em); try fields; [others; reflexivity|].
    intros V Q1 Q2 Q3 Q4. change (in_queues t1 s) with (in_queues t s) in Q4.
    assert (Ge : c_out t s > 0) by (unfold c_out; rewrite Em; cbn [m_out]; rewrite same_refl; lia).
    split; [auto|]. change (hp (set_signaled x)) with (hp x). cbn [set_signaled signaled evt flag]. here. split; [each|exists (set_signaled x); auto].
  - destruct M as (x & Ex & Ew). rewrite Ex. cbv beta iota. intros [= <-]. match goal with |- inv ?X => set (t1 := X) end.
    pose proof (nth_lt _ _ _ Ex) as Ls. assert (Ex1 : nth_error (slots t1) s = Some (set_event x)) by (apply nth_set_eq; exact Ls).
    apply (main_case t t1 _ M_ready [Waited w true] s x (set_event x) w I Em); try fields; [others; reflexivity|].
    intros V Q1 Q2 Q3 Q4. change (in_queues t1 s) with (in_queues t s) in Q4.
    assert (Ge : c_late t s > 0) by (unfold c_late; rewrite Em; cbn [m_late]; rewrite same_refl; lia).
    split; [right; eexists; split; [reflexivity|split; [|reflexivity]]|].
    + cbn [event_ok]. rewrite <- hF_in, <- hX_in. unfold used in V. lia.
    + change (hp (set_event x)) with (hp x). cbn [set_event signaled evt flag]. here. split; [each|exact Logic.I].
  - destruct M as (x & Ex & Ew). rewrite Ex. cbv beta iota.
    assert (To : forall t1, t1 = with_main (M_reset s w) t -> hp x = 0 \/ signaled x = true -> inv t1).
    { intros t1 -> H. match goal with |- inv ?X => set (t1 := X) end. apply (main_case t t1 _ (M_reset s w) [] s x x w I Em); try fields; [others; reflexivity|].
      intros V Q1 Q2 Q3 Q4. change (in_queues t1 s) with (in_queues t s) in Q4. here. split; [auto|].
      assert (Z : c_new t s + c_in t s + c_out t s = 0 /\ (tot (fun e => match e with Dispatched v => same w v | _ => 0 end) (log t) > 0 -> tot (fun e => match e with Finished v => same w v | _ => 0 end) (log t) > 0))
        by (destruct H as [H|H]; [unfold used in V; lia|rewrite H in V; cbn [flag] in V; unfold used in V; lia]).
      destruct Z as [Z1 Z2]. split; [clear Z2; each|]. exists x. split; [exact Ex|]. split; [exact Ew|]. split; [lia|]. intros A. left. exact (Z2 A). }
    unfold hp in To. destruct (ring_pos x) as [p|] eqn:Px; [destruct (signaled x) eqn:Sx|]; intros [= <-]; try (apply (To _ eq_refl); auto; fail). match goal with |- inv ?X => set (t1 := X) end.
    apply (main_case t t1 _ (M_fpop s w) [] s x x w I Em); try fields; [others; reflexivity|].
    intros V Q1 Q2 Q3 Q4. change (in_queues t1 s) with (in_queues t s) in Q4. here. split; [auto|]. split; [each|exists x; unfold hp; rewrite Px; auto].
  - destruct M as (x & Ex & Ew & Px'). rewrite Ex. cbv beta iota. unfold pop_slot. destruct (ring_pos x) as [p|] eqn:Px.
    + destruct (nth_error (ring (wq t)) p) as [y|] eqn:Ep; [|discriminate]. cbv beta iota.
      destruct y as [y|]; [destruct (Nat.eqb_spec y s) as [->|Ny]|]; intros [= <-]; match goal with |- inv ?X => set (t1 := X) end.
      * assert (Eq : forall s', in_queues t1 s' + same s' s = in_queues t s').
        { intros s'. pose proof (tot_set (cell s') _ _ None _ Ep) as Q. cbn [cell] in Q. unfold t1, in_queues. projections. lia. }
        apply (main_case t t1 _ (M_reset s w) [Withdrawn w] s x x w I Em); try fields; [others; specialize (Eq s'); rewrite (same_ne _ _ Ne) in Eq; lia|].
        intros V Q1 Q2 Q3 Q4. specialize (Eq s). rewrite same_refl in Eq. assert (Ge : c_new t s >= in_queues t s) by (unfold c_new, in_queues; lia).
        split; [right; eexists; split; [reflexivity|split; [|reflexivity]]|].
        -- cbn [event_ok resetting] in *. rewrite <- hS_in, <- hW_in, <- hX_in. unfold used in V. lia.
        -- here. split; [each|]. exists x. split; [exact Ex|]. split; [exact Ew|]. split; [unfold used in V; lia|]. intros _. right. unfold t1. projections. unfold hW. rewrite h_snoc, same_refl. lia.
      * apply (main_case t t1 _ (M_fevent s w) [] s x x w I Em); try fields; [others; reflexivity|].
        intros V Q1 Q2 Q3 Q4. change (in_queues t1 s) with (in_queues t s) in Q4. here. split; [auto|]. split; [each|exists x; auto].
      * apply (main_case t t1 _ (M_fevent s w) [] s x x w I Em); try fields; [others; reflexivity|].
        intros V Q1 Q2 Q3 Q4. change (in_queues t1 s) with (in_queues t s) in Q4. here. split; [auto|]. split; [each|exists x; auto].
    + unfold hp in Px'. rewrite Px in Px'. lia.
  - destruct M as (x & Ex & Ew & Px). rewrite Ex. cbv beta iota. destruct (evt x) eqn:Vx; [|discriminate]. intros [= <-]. match goal with |- inv ?X => set (t1 := X) end.
    apply (main_case t t1 _ (M_fsignal s w) [] s x x w I Em); try fields; [others; reflexivity|].
    intros V Q1 Q2 Q3 Q4. change (in_queues t1 s) with (in_queues t s) in Q4. here. split; [auto|]. split; [each|exists x; auto].
  - destruct M as (x & Ex & Ew & Vx). rewrite Ex. cbv beta iota. intros [= <-]. match goal with |- inv ?X => set (t1 := X) end.
    pose proof (nth_lt _ _ _ Ex) as Ls. assert (Ex1 : nth_error (slots t1) s = Some (set_signaled x)) by (apply nth_set_eq; exact Ls).
    apply (main_case t t1 _ (M_reset s w) [] s x (set_signaled x) w I Em); try fields; [others; reflexivity|].
    intros V Q1 Q2 Q3 Q4. change (in_queues t1 s) with (in_queues t s) in Q4. rewrite Vx in V. cbn [flag] in V. split; [auto|].
    change (hp (set_signaled x)) with (hp x). cbn [set_signaled signaled evt]. rewrite Vx. cbn [flag]. here. split; [each|].
    exists (set_signaled x). split; [exact Ex1|]. split; [exact Ew|]. split; [unfold used in V; lia|]. intros _. left. change (log t1) with (log t). unfold hF. unfold used in V. lia.
  - destruct M as (x & Ex & Ew & Z & Dx). rewrite Ex. cbv beta iota.
    destruct (checks && negb (signaled x) && match ring_pos x with Some _ => true | None => false end).
    + intros [= <-]. apply (inv_moves t); try reflexivity; [exact I|intros [=]|auto|eauto].
    + intros [= <-]. exact (freed_keeps t s w I Em).
Qed.
