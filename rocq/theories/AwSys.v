(** Programs that wait on several handles. *)
From Coq Require Import Arith Bool List Lia.
From Verif Require Import Base AsModel AsSpec AsProofs AsSteps AsWorker AsMain AsCalls AsProgress AsRing AsQuiet AwModel AwSpec AwQueue AwReach AwAll AwMulti.
Import ListNotations.

Lemma worker_main N k t t' : worker_step N k t = Some t' -> main_at t' = main_at t.
Proof. unfold worker_step. intros H. repeat match type of H with context [match ?e with _ => _ end] => destruct e eqn:?; cbv beta iota in H; try discriminate H end; injection H as <-; reflexivity. Qed.
Lemma dispatcher_main N t t' : dispatcher_step N t = Some t' -> main_at t' = main_at t.
Proof. unfold dispatcher_step. intros H. repeat match type of H with context [match ?e with _ => _ end] => destruct e eqn:?; cbv beta iota in H; try discriminate H end; injection H as <-; reflexivity. Qed.
Lemma env_step N C checks l t t' : environment l = true -> exec N C checks l t = Some t' -> keeps t t' /\ main_at t' = main_at t.
Proof.
  intros E. unfold exec. destruct (fault t); [discriminate|]. destruct l; try discriminate E; intros H.
  - split; [exact (worker_keeps _ _ _ _ H)|exact (worker_main _ _ _ _ H)].
  - split; [exact (dispatcher_keeps _ _ _ H)|exact (dispatcher_main _ _ _ H)].
Qed.
Lemma exec_fault N C checks l t t' : exec N C checks l t = Some t' -> fault t = false.
Proof. unfold exec. destruct (fault t); [discriminate|reflexivity]. Qed.
Definition call_inv (K : nat) (checks : bool) (c : call) (t : state) : Prop :=
  match c with NoCall _ => True | All hs a => all_inv K hs a t | Multi _ hs all m p => multi_inv K checks hs all m p t end.
Lemma start_all_inv K hs p t : main_at t = M_ready -> all_inv K hs (start_all p) t.
Proof. intros M. split; [split; intros s []|]. cbn [start_all apc_of]. split; [exact M|]. intros j s L. lia. Qed.
Section Sys.
Variables N C n K : nat.
Variable checks : bool.
Hypothesis HN : 0 < N.
Hypothesis HK : 0 < K.
Notation reach := (reach N C n checks).
Lemma xstep_inv l c t c' t' d : reach t d -> allowed K checks t l -> (fault t = true \/ over_call c = true \/ call_inv K checks c t) -> xexec N C checks K l c t = Some (c', t') ->
  (exists d', reach t' d') /\ (fault t' = true \/ (exists l', l = X l' /\ c' = c /\ over_call c = true) \/ call_inv K checks c' t').
Proof using HN HK.
  intros R Al Iv H. unfold xexec in H. destruct (fault t) eqn:F; [discriminate|]. destruct Iv as [Iv|Iv]; [discriminate|].
  destruct l as [l|hs|hs all m|over sel].
  - destruct (environment l || over_call c) eqn:E; [|discriminate]. destruct (exec N C checks l t) as [t1|] eqn:X; [|discriminate]. cbv beta iota in H. injection H as <- <-. cbn [allowed] in Al. destruct Al as [Al1 Al2]. split.
    + destruct R as (ls & R & Ed). exists (length (filter dispatches (ls ++ [l]))), (ls ++ [l]). split; [|reflexivity]. econstructor; eauto.
    + destruct (over_call c) eqn:Oc; [right; left; exists l; auto|]. destruct Iv as [Iv|Iv]; [discriminate|]. rewrite orb_false_r in E. destruct (env_step _ _ _ _ _ _ E X) as [Kp M]. right. right.
      destruct c as [p|hs a|p hs all m w]; cbn [call_inv] in *; [exact I|exact (all_env _ _ _ _ _ Kp M Iv)|exact (multi_env _ _ _ _ _ _ _ _ Kp M Iv)].
  - destruct (over_call c); [|discriminate]. destruct (main_at t) eqn:M; try discriminate. injection H as <- <-. split; [exists d; exact R|]. right. right. apply start_all_inv. exact M.
  - destruct (over_call c && negb (match m with Forever => all | _ => false end)); [|discriminate]. destruct (main_at t) eqn:M; try discriminate. injection H as <- <-. split; [exists d; exact R|]. right. right. apply start_multi_inv; [exact Al|exact M].
  - destruct c as [p|hs a|p hs all m w]; [discriminate| |].
    + destruct (all_step N checks K hs a t) as [[a1 t1]|] eqn:St; [|discriminate]. cbv beta iota in H. injection H as <- <-.
      assert (Iv' : all_inv K hs a t). { destruct Iv as [Iv|Iv]; [|exact Iv]. exfalso. cbn [over_call] in Iv. destruct (apc_of a) eqn:E; try discriminate. unfold all_step in St. rewrite E in St. discriminate. }
      destruct (all_step_inv _ _ _ _ _ _ _ _ _ _ _ HN HK R F Iv' St) as [R' [F'|[I' _]]]; auto.
    + destruct (multi_step N checks K hs all m over sel w t) as [[w1 t1]|] eqn:St; [|discriminate]. cbv beta iota in H. injection H as <- <-.
      assert (Iv' : multi_inv K checks hs all m w t). { destruct Iv as [Iv|Iv]; [|exact Iv]. exfalso. cbn [over_call] in Iv. destruct w; try discriminate. }
      destruct (multi_step_inv _ _ _ _ _ _ _ _ _ _ _ _ _ _ _ HN HK R F Iv' St) as [R' [F'|[I' _]]]; auto.
Qed.
Theorem xcareful_inv ls c t : xcareful N C checks K (NoCall []) (initial N C n) ls c t -> (exists d, reach t d) /\ (fault t = true \/ over_call c = true \/ call_inv K checks c t).
Proof using HN HK.
  intros H. induction H as [|ls c t l c' t' H IH Al X].
  - split; [exists 0; exists []; split; [constructor|reflexivity]|]. right. left. reflexivity.
  - destruct IH as [[d R] Iv]. destruct (xstep_inv _ _ _ _ _ _ R Al Iv X) as [R' [F|[(l' & _ & -> & Oc)|I']]]; auto.
Qed.
(** a step of the call itself: what it makes true *)
Lemma go_inv ls c t over sel c' t' : xcareful N C checks K (NoCall []) (initial N C n) ls c t -> xexec N C checks K (X_go over sel) c t = Some (c', t') -> fault t' = true \/ call_inv K checks c' t'.
Proof using HN HK.
  intros H X. destruct (xcareful_inv _ _ _ H) as [[d R] Iv]. destruct (xstep_inv (X_go over sel) _ _ _ _ _ R I Iv X) as [R' [F|[(l' & E & _)|I']]]; auto. discriminate.
Qed.
Lemma call_in_progress ls c t over sel c' t' : xcareful N C checks K (NoCall []) (initial N C n) ls c t -> xexec N C checks K (X_go over sel) c t = Some (c', t') -> fault t = false /\ call_inv K checks c t.
Proof using HN HK.
  intros H X. destruct (xcareful_inv _ _ _ H) as [_ Iv]. unfold xexec in X. destruct (fault t) eqn:F; [discriminate|]. split; [reflexivity|]. destruct Iv as [|[Iv|Iv]]; [discriminate| |exact Iv].
  destruct c as [p|hs a|p hs all m w]; [discriminate| |].
  - exfalso. cbn [over_call] in Iv. destruct (apc_of a) eqn:E; try discriminate. unfold all_step in X. rewrite E in X. discriminate.
  - exfalso. cbn [over_call] in Iv. destruct w; try discriminate.
Qed.

(** ** The call does not fail if its handles are in use *)
Lemma all_no_fault hs a t d a' t' : reach t d -> fault t = false -> all_inv K hs a t -> (forall s, In (Some s) hs -> busy t s) -> all_step N checks K hs a t = Some (a', t') -> fault t' = false.
Proof using.
  clear HN HK.
  intros R F [[Kn1 Kn2] H] Bu St. unfold all_step in St.
  assert (U : forall s, busy t s -> in_use t s <> None) by (intros s Hb E; destruct (in_use_of _ _ Hb) as (x & w & E' & _); congruence).
  destruct (apc_of a) as [c|c i|c i s|c i s|c i|c i s|c i s|c i s|c|c j|ok] eqn:Ep.
  - destruct (Nat.ltb c (length hs)); [|destruct (todo a)]; injection St as <- <-; exact F.
  - destruct (Nat.ltb_spec i (Nat.min K (length hs - c))) as [L|L].
    + destruct (nth_error hs (c + i)) as [[s|]|] eqn:Eh; [|injection St as <- <-; exact F|apply hs_out in Eh; lia].
      destruct (in_use t s) as [[x w]|] eqn:Us; [|elim (U s (Bu s (nth_error_In _ _ Eh)) Us)]. destruct (signaled x); injection St as <- <-; exact F.
    + destruct (acc a); injection St as <- <-; exact F.
  - destruct (nth_error (slots t) s) as [x|]; [|discriminate]. cbv beta iota in St. destruct (no_pos x); injection St as <- <-; exact F.
  - destruct H as (M & _). destruct M as [D|M]; [|rewrite M in St; injection St as <- <-; exact F].
    assert (X : exists t1, main_step N checks t = Some t1 /\ t' = t1).
    { destruct (main_at t) eqn:Em; try contradiction; (destruct (main_step N checks t) as [t1|]; [|discriminate]; injection St as <- <-; eauto). }
    destruct X as (t1 & Ms & ->). destruct (dispatching_step _ _ _ _ _ _ _ _ R D Ms) as (_ & _ & ->). exact F.
  - destruct (nth_error (acc a) i) as [s|]; [|injection St as <- <-; exact F]. destruct (nth_error (slots t) s) as [x|]; [|discriminate]. cbv beta iota in St. destruct (no_pos x); injection St as <- <-; exact F.
  - destruct H as (M & _ & _ & Ea). destruct M as [D|[M Hp]].
    + assert (X : exists t1, main_step N checks t = Some t1 /\ t' = t1).
      { destruct (main_at t) eqn:Em; try contradiction; (destruct (main_step N checks t) as [t1|]; [|discriminate]; injection St as <- <-; eauto). }
      destruct X as (t1 & Ms & ->). destruct (dispatching_step _ _ _ _ _ _ _ _ R D Ms) as (_ & _ & ->). exact F.
    + rewrite M in St. destruct (in_use t s) as [[x w]|] eqn:Us; [|elim (U s (Kn1 _ (nth_error_In _ _ Ea)) Us)]. destruct (no_pos x); injection St as <- <-; exact F.
  - destruct H as (M & Hp & _ & _ & Ea). destruct (in_use t s) as [[x w]|] eqn:Us; [|elim (U s (Kn1 _ (nth_error_In _ _ Ea)) Us)].
    destruct (pop_slot s x t) as [[[b t1]|]|] eqn:Po; cbv beta iota in St; [| |discriminate].
    + destruct (pop_keeps _ _ _ _ _ Po) as (_ & _ & Ft). destruct b; injection St as <- <-; cbn [fault with_main]; congruence.
    + exfalso. destruct Hp as (y & Ey & Hy). apply in_use_some in Us as [Ex Ew]. rewrite Ex in Ey. injection Ey as <-. unfold pop_slot in Po. destruct (ring_pos x) as [p|]; [|congruence].
      destruct (nth_error (ring (wq t)) p) as [z|]; [|discriminate]. cbv beta iota in Po. destruct (match z with Some s' => Nat.eqb s' s | None => false end); discriminate.
  - destruct H as (M & _). destruct M as [D|[M _]]; [|rewrite M in St; injection St as <- <-; exact F].
    assert (X : exists t1, main_step N checks t = Some t1 /\ t' = t1).
    { destruct (main_at t) eqn:Em; try contradiction; (destruct (main_step N checks t) as [t1|]; [|discriminate]; injection St as <- <-; eauto). }
    destruct X as (t1 & Ms & ->). destruct (executing_step _ _ _ _ _ _ _ _ R D Ms) as (_ & _ & ->). exact F.
  - destruct (evs a); [injection St as <- <-; exact F|]. destruct (negb (distinct (evs (has_todo a)))); [|destruct (forallb (is_set t) (evs (has_todo a))); [|destruct (did (has_todo a) || first_pass (has_todo a)); [|discriminate]]]; injection St as <- <-; exact F.
  - destruct (nth_error (evs a) j) as [s|] eqn:Ee; [|injection St as <- <-; exact F]. destruct (Kn2 _ (nth_error_In _ _ Ee)) as [Ia _].
    unfold mark in St. destruct (in_use t s) as [[x w]|] eqn:Us; [|elim (U s (Kn1 _ Ia) Us)]. cbv beta iota in St. injection St as <- <-. exact F.
  - discriminate.
Qed.

(** ** Dispatches and what is logged *)
Definition inprog (m : main) : nat := match m with M_try _ | M_block _ | M_claim _ _ | M_store _ _ _ | M_pos _ _ _ | M_post _ _ => 1 | _ => 0 end.
Lemma dc_snoc l e : dispatched_count (l ++ [e]) = dispatched_count l + match e with Dispatched _ => 1 | _ => 0 end.
Proof using. unfold dispatched_count. rewrite filter_snoc. destruct e; reflexivity. Qed.
Definition started (t : state) : nat := dispatched_count (log t) + inprog (main_at t).
Lemma started_exec l t t' : dq_inv N t -> exec N C checks l t = Some t' ->
  started t' = started t + (if dispatches l then 1 else 0) \/ dispatches l = true /\ (t' = t \/ exists s, in_use t s = None /\ t' = failed t /\ main_at t = M_ready).
Proof using.
  clear HN HK.
  intros D. unfold exec. destruct (fault t); [discriminate|]. destruct l as [deferred|s|s|s|s| | |k|]; cbn [dispatches].
  - destruct (main_at t) eqn:Em; try discriminate. rewrite allocate_eq. unfold alloc_in.
    set (t0 := match first_block 0 (counts t) with Some _ => t | None => extended C t end).
    assert (H0 : log t0 = log t /\ main_at t0 = main_at t) by (unfold t0; destruct (first_block 0 (counts t)); auto). clearbody t0. destruct H0 as [H0 H1].
    destruct (first_block 0 (counts t0)) as [i|]; [|discriminate]. cbv beta iota.
    destruct (first_true (i * C) (firstn C (skipn (i * C) (avail t0)))) as [s'|]; [|discriminate]. cbv beta iota.
    destruct (nth_error (slots t0) s') as [x|]; [|discriminate]. cbv beta iota.
    destruct (nth_error (counts t0) i) as [cc|]; [|discriminate]. cbv beta iota.
    destruct deferred; intros [= <-]; left; unfold started; projections; cbn [taken log main_at with_main inprog negb]; rewrite ?H0, ?H1, ?Em; cbn [inprog]; lia.
  - destruct (main_at t) eqn:Em; try discriminate. destruct (in_use t s) as [[x w]|] eqn:U; intros [= <-]; [unfold begin_dispatch; destruct (ring_pos x)|].
    + right. auto.
    + left. unfold started. projections. rewrite Em. cbn [inprog]. lia.
    + right. split; [reflexivity|]. right. exists s. auto.
  - destruct (main_at t) eqn:Em; try discriminate. destruct (in_use t s) as [[x w]|] eqn:U; intros [= <-]; left; unfold started; projections; rewrite Em; cbn [inprog]; lia.
  - destruct (main_at t) eqn:Em; try discriminate. destruct (in_use t s) as [[x w]|] eqn:U; intros [= <-]; left; unfold started; projections; rewrite Em; cbn [inprog]; lia.
  - destruct (main_at t) eqn:Em; try discriminate. destruct (in_use t s) as [[x w]|] eqn:U; intros [= <-]; left; unfold started; projections; rewrite Em; cbn [inprog]; lia.
  - intros H. left. rewrite Nat.add_0_r. pose proof (dq_cas N t) as Cas. unfold main_step in H. unfold started.
    destruct (main_at t) as [|s|s|dd s|dd s p|dd s p|dd s|s w inf|s w|s w inf|s w ok|s w|s w w'|s w|s w|s w|s w|s w|s w|s w] eqn:Em; try discriminate H; try (destruct dd; cbn [the_q with_q] in H);
    try (repeat match type of H with context [match ?e with _ => _ end] => lazymatch e with pop_slot _ _ _ => fail | _ => destruct e eqn:?; cbv beta iota in H; try discriminate H end end; injection H as <-; projections; rewrite ?dc_snoc, ?Em; cbn [inprog]; lia).
    + rewrite (Cas s p D eq_refl) in H. injection H as <-. projections. cbn [inprog]. lia.
    + destruct (nth_error (slots t) s) as [x|] eqn:Ex; [|discriminate]. cbv beta iota in H. destruct (pop_slot s x t) as [[[b t1]|]|] eqn:Ep; cbv beta iota in H; [| |discriminate].
      * apply pop_slot_some in Ep. destruct b; injection H as <-; (destruct Ep as [->|(p & Lp & ->)]; projections; rewrite ?dc_snoc; cbn [inprog]; lia).
      * injection H as <-. projections. rewrite Em. reflexivity.
    + destruct (nth_error (slots t) s) as [x|] eqn:Ex; [|discriminate]. cbv beta iota in H. destruct (pop_slot s x t) as [[[b t1]|]|] eqn:Ep; cbv beta iota in H; [| |discriminate].
      * apply pop_slot_some in Ep. destruct b; injection H as <-; (destruct Ep as [->|(p & Lp & ->)]; projections; rewrite ?dc_snoc; cbn [inprog]; lia).
      * injection H as <-. projections. rewrite Em. reflexivity.
  - destruct (main_at t) as [| | | | | | | | |s w inf| | | | | | | | | |] eqn:Em; try discriminate. destruct inf; [discriminate|]. intros [= <-]. left. unfold started. projections. rewrite Em. cbn [inprog]. lia.
  - intros H. left. rewrite Nat.add_0_r. unfold started. rewrite (worker_main _ _ _ _ H). f_equal. unfold worker_step in H.
    repeat match type of H with context [match ?e with _ => _ end] => destruct e eqn:?; cbv beta iota in H; try discriminate H end; injection H as <-; projections; rewrite ?dc_snoc; lia.
  - intros H. left. rewrite Nat.add_0_r. unfold started. rewrite (dispatcher_main _ _ _ H). f_equal. unfold dispatcher_step in H.
    repeat match type of H with context [match ?e with _ => _ end] => destruct e eqn:?; cbv beta iota in H; try discriminate H end; injection H as <-; reflexivity.
Qed.
Lemma reach_started t d : reach t d -> reach t (started t).
Proof using.
  clear HN HK.
  intros (ls & H & _). remember (initial N C n) as t0 eqn:E0. induction H as [t|t ls t1 l t2 H IH Tl Ps Ex].
  - subst t. exists []. split; [constructor|reflexivity].
  - specialize (IH E0). pose proof (reach_dq _ _ _ _ _ _ IH) as Dq. destruct (started_exec _ _ _ Dq Ex) as [E|[Dl [->|(s & U & -> & M)]]].
    + destruct IH as (ls' & IH & Ed). exists (ls' ++ [l]). split; [econstructor; eauto|]. rewrite filter_snoc, Ed. symmetry. exact E.
    + exact IH.
    + apply (reach_failed N C n checks t1 (started t1) s); auto. exact (exec_fault _ _ _ _ _ _ Ex).
Qed.

(** ** Somebody can go on *)
Lemma all_progress hs a t d : 0 < n -> reach t d -> started t <= N -> fault t = false -> all_inv K hs a t -> (forall ok, apc_of a <> P_return ok) ->
  (forall l, environment l = true -> exec N C checks l t = None) -> all_step N checks K hs a t <> None.
Proof using HN.
  clear HK.
  intros Hn R Ls F [[Kn1 Kn2] H] Np Qu. apply reach_started in R.
  assert (Ri : exists d c r, ring_inv N t d c r). { destruct R as (ls & R & Ed). rewrite <- Ed in Ls. destruct (careful_ring _ _ _ _ _ _ R Ls) as (c & r & X). eauto. }
  destruct Ri as (dd & cc & rr & Ri).
  assert (Wk : 0 < length (workers t)) by (destruct R as (ls & R & _); rewrite (careful_len _ _ _ _ _ _ R); exact Hn).
  assert (On : main_step N checks t = None -> only_calls N C checks t).
  { intros Ms l Hl. destruct l; try discriminate Hl; try (apply Qu; reflexivity).
    - unfold exec. rewrite F. exact Ms.
    - unfold exec. rewrite F. destruct (main_at t) as [| | | | | | | | |s w inf| | | | | | | | | |] eqn:Em; try reflexivity. destruct inf; [reflexivity|]. exfalso.
      pose proof (i_main t (reach_inv _ _ _ _ _ _ R)) as Mi. unfold main_inv in Mi. rewrite Em in Mi. destruct Mi as [Mi _]. discriminate. }
  assert (Run : main_at t <> M_ready -> main_step N checks t <> None).
  { intros Nr Ms. apply Nr. exact (quiet_ready N C checks t dd cc rr (reach_inv _ _ _ _ _ _ R) Ri (reach_pos _ _ _ _ _ _ HN R) F Wk (On Ms)). }
  unfold all_step. destruct (apc_of a) as [c|c i|c i s|c i s|c i|c i s|c i s|c i s|c|c j|ok] eqn:Ep.
  - destruct (Nat.ltb c (length hs)); [|destruct (todo a)]; discriminate.
  - destruct (Nat.ltb i (Nat.min K (length hs - c))).
    + destruct (nth_error hs (c + i)) as [[s|]|]; try discriminate. destruct (in_use t s) as [[x w]|]; [destruct (signaled x)|]; discriminate.
    + destruct (acc a); discriminate.
  - destruct H as (_ & _ & _ & _ & (x & w & Ex & _)). rewrite Ex. cbv beta iota. destruct (no_pos x); discriminate.
  - destruct H as (M & _). destruct M as [D|M]; [|rewrite M; discriminate]. destruct (main_at t) eqn:Em; try contradiction; (destruct (main_step N checks t) as [t1|]; [discriminate|elim Run; [discriminate|reflexivity]]).
  - destruct (nth_error (acc a) i) as [s|] eqn:Ea; [|discriminate]. destruct (Kn1 _ (nth_error_In _ _ Ea)) as (x & w & Ex & _). rewrite Ex. cbv beta iota. destruct (no_pos x); discriminate.
  - destruct H as (M & _). destruct M as [D|[M Hp]].
    + destruct (main_at t) eqn:Em; try contradiction; (destruct (main_step N checks t) as [t1|]; [discriminate|elim Run; [discriminate|reflexivity]]).
    + rewrite M. destruct (in_use t s) as [[x w]|]; [destruct (no_pos x)|]; discriminate.
  - destruct H as (M & Hp & _ & _ & Ea). destruct (in_use t s) as [[x w]|] eqn:U; [|discriminate]. apply in_use_some in U as [Ex Ew].
    assert (Po : pop_slot s x t <> None).
    { unfold pop_slot. pose proof (reach_pos _ _ _ _ _ _ HN R) as [Ps _]. pose proof (Forall_nth_some _ _ _ _ Ps Ex) as Px. unfold pos_slot in Px. destruct (ring_pos x) as [p|]; [|discriminate].
      destruct (nth_error (ring (wq t)) p) as [y|] eqn:E; [|apply nth_error_None in E; rewrite (reach_len _ _ _ _ _ _ R) in E; lia]. cbv beta iota. destruct (match y with Some s' => Nat.eqb s' s | None => false end); discriminate. }
    destruct (pop_slot s x t) as [[[[] t1]|]|]; [discriminate|discriminate|discriminate|congruence].
  - destruct H as (M & _). destruct M as [D|[M _]]; [|rewrite M; discriminate]. destruct (main_at t) eqn:Em; try contradiction; (destruct (main_step N checks t) as [t1|]; [discriminate|elim Run; [discriminate|reflexivity]]).
  - destruct H as (M & _). assert (Al : forallb (is_set t) (evs a) = true).
    { apply forallb_forall. intros s Is. destruct (Kn2 s Is) as [Ia (x & Ex & Hp)]. destruct (Kn1 s Ia) as (x' & w & Ex' & Ew). rewrite Ex in Ex'. injection Ex' as <-.
      assert (O : only_calls N C checks t) by (apply On; unfold main_step; rewrite M; reflexivity).
      pose proof (quiet_counts N C checks t dd cc rr (reach_inv _ _ _ _ _ _ R) Ri F O Wk) as Z. rewrite M in Z. specialize (Z eq_refl eq_refl s). destruct Z as (Z1 & Z2 & Z3 & Z4). cbn [m_new m_in m_out m_late] in Z1, Z2, Z3, Z4.
      pose proof (i_slot t (reach_inv _ _ _ _ _ _ R) s) as V. unfold slot_inv in V. rewrite Ex, Ew, F, M in V. destruct V as [_ V]. cbn [flag resetting placed pushing] in V.
      unfold is_set. rewrite Ex. assert (Hp' : hp x > 0) by (unfold hp; destruct (ring_pos x); [lia|congruence]). unfold used in V. destruct (evt x) eqn:Ev; [reflexivity|]. cbn [flag] in V. lia. }
    destruct (evs a) as [|s0 l] eqn:Ee; [discriminate|]. cbn [evs has_todo]. rewrite Ee, Al. destruct (negb (distinct (s0 :: l))); discriminate.
  - destruct (nth_error (evs a) j) as [s|]; [|discriminate]. unfold mark. destruct (in_use t s) as [[x w]|]; discriminate.
  - elim (Np ok eq_refl).
Qed.
End Sys.
