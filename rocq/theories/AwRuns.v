(** Complete runs of a wait for all of several handles. *)
From Coq Require Import Arith Bool List Lia.
From Verif Require Import Base AsModel AsSpec AsProofs AsSteps AsWorker AsMain AsCalls AsProgress AsRing AsQuiet AsLegal AwModel AwSpec AwQueue AwReach AwAll AwMulti AwSys AwDist AwLive.
Import ListNotations.

Section Runs.
Variables N C n K : nat.
Variable checks : bool.
Hypothesis HN : 0 < N.
Hypothesis HK : 0 < K.
Notation reach := (reach N C n checks).
Notation xexec := (xexec N C checks K).
Notation xexecs := (xexecs N C checks K).
Definition all_ok (hs : list handle) (a : all_call) (t : state) : Prop :=
  (exists d, reach t d) /\ (fault t = true \/ all_inv K hs a t).
Definition ghost_ok (hs : list handle) (t0 : state) (a : all_call) (t : state) : Prop := fault t = true \/ live_inv K hs t0 a t.
Lemma env_allowed l t : environment l = true -> timed l = false /\ (is_push l = true -> ~ stale t).
Proof using. clear HN HK. destruct l; try discriminate; split; try reflexivity; discriminate. Qed.
Lemma env_weight l t t' : environment l = true -> exec N C checks l t = Some t' -> weight t' < weight t.
Proof using. clear HN HK. intros E. apply step_weight. destruct l; try discriminate; reflexivity. Qed.
Lemma call_step hs a t t0 l c' t' : in_call l = true -> all_ok hs a t -> ghost_ok hs t0 a t -> xexec l (All hs a) t = Some (c', t') ->
  exists a' t0', c' = All hs a' /\ all_ok hs a' t' /\ ghost_ok hs t0' a' t' /\ measure K hs t0' a' t' < measure K hs t0 a t.
Proof using HN HK.
  intros Cl [[d R] Iv] Gh H. unfold AwModel.xexec in H. destruct (fault t) eqn:F; [discriminate|]. destruct Iv as [|Iv]; [discriminate|]. destruct Gh as [|Gh]; [congruence|].
  destruct l as [l| | |over sel]; try discriminate Cl.
  - cbn [in_call] in Cl. rewrite Cl in H. cbn [orb] in H. destruct (exec N C checks l t) as [t1|] eqn:X; [|discriminate]. cbv beta iota in H. injection H as <- <-.
    destruct (env_step _ _ _ _ _ _ Cl X) as [Kp M]. exists a, t0. split; [reflexivity|split; [split|split]].
    + destruct R as (ls & R & Ed). destruct (env_allowed l t Cl) as [A1 A2]. exists (length (filter dispatches (ls ++ [l]))), (ls ++ [l]). split; [|reflexivity]. econstructor; eauto.
    + right. exact (all_env _ _ _ _ _ Kp M Iv).
    + right. exact (live_env _ _ _ _ _ _ Kp M Gh).
    + apply weight_lt. exact (env_weight _ _ _ Cl X).
  - destruct (all_step N checks K hs a t) as [[a1 t1]|] eqn:St; [|discriminate]. cbv beta iota in H. injection H as <- <-.
    destruct (live_step N C n K checks hs HK t0 a t d a1 t1 HN R F Iv Gh St) as (t0' & G' & Ms). exists a1, t0'. split; [reflexivity|].
    destruct (all_step_inv _ _ _ _ _ _ _ _ _ _ _ HN HK R F Iv St) as [R' [F'|[I' _]]]; (split; [split; auto|split; [exact G'|exact Ms]]).
Qed.
Theorem call_bound hs ls : forall a t t0 c' t', forallb in_call ls = true -> all_ok hs a t -> ghost_ok hs t0 a t -> xexecs ls (All hs a) t = Some (c', t') -> length ls <= measure K hs t0 a t.
Proof using HN HK.
  induction ls as [|l ls IH]; intros a t t0 c' t' Cl Ok Gh H; [cbn [length]; lia|]. cbn [forallb] in Cl. apply andb_true_iff in Cl as [C1 C2]. cbn [AwModel.xexecs] in H.
  destruct (xexec l (All hs a) t) as [[c1 t1]|] eqn:X; [|discriminate]. cbv beta iota in H. destruct (call_step _ _ _ _ _ _ _ C1 Ok Gh X) as (a1 & t01 & -> & Ok1 & Gh1 & L). specialize (IH _ _ _ _ _ C2 Ok1 Gh1 H). cbn [length]. lia.
Qed.
Lemma start_live hs p t : live_inv K hs t (start_all p) t.
Proof using. clear HN HK. split; [apply keeps_refl|split; [intros s []|split; [discriminate|split; [discriminate|exact I]]]]. Qed.
Lemma xcareful_live ls c t : xcareful N C checks K (NoCall []) (initial N C n) ls c t -> forall hs a, c = All hs a -> over_call c = true \/ exists t0, ghost_ok hs t0 a t.
Proof using HN HK.
  intros H. induction H as [|ls c t l c' t' H IH Al X]; intros hs a E; [discriminate|]. subst c'.
  destruct (xcareful_inv N C n K checks HN HK _ _ _ H) as [[d R] Iv]. pose proof X as X'. unfold AwModel.xexec in X. destruct (fault t) eqn:F; [discriminate|]. destruct Iv as [|Iv]; [discriminate|].
  destruct l as [l|hs'|hs' all m|over sel].
  - destruct (environment l || over_call c) eqn:Eo; [|discriminate]. destruct (exec N C checks l t) as [t1|] eqn:Xe; [|discriminate]. cbv beta iota in X. injection X as -> ->.
    destruct (over_call (All hs a)) eqn:Oc; [left; reflexivity|]. rewrite orb_false_r in Eo. destruct (IH hs a eq_refl) as [|(t0 & G)]; [discriminate|]. destruct Iv as [|Iv]; [discriminate|].
    destruct (call_step hs a t t0 (X l) (All hs a) t' Eo) as (a' & t0' & E' & _ & G' & _); [split; [exists d; exact R|right; exact Iv]|exact G|exact X'|]. injection E' as <-. right. exists t0'. exact G'.
  - destruct (over_call c); [|discriminate]. destruct (main_at t); try discriminate. injection X as <- <- <-. right. exists t. right. apply start_live.
  - destruct (over_call c && _); [|discriminate]. destruct (main_at t); discriminate.
  - destruct c as [p|hs0 a0|p hs0 all m w]; [discriminate| |destruct (multi_step N checks K hs0 all m over sel w t) as [[w1 t1]|]; discriminate].
    assert (Oc : over_call (All hs0 a0) = false). { destruct (over_call (All hs0 a0)) eqn:Oc; [|reflexivity]. exfalso. cbn [over_call] in Oc. unfold all_step in X. destruct (apc_of a0); try discriminate. }
    destruct (IH hs0 a0 eq_refl) as [|(t0 & G)]; [congruence|]. destruct Iv as [|Iv]; [congruence|].
    destruct (call_step hs0 a0 t t0 (X_go over sel) (All hs a) t' eq_refl) as (a' & t0' & E' & _ & G' & _); [split; [exists d; exact R|right; exact Iv]|exact G|exact X'|]. injection E' as <- <-. right. exists t0'. exact G'.
Qed.
Lemma xcareful_dist ls c t : xcareful N C checks K (NoCall []) (initial N C n) ls c t -> forall hs a, c = All hs a -> unique hs -> dist_inv hs a.
Proof using.
  clear HN HK. intros H. induction H as [|ls c t l c' t' H IH Al X]; intros hs a E U; [discriminate|]. subst c'. unfold AwModel.xexec in X. destruct (fault t) eqn:F; [discriminate|]. destruct l as [l|hs'|hs' all m|over sel].
  - destruct (environment l || over_call c) eqn:Eo; [|discriminate]. destruct (exec N C checks l t) as [t1|] eqn:Xe; [|discriminate]. cbv beta iota in X. injection X as -> ->. exact (IH hs a eq_refl U).
  - destruct (over_call c); [|discriminate]. destruct (main_at t); try discriminate. injection X as <- <- <-. split; [constructor|split; [constructor|exact I]].
  - destruct (over_call c && _); [|discriminate]. destruct (main_at t); discriminate.
  - destruct c as [p|hs0 a0|p hs0 all m w]; [discriminate| |destruct (multi_step N checks K hs0 all m over sel w t) as [[w1 t1]|]; discriminate].
    destruct (all_step N checks K hs0 a0 t) as [[a1 t1]|] eqn:St; [|discriminate]. cbv beta iota in X. injection X as -> -> ->. exact (dist_step N K checks hs U a0 t a t' (IH hs a0 eq_refl U) St).
Qed.

(** ** Nothing fails *)
Lemma count_le t t' : keeps t t' -> dispatched_count (log t) <= dispatched_count (log t').
Proof using. clear HN HK. intros [_ (le & ->)]. unfold dispatched_count. rewrite filter_app, app_length. lia. Qed.
Lemma inprog_le m : inprog m <= 1.
Proof using. clear HN HK. destruct m; cbn [inprog]; lia. Qed.
Lemma all_wait_ok hs a t : all_inv K hs a t -> (forall ok, apc_of a <> P_return ok) -> wait_ok t.
Proof using.
  clear HN HK. intros [_ H] Np. unfold wait_ok. destruct (main_at t) eqn:Em; try exact I; exfalso;
    (destruct (apc_of a) eqn:Ep; try (destruct H as (M & _); first [discriminate M|destruct M as [[]|M]; first [discriminate M|destruct M as [M _]; discriminate M]]); exact (Np _ eq_refl)).
Qed.
Lemma env_checks l t : environment l = true -> exec N C checks l t = exec N C false l t.
Proof using. clear HN HK. destruct l; try discriminate; reflexivity. Qed.
Lemma call_no_fault hs a t d l c' t' : in_call l = true -> reach t d -> fault t = false -> all_inv K hs a t -> over_call (All hs a) = false -> started t <= N -> (forall s, In (Some s) hs -> busy t s) ->
  xexec l (All hs a) t = Some (c', t') -> fault t' = false.
Proof using HN.
  clear HK. intros Cl R F Iv Oc Ls Bu H. unfold AwModel.xexec in H. rewrite F in H. destruct l as [l| | |over sel]; try discriminate Cl.
  - cbn [in_call] in Cl. rewrite Cl in H. cbn [orb] in H. destruct (exec N C checks l t) as [t1|] eqn:X; [|discriminate]. cbv beta iota in H. injection H as <- <-. rewrite (env_checks _ _ Cl) in X.
    pose proof (reach_started _ _ _ _ _ _ R) as (ls & Rc & Ed). rewrite <- Ed in Ls. destruct (careful_ring _ _ _ _ _ _ Rc Ls) as (c & r & Ri).
    apply (legal_step N C l t t1 _ _ _ (reach_inv _ _ _ _ _ _ R) Ri F); auto.
    + apply (all_wait_ok hs a); [exact Iv|]. intros ok E. cbn [over_call] in Oc. rewrite E in Oc. discriminate.
    + exact (proj1 (env_allowed l t Cl)).
    + destruct l; try discriminate; exact I.
  - destruct (all_step N checks K hs a t) as [[a1 t1]|] eqn:St; [|discriminate]. cbv beta iota in H. injection H as <- <-. exact (all_no_fault N C n K checks hs a t d a1 t1 R F Iv Bu St).
Qed.
Lemma call_keeps hs a t l c' t' : in_call l = true -> all_ok hs a t -> xexec l (All hs a) t = Some (c', t') -> fault t' = false -> keeps t t'.
Proof using HN HK.
  intros Cl [[d R] Iv] H F'. unfold AwModel.xexec in H. destruct (fault t) eqn:F; [discriminate|]. destruct Iv as [|Iv]; [discriminate|]. destruct l as [l| | |over sel]; try discriminate Cl.
  - cbn [in_call] in Cl. rewrite Cl in H. cbn [orb] in H. destruct (exec N C checks l t) as [t1|] eqn:X; [|discriminate]. cbv beta iota in H. injection H as <- <-. exact (proj1 (env_step _ _ _ _ _ _ Cl X)).
  - destruct (all_step N checks K hs a t) as [[a1 t1]|] eqn:St; [|discriminate]. cbv beta iota in H. injection H as <- <-. destruct (all_step_inv _ _ _ _ _ _ _ _ _ _ _ HN HK R F Iv St) as [_ [X|[_ X]]]; [congruence|exact X].
Qed.
Lemma dist_call hs a t l c' t' : in_call l = true -> unique hs -> dist_inv hs a -> xexec l (All hs a) t = Some (c', t') -> forall a', c' = All hs a' -> dist_inv hs a'.
Proof using.
  clear HN HK. intros Cl U Di H a' ->. unfold AwModel.xexec in H. destruct (fault t); [discriminate|]. destruct l as [l| | |over sel]; try discriminate Cl.
  - destruct (environment l || _); [|discriminate]. destruct (exec N C checks l t) as [t1|]; [|discriminate]. cbv beta iota in H. injection H as <- <-. exact Di.
  - destruct (all_step N checks K hs a t) as [[a1 t1]|] eqn:St; [|discriminate]. cbv beta iota in H. injection H as -> ->. exact (dist_step N K checks hs U a t a' t' Di St).
Qed.
Definition grows (t t' : state) : Prop := exists le, log t' = log t ++ le.
Lemma grows_same t t' : log t' = log t -> grows t t'.
Proof using. clear HN HK. intros E. exists []. rewrite E. symmetry. apply app_nil_r. Qed.
Lemma main_grows t t' : main_step N checks t = Some t' -> grows t t'.
Proof using.
  clear HN HK. unfold main_step. intros H.
  destruct (main_at t) as [|s|s|dd s|dd s p|dd s p|dd s|s w inf|s w|s w inf|s w ok|s w|s w w'|s w|s w|s w|s w|s w|s w|s w] eqn:Em; try discriminate H; try (destruct dd; cbn [the_q with_q] in H);
    try (repeat match type of H with context [match ?e with _ => _ end] => lazymatch e with pop_slot _ _ _ => fail | _ => destruct e eqn:?; cbv beta iota in H; try discriminate H end end; injection H as <-; first [apply grows_same; reflexivity|eexists; reflexivity]; fail).
  - destruct (nth_error (slots t) s) as [x|]; [|discriminate]. cbv beta iota in H. destruct (pop_slot s x t) as [[[b t1]|]|] eqn:Ep; cbv beta iota in H; [| |discriminate].
    + apply pop_slot_some in Ep. destruct b; injection H as <-; (destruct Ep as [->|(p & Lp & ->)]; apply grows_same; reflexivity).
    + injection H as <-. apply grows_same. reflexivity.
  - destruct (nth_error (slots t) s) as [x|]; [|discriminate]. cbv beta iota in H. destruct (pop_slot s x t) as [[[b t1]|]|] eqn:Ep; cbv beta iota in H; [| |discriminate].
    + apply pop_slot_some in Ep. destruct b; injection H as <-; (destruct Ep as [->|(p & Lp & ->)]; first [apply grows_same; reflexivity|eexists; reflexivity]).
    + injection H as <-. apply grows_same. reflexivity.
Qed.
Lemma all_grows hs a t a' t' : all_step N checks K hs a t = Some (a', t') -> grows t t'.
Proof using.
  clear HN HK. unfold all_step. intros St.
  assert (Dispatch : forall p, match main_at t with M_ready => Some (p, t) | _ => t' <- main_step N checks t ;; Some (a, t') end = Some (a', t') -> grows t t').
  { intros p X. destruct (main_at t); try (destruct (main_step N checks t) as [t1|] eqn:Ms; [|discriminate]; injection X as <- <-; exact (main_grows _ _ Ms)). injection X as <- <-. apply grows_same. reflexivity. }
  destruct (apc_of a) as [c|c i|c i s|c i s|c i|c i s|c i s|c i s|c|c j|ok]; try discriminate St; try (exact (Dispatch _ St)).
  - apply grows_same. destruct (Nat.ltb c (length hs)); [|destruct (todo a)]; injection St as <- <-; reflexivity.
  - apply grows_same. destruct (Nat.ltb i (Nat.min K (length hs - c))); [destruct (nth_error hs (c + i)) as [[s|]|]; [destruct (in_use t s) as [[x w]|]; [destruct (signaled x)|]|..]|destruct (acc a)]; injection St as <- <-; reflexivity.
  - apply grows_same. destruct (nth_error (slots t) s) as [x|]; [|discriminate]. cbv beta iota in St. destruct (no_pos x); injection St as <- <-; reflexivity.
  - apply grows_same. destruct (nth_error (acc a) i) as [s|]; [|injection St as <- <-; reflexivity]. destruct (nth_error (slots t) s) as [x|]; [|discriminate]. cbv beta iota in St. destruct (no_pos x); injection St as <- <-; reflexivity.
  - destruct (main_at t); try (destruct (main_step N checks t) as [t1|] eqn:Ms; [|discriminate]; injection St as <- <-; exact (main_grows _ _ Ms)).
    apply grows_same. destruct (in_use t s) as [[x w]|]; [destruct (no_pos x)|]; injection St as <- <-; reflexivity.
  - destruct (in_use t s) as [[x w]|]; [|injection St as <- <-; apply grows_same; reflexivity]. destruct (pop_slot s x t) as [[[b t1]|]|] eqn:Ep; cbv beta iota in St; [|injection St as <- <-; apply grows_same; reflexivity|discriminate].
    apply pop_slot_some in Ep. destruct b; injection St as <- <-; (destruct Ep as [->|(p & Lp & ->)]; apply grows_same; reflexivity).
  - apply grows_same. destruct (evs a); [injection St as <- <-; reflexivity|]. destruct (negb (distinct (evs (has_todo a)))); [|destruct (forallb (is_set t) (evs (has_todo a))); [|destruct (did (has_todo a) || first_pass (has_todo a)); [|discriminate]]]; injection St as <- <-; reflexivity.
  - destruct (nth_error (evs a) j) as [s|]; [|injection St as <- <-; apply grows_same; reflexivity]. unfold mark in St. destruct (in_use t s) as [[x w]|]; injection St as <- <-; [eexists; reflexivity|apply grows_same; reflexivity].
Qed.
Lemma log_grows hs ls : forall a t c' t', forallb in_call ls = true -> xexecs ls (All hs a) t = Some (c', t') -> grows t t'.
Proof using.
  clear HN HK. induction ls as [|l ls IH]; intros a t c' t' Cl H; [injection H as <- <-; apply grows_same; reflexivity|].
  cbn [forallb] in Cl. apply andb_true_iff in Cl as [C1 C2]. cbn [AwModel.xexecs] in H. destruct (xexec l (All hs a) t) as [[c1 t1]|] eqn:X; [|discriminate]. cbv beta iota in H.
  assert (G : grows t t1 /\ exists a1, c1 = All hs a1).
  { unfold AwModel.xexec in X. destruct (fault t); [discriminate|]. destruct l as [l| | |over sel]; try discriminate C1.
    - destruct (environment l || _); [|discriminate]. destruct (exec N C checks l t) as [t2|] eqn:Xe; [|discriminate]. cbv beta iota in X. injection X as <- <-. cbn [in_call] in C1. split; [exact (proj2 (proj1 (env_step _ _ _ _ _ _ C1 Xe)))|eauto].
    - destruct (all_step N checks K hs a t) as [[a1 t2]|] eqn:St; [|discriminate]. cbv beta iota in X. injection X as <- <-. split; [exact (all_grows _ _ _ _ _ St)|eauto]. }
  destruct G as [(l0 & E0) (a1 & ->)]. destruct (IH _ _ _ _ C2 H) as (le & E1). unfold grows. rewrite E1, E0. exists (l0 ++ le). rewrite app_assoc. reflexivity.
Qed.
Lemma started_le t t' : grows t t' -> dispatched_count (log t') < N -> started t <= N.
Proof using.
  clear HN HK. intros (le & E) L. unfold started. pose proof (inprog_le (main_at t)). rewrite E in L. unfold dispatched_count in *. rewrite filter_app, app_length in L. lia.
Qed.
(** while the call goes on *)
Record going (hs : list handle) (a : all_call) (t : state) : Prop := {
  g_reach : exists d, reach t d; g_fault : fault t = false; g_inv : all_inv K hs a t; g_dist : dist_inv hs a; g_busy : forall s, In (Some s) hs -> busy t s }.
Lemma going_run hs ls : unique hs -> forall a t c' t', forallb in_call ls = true -> going hs a t -> xexecs ls (All hs a) t = Some (c', t') -> dispatched_count (log t') < N ->
  (exists a', c' = All hs a' /\ going hs a' t').
Proof using HN HK.
  intros U. induction ls as [|l ls IH]; intros a t c' t' Cl G H L; [injection H as <- <-; eauto|].
  pose proof (log_grows _ _ _ _ _ _ Cl H) as Gr. cbn [forallb] in Cl. apply andb_true_iff in Cl as [C1 C2]. cbn [AwModel.xexecs] in H. destruct (xexec l (All hs a) t) as [[c1 t1]|] eqn:X; [|discriminate]. cbv beta iota in H.
  destruct G as [[d R] F Iv Di Bu].
  assert (F1 : fault t1 = false).
  { destruct (over_call (All hs a)) eqn:Oc; [|exact (call_no_fault hs a t d l c1 t1 C1 R F Iv Oc (started_le _ _ Gr L) Bu X)].
    pose proof (reach_started _ _ _ _ _ _ R) as (ls0 & Rc & Ed). pose proof (started_le _ _ Gr L) as Ls. rewrite <- Ed in Ls. destruct (careful_ring _ _ _ _ _ _ Rc Ls) as (c & r & Ri).
    unfold AwModel.xexec in X. rewrite F in X. destruct l as [l| | |over sel]; try discriminate C1.
    - destruct (environment l || _); [|discriminate]. destruct (exec N C checks l t) as [t2|] eqn:Xe; [|discriminate]. cbv beta iota in X. injection X as <- <-. cbn [in_call] in C1.
      clear - Xe C1 R Ri F. unfold exec in Xe. rewrite F in Xe. destruct l; try discriminate C1.
      + unfold worker_step in Xe. destruct (nth_error (workers t) k) as [w0|] eqn:Ek; [|discriminate]. cbv beta iota in Xe. destruct w0 as [| |p|o|s|s w|s w|s w].
        * destruct (read_sem (wq t)) as [|m]; [discriminate|]. injection Xe as <-. exact F.
        * injection Xe as <-. exact F.
        * destruct (nth_error (ring (wq t)) p); [|discriminate]. injection Xe as <-. exact F.
        * injection Xe as <-. exact F.
        * destruct (nth_error (slots t) s) as [x|] eqn:Ex; [|discriminate]. cbv beta iota in Xe. destruct (work x) as [w|] eqn:Ew; [injection Xe as <-; exact F|].
          exfalso. pose proof (tot_ge (w_new s) _ _ _ Ek) as G. cbn [w_new] in G. rewrite same_refl in G. pose proof (i_slot t (reach_inv _ _ _ _ _ _ R) s) as V. unfold slot_inv in V. rewrite Ex, Ew in V. unfold unused, c_new in V. destruct V as [_ V]. lia.
        * injection Xe as <-. exact F.
        * destruct (nth_error (slots t) s); [|discriminate]. injection Xe as <-. exact F.
        * destruct (nth_error (slots t) s); [|discriminate]. injection Xe as <-. exact F.
      + unfold dispatcher_step in Xe. rewrite (r_dq _ _ _ _ _ Ri), (r_arr _ _ _ _ _ Ri) in Xe. destruct (negb (dispatcher t)); discriminate.
    - exfalso. cbn [over_call] in Oc. unfold all_step in X. destruct (apc_of a); try discriminate. }
  assert (Ok : all_ok hs a t) by (split; [exists d; exact R|right; exact Iv]).
  pose proof (call_keeps hs a t l c1 t1 C1 Ok X F1) as Kp.
  assert (S1 : exists a1, c1 = All hs a1 /\ (exists d1, reach t1 d1) /\ all_inv K hs a1 t1).
  { pose proof X as X'. unfold AwModel.xexec in X'. rewrite F in X'. destruct l as [l| | |over sel]; try discriminate C1.
    - cbn [in_call] in C1. rewrite C1 in X'. cbn [orb] in X'. destruct (exec N C checks l t) as [t2|] eqn:Xe; [|discriminate]. cbv beta iota in X'. injection X' as <- <-. exists a. split; [reflexivity|]. split.
      + destruct R as (ls0 & R & Ed). destruct (env_allowed l t C1) as [A1 A2]. exists (length (filter dispatches (ls0 ++ [l]))), (ls0 ++ [l]). split; [|reflexivity]. econstructor; eauto.
      + exact (all_env _ _ _ _ _ Kp (proj2 (env_step _ _ _ _ _ _ C1 Xe)) Iv).
    - destruct (all_step N checks K hs a t) as [[a1 t2]|] eqn:St; [|discriminate]. cbv beta iota in X'. injection X' as <- <-. exists a1. split; [reflexivity|].
      destruct (all_step_inv _ _ _ _ _ _ _ _ _ _ _ HN HK R F Iv St) as [R' [F'|[I' _]]]; [congruence|auto]. }
  destruct S1 as (a1 & -> & R1 & I1). apply (IH a1 t1 c' t' C2); auto. constructor; auto.
  - exact (dist_call hs a t l _ t1 C1 U Di X a1 eq_refl).
  - intros s Hs. exact (keeps_busy _ _ _ Kp (Bu s Hs)).
Qed.
Theorem call_returns hs a t ls c' t' : 0 < n -> unique hs -> going hs a t -> forallb in_call ls = true -> xexecs ls (All hs a) t = Some (c', t') -> dispatched_count (log t') < N ->
  fault t' = false /\ ((forall l, in_call l = true -> xexec l c' t' = None) -> exists a', c' = All hs a' /\ apc_of a' = P_return true /\ forall s, In (Some s) hs -> ended t' s).
Proof using HN HK.
  intros Hn U G Cl H L. destruct (going_run hs ls U a t c' t' Cl G H L) as (a' & -> & [[d R] F Iv Di Bu]). split; [exact F|]. intros Qu. exists a'. split; [reflexivity|].
  assert (Env : forall l, environment l = true -> exec N C checks l t' = None).
  { intros l El. specialize (Qu (X l) El). unfold AwModel.xexec in Qu. rewrite F, El in Qu. cbn [orb] in Qu. destruct (exec N C checks l t'); [discriminate|reflexivity]. }
  assert (Rt : exists ok, apc_of a' = P_return ok).
  { destruct (apc_of a') as [c|c i|c i s|c i s|c i|c i s|c i s|c i s|c|c j|ok] eqn:Ep; [..|eauto]; exfalso;
      (apply (all_progress N C n K checks HN hs a' t' d Hn R (started_le _ _ (grows_same t' t' eq_refl) L) F Iv); [rewrite Ep; discriminate|exact Env|];
       specialize (Qu (X_go false 0) eq_refl); unfold AwModel.xexec in Qu; rewrite F in Qu; destruct (all_step N checks K hs a' t') as [[a1 t1]|]; [discriminate|reflexivity]). }
  destruct Rt as (ok & Ep). destruct Di as (_ & _ & Di). rewrite Ep in Di. subst ok. split; [exact Ep|]. destruct Iv as [_ Iv]. rewrite Ep in Iv. exact (Iv eq_refl).
Qed.
End Runs.
