(** tma_impl_wait_all_infinite: what holds at every step. *)
From Coq Require Import Arith Bool List Lia.
From Verif Require Import Base AsModel AsSpec AsProofs AsSteps AsWorker AsMain AsCalls AsProgress AsRing AsQuiet AwModel AwSpec AwQueue AwReach.
Import ListNotations.

Lemma in_use_of t s : busy t s -> exists x w, in_use t s = Some (x, w) /\ nth_error (slots t) s = Some x /\ work x = Some w.
Proof. intros (x & w & Ex & Ew). exists x, w. split; [apply in_use_busy; assumption|auto]. Qed.
Lemma use_busy t s x w : in_use t s = Some (x, w) -> busy t s.
Proof. intros H. apply in_use_some in H. exists x, w. exact H. Qed.
Lemma has_pos_no_pos t s x : has_pos t s -> nth_error (slots t) s = Some x -> no_pos x = false.
Proof. intros (y & Ey & H) Ex. rewrite Ex in Ey. injection Ey as <-. unfold no_pos. destruct (ring_pos x); [reflexivity|congruence]. Qed.
Lemma no_pos_has t s x : no_pos x = false -> nth_error (slots t) s = Some x -> has_pos t s.
Proof. intros H Ex. exists x. split; [exact Ex|]. unfold no_pos in H. destruct (ring_pos x); [discriminate|discriminate H]. Qed.
Lemma with_main_keeps m t : keeps t (with_main m t).
Proof. apply keeps_same; [reflexivity|apply log_same; reflexivity]. Qed.
Lemma mark_keeps s t t' : mark s t = Some t' -> keeps t t'.
Proof.
  unfold mark. destruct (in_use t s) as [[x w]|] eqn:U; intros [= <-]; [|apply keeps_same; [reflexivity|apply log_same; reflexivity]].
  apply in_use_some in U as [Ex Ew]. eapply (keeps_set t _ s x _ Ex); [|reflexivity|eexists; reflexivity]. unfold slot_le. cbn [work ring_pos signaled evt set_signaled]. auto.
Qed.
Lemma mark_main s t t' : mark s t = Some t' -> main_at t' = main_at t.
Proof. unfold mark. destruct (in_use t s) as [[x w]|]; intros [= <-]; reflexivity. Qed.
Lemma pop_keeps s x t b t1 : pop_slot s x t = Some (Some (b, t1)) -> keeps t t1 /\ main_at t1 = main_at t /\ fault t1 = fault t.
Proof. intros H. apply pop_slot_some in H as [->|(p & _ & ->)]; [split; [apply keeps_refl|auto]|]. split; [apply keeps_same; [reflexivity|apply log_same; reflexivity]|auto]. Qed.
Lemma pop_false s x t t1 : pop_slot s x t = Some (Some (false, t1)) -> t1 = t.
Proof. unfold pop_slot. destruct (ring_pos x) as [p|]; [|discriminate]. destruct (nth_error (ring (wq t)) p) as [y|]; [|discriminate]. cbv beta iota. destruct (match y with Some s' => Nat.eqb s' s | None => false end); [discriminate|]. intros [= <-]. reflexivity. Qed.

Lemma hs_lt (hs : list handle) j s : nth_error hs j = Some s -> j < length hs.
Proof. intros H. apply nth_error_Some. congruence. Qed.
Lemma hs_out (hs : list handle) j : nth_error hs j = None -> length hs <= j.
Proof. apply nth_error_None. Qed.
Definition before (hs : list handle) (a : all_call) (t : state) (b : nat) : Prop :=
  forall j s, j < b -> nth_error hs j = Some (Some s) -> todo a = true \/ ended t s \/ In s (acc a).
Definition handled (a : all_call) (t : state) (i : nat) : Prop := forall k s, k < i -> nth_error (acc a) k = Some s -> ended t s \/ In s (evs a).
Definition known (a : all_call) (t : state) : Prop := (forall s, In s (acc a) -> busy t s) /\ (forall s, In s (evs a) -> In s (acc a) /\ has_pos t s).
Definition chunk_end (K : nat) (hs : list handle) (c : nat) : nat := c + Nat.min K (length hs - c).
Definition all_inv (K : nat) (hs : list handle) (a : all_call) (t : state) : Prop :=
  known a t /\
  match apc_of a with
  | P_chunk c => main_at t = M_ready /\ forall j s, j < c -> nth_error hs j = Some (Some s) -> todo a = true \/ ended t s
  | P_flag c i => main_at t = M_ready /\ evs a = [] /\ before hs a t (c + i)
  | P_pos c i s => main_at t = M_ready /\ evs a = [] /\ before hs a t (c + i) /\ nth_error hs (c + i) = Some (Some s) /\ busy t s
  | P_dispatch c i s => (dispatching s (main_at t) \/ main_at t = M_ready) /\ evs a = [] /\ before hs a t (c + i) /\ nth_error hs (c + i) = Some (Some s) /\ busy t s
  | Q_pos c i => main_at t = M_ready /\ before hs a t (chunk_end K hs c) /\ handled a t i
  | Q_dispatch c i s => (dispatching s (main_at t) \/ main_at t = M_ready /\ has_pos t s) /\ before hs a t (chunk_end K hs c) /\ handled a t i /\ nth_error (acc a) i = Some s
  | Q_pop c i s => main_at t = M_ready /\ has_pos t s /\ before hs a t (chunk_end K hs c) /\ handled a t i /\ nth_error (acc a) i = Some s
  | Q_execute c i s => (executing s (main_at t) \/ main_at t = M_ready /\ ended t s) /\ before hs a t (chunk_end K hs c) /\ handled a t i /\ nth_error (acc a) i = Some s
  | Q_wait c => main_at t = M_ready /\ before hs a t (chunk_end K hs c) /\ handled a t (length (acc a))
  | Q_mark c j => main_at t = M_ready /\ todo a = true /\ forall s, In s (evs a) -> is_set t s = true
  | P_return ok => ok = true -> forall s, In (Some s) hs -> ended t s
  end.
Lemma before_keeps hs a t t' b : keeps t t' -> before hs a t b -> before hs a t' b.
Proof. intros Kp H j s L E. destruct (H j s L E) as [|[|]]; auto. right. left. exact (keeps_ended _ _ _ Kp H0). Qed.
Lemma handled_keeps a t t' i : keeps t t' -> handled a t i -> handled a t' i.
Proof. intros Kp H k s L E. destruct (H k s L E); auto. left. exact (keeps_ended _ _ _ Kp H0). Qed.
Lemma known_keeps a t t' : keeps t t' -> known a t -> known a t'.
Proof. intros Kp [A B]. split; [intros s H; exact (keeps_busy _ _ _ Kp (A s H))|intros s H; destruct (B s H) as [B1 B2]; split; [exact B1|exact (keeps_pos _ _ _ Kp B2)]]. Qed.
Lemma all_env K hs a t t' : keeps t t' -> main_at t' = main_at t -> all_inv K hs a t -> all_inv K hs a t'.
Proof.
  intros Kp E [H0 H]. split; [exact (known_keeps _ _ _ Kp H0)|]. pose proof (fun b => before_keeps hs a t t' b Kp) as B. pose proof (fun i => handled_keeps a t t' i Kp) as Hd.
  pose proof (fun s => keeps_busy t t' s Kp) as Bu. pose proof (fun s => keeps_ended t t' s Kp) as En. pose proof (fun s => keeps_pos t t' s Kp) as Po. pose proof (fun s => keeps_set_event t t' s Kp) as Se.
  destruct (apc_of a); rewrite ?E; intuition auto.
  destruct (H2 j s H H3); auto.
Qed.
Lemma before_next hs a a' t b s : before hs a t b -> todo a' = todo a -> (forall s, In s (acc a) -> In s (acc a')) -> nth_error hs b = Some s ->
  (forall s', s = Some s' -> todo a = true \/ ended t s' \/ In s' (acc a')) -> before hs a' t (b + 1).
Proof.
  intros H E A Es Hs j s' L Ej. rewrite E. destruct (Nat.eq_dec j b) as [->|Ne].
  - rewrite Es in Ej. injection Ej as ->. apply Hs. reflexivity.
  - destruct (H j s' ltac:(lia) Ej) as [|[|]]; auto.
Qed.
Lemma handled_next a a' t i s : handled a t i -> acc a' = acc a -> (forall s, In s (evs a) -> In s (evs a')) -> nth_error (acc a) i = Some s -> ended t s \/ In s (evs a') -> handled a' t (i + 1).
Proof.
  intros H E A Es Hs j s' L Ej. rewrite E in Ej. destruct (Nat.eq_dec j i) as [->|Ne].
  - rewrite Es in Ej. injection Ej as <-. exact Hs.
  - destruct (H j s' ltac:(lia) Ej) as [|]; auto.
Qed.
Section AllStep.
Variables N C n K : nat.
Variable checks : bool.
Notation reach := (reach N C n checks).
Lemma try_slot_inv hs c i s a t : main_at t = M_ready -> has_pos t s -> before hs a t (chunk_end K hs c) -> handled a t i -> known a t -> nth_error (acc a) i = Some s -> all_inv K hs (try_slot c i s a) t.
Proof using.
  intros M P B Hd [Kn1 Kn2] E. unfold try_slot. destruct (existsb (Nat.eqb s) (pend a)).
  - split; [split; [exact Kn1|]; cbn [evs acc more_evs at_pc]; intros s' H; apply in_app_iff in H as [H|[<-|[]]]; [exact (Kn2 s' H)|split; [exact (nth_error_In _ _ E)|exact P]]|].
    cbn [apc_of at_pc]. split; [exact M|split; [exact B|]]. apply (handled_next a _ t i s); auto; cbn [evs more_evs at_pc]; [intros s' H; apply in_app_iff; auto|]. right. apply in_app_iff. right. left. reflexivity.
  - split; [split; assumption|]. cbn [apc_of at_pc]. split; [exact M|auto].
Qed.
Lemma all_step_inv hs a t d a' t' : 0 < N -> 0 < K -> reach t d -> fault t = false -> all_inv K hs a t -> all_step N checks K hs a t = Some (a', t') ->
  (exists d', reach t' d') /\ (fault t' = true \/ all_inv K hs a' t' /\ keeps t t').
Proof using.
  intros HN HK R F [Kn H] St. unfold all_step in St. destruct Kn as [Kn1 Kn2].
  assert (Same : forall a1, all_inv K hs a1 t -> Some (a1, t) = Some (a', t') -> (exists d', reach t' d') /\ (fault t' = true \/ all_inv K hs a' t' /\ keeps t t')).
  { intros a1 I [= <- <-]. split; [exists d; exact R|]. right. split; [exact I|apply keeps_refl]. }
  assert (Fail : forall s a1, main_at t = M_ready -> in_use t s = None -> Some (a1, failed t) = Some (a', t') -> (exists d', reach t' d') /\ (fault t' = true \/ all_inv K hs a' t' /\ keeps t t')).
  { intros s a1 M U [= <- <-]. split; [exists d; exact (reach_failed _ _ _ _ _ _ s R F M U)|]. left. reflexivity. }
  destruct (apc_of a) as [c|c i|c i s|c i s|c i|c i s|c i s|c i s|c|c j|ok] eqn:Ep.
  - (* P_chunk *) destruct H as [M H]. destruct (Nat.ltb_spec c (length hs)) as [L|L].
    + revert St. apply Same. split; [split; [intros s []|intros s []]|]. cbn [apc_of at_pc]. split; [exact M|split; [reflexivity|]].
      intros j s Lj Ej. cbn [todo at_pc fresh acc]. destruct (H j s ltac:(lia) Ej); auto.
    + destruct (todo a) eqn:Et; revert St; apply Same.
      * split; [split; [intros s []|intros s []]|]. cbn [apc_of next_pass]. split; [exact M|]. intros j s Lj. lia.
      * split; [split; assumption|]. cbn [apc_of at_pc]. intros _ s Hs. apply In_nth_error in Hs as [j Ej]. destruct (H j s) as [|X]; [|exact Ej|congruence|exact X]. pose proof (hs_lt _ _ _ Ej). lia.
  - (* P_flag *) destruct H as (M & Ev & B). destruct (Nat.ltb_spec i (Nat.min K (length hs - c))) as [L|L].
    + destruct (nth_error hs (c + i)) as [[s|]|] eqn:Eh; [| |apply hs_out in Eh; lia].
      * destruct (in_use t s) as [[x w]|] eqn:U; [|revert St; apply (Fail s); assumption]. destruct (signaled x) eqn:Sg; revert St; apply Same.
        -- split; [split; assumption|]. cbn [apc_of at_pc]. split; [exact M|split; [exact Ev|]]. rewrite Nat.add_assoc. apply (before_next hs a _ t (c + i) (Some s)); auto.
           intros s' [= <-]. right. left. apply in_use_some in U as [Ex Ew]. exists x, w. split; [exact Ex|split; [exact Ew|]]. eapply event_ended; eauto.
        -- split; [split; assumption|]. cbn [apc_of at_pc]. split; [exact M|split; [exact Ev|split; [exact B|split; [exact Eh|exact (use_busy _ _ _ _ U)]]]].
      * revert St; apply Same. split; [split; assumption|]. cbn [apc_of at_pc]. split; [exact M|split; [exact Ev|]]. rewrite Nat.add_assoc. apply (before_next hs a _ t (c + i) None); auto. discriminate.
    + assert (B' : before hs a t (chunk_end K hs c)).
      { intros j s Lj. apply B. unfold chunk_end in Lj. lia. }
      destruct (acc a) as [|s0 l] eqn:Ea; revert St; apply Same.
      * split; [split; cbn [acc at_pc evs]; rewrite ?Ea; assumption|]. cbn [apc_of at_pc]. split; [exact M|]. cbn [todo at_pc]. intros j s Lj Ej. assert (Lc : j < chunk_end K hs c).
        { unfold chunk_end. pose proof (hs_lt _ _ _ Ej). lia. }
        destruct (B' j s Lc Ej) as [|[|X]]; auto. rewrite Ea in X. destruct X.
      * split; [split; cbn [acc at_pc evs]; rewrite ?Ea; assumption|]. cbn [apc_of at_pc]. split; [exact M|split; [exact B'|]]. intros k s Lk. lia.
  - (* P_pos *) destruct H as (M & Ev & B & Eh & Bu). destruct (nth_error (slots t) s) as [x|] eqn:Ex; [|discriminate]. cbv beta iota in St. destruct (no_pos x) eqn:Np.
    + injection St as <- <-. split.
      * exists (d + 1). apply (reach_try _ _ _ _ _ _ _ x); try assumption. unfold no_pos in Np. destruct (ring_pos x); [discriminate|reflexivity].
      * right. split; [|apply with_main_keeps]. split; [split; [exact Kn1|exact Kn2]|]. cbn [apc_of at_pc]. split; [left; reflexivity|]. split; [exact Ev|split; [exact B|split; [exact Eh|exact Bu]]].
    + revert St. apply Same. split; [split|].
      * cbn [acc more_acc at_pc]. intros s' Hs. apply in_app_iff in Hs as [Hs|[<-|[]]]; [exact (Kn1 _ Hs)|exact Bu].
      * cbn [acc evs more_acc at_pc]. intros s' Hs. destruct (Kn2 _ Hs) as [K1 K2]. split; [apply in_app_iff; left; exact K1|exact K2].
      * cbn [apc_of at_pc]. split; [exact M|split; [exact Ev|]]. rewrite Nat.add_assoc. apply (before_next hs a _ t (c + i) (Some s)); auto; cbn [acc more_acc at_pc].
        -- intros s' Hs. apply in_app_iff. auto.
        -- intros s' [= <-]. right. right. apply in_app_iff. right. left. reflexivity.
  - (* P_dispatch *) destruct H as (M & Ev & B & Eh & Bu).
    assert (Sub : dispatching s (main_at t) -> (t'0 <- main_step N checks t ;; Some (a, t'0)) = Some (a', t') -> (exists d', reach t' d') /\ (fault t' = true \/ all_inv K hs a' t' /\ keeps t t')).
    { intros D X. destruct (main_step N checks t) as [t1|] eqn:Ms; [|discriminate]. cbv beta iota in X. injection X as <- <-. split; [exists d; exact (reach_main _ _ _ _ _ _ _ R F Ms)|]. right.
      destruct (dispatching_step _ _ _ _ _ _ _ _ R D Ms) as (Kp & Dn & _). split; [|exact Kp]. split; [exact (known_keeps a _ _ Kp (conj Kn1 Kn2))|]. rewrite Ep.
      split; [destruct Dn as [Dn|[Dn _]]; auto|]. split; [exact Ev|split; [exact (before_keeps _ _ _ _ _ Kp B)|split; [exact Eh|exact (keeps_busy _ _ _ Kp Bu)]]]. }
    destruct M as [D|M]; [|rewrite M in St].
    + revert St. destruct (main_at t) eqn:Em; try contradiction; apply Sub; assumption.
    + revert St. apply Same. split; [split|].
      * cbn [acc more_acc at_pc]. intros s' Hs. apply in_app_iff in Hs as [Hs|[<-|[]]]; [exact (Kn1 _ Hs)|exact Bu].
      * cbn [acc evs more_acc at_pc]. intros s' Hs. destruct (Kn2 _ Hs) as [K1 K2]. split; [apply in_app_iff; left; exact K1|exact K2].
      * cbn [apc_of at_pc]. split; [exact M|split; [exact Ev|]]. rewrite Nat.add_assoc. apply (before_next hs a _ t (c + i) (Some s)); auto; cbn [acc more_acc at_pc].
        -- intros s' Hs. apply in_app_iff. auto.
        -- intros s' [= <-]. right. right. apply in_app_iff. right. left. reflexivity.
  - (* Q_pos *) destruct H as (M & B & Hd). destruct (nth_error (acc a) i) as [s|] eqn:Ea.
    + destruct (nth_error (slots t) s) as [x|] eqn:Ex; [|discriminate]. cbv beta iota in St. destruct (no_pos x) eqn:Np.
      * injection St as <- <-. split.
        -- exists (d + 1). apply (reach_try _ _ _ _ _ _ _ x); try assumption; [exact (Kn1 _ (nth_error_In _ _ Ea))|]. unfold no_pos in Np. destruct (ring_pos x); [discriminate|reflexivity].
        -- right. split; [|apply with_main_keeps]. split; [split; [exact Kn1|exact Kn2]|]. cbn [apc_of at_pc]. split; [left; reflexivity|]. auto.
      * revert St. apply Same. apply try_slot_inv; auto; [exact (no_pos_has _ _ _ Np Ex)|split; assumption].
    + revert St. apply Same. split; [split; assumption|]. cbn [apc_of at_pc]. split; [exact M|split; [exact B|]]. apply nth_error_None in Ea. intros k s Lk. apply Hd. cbn [acc at_pc] in Lk. lia.
  - (* Q_dispatch *) destruct H as (M & B & Hd & Ea).
    assert (Sub : dispatching s (main_at t) -> (t'0 <- main_step N checks t ;; Some (a, t'0)) = Some (a', t') -> (exists d', reach t' d') /\ (fault t' = true \/ all_inv K hs a' t' /\ keeps t t')).
    { intros D X. destruct (main_step N checks t) as [t1|] eqn:Ms; [|discriminate]. cbv beta iota in X. injection X as <- <-. split; [exists d; exact (reach_main _ _ _ _ _ _ _ R F Ms)|]. right.
      destruct (dispatching_step _ _ _ _ _ _ _ _ R D Ms) as (Kp & Dn & _). split; [|exact Kp]. split; [exact (known_keeps a _ _ Kp (conj Kn1 Kn2))|]. rewrite Ep.
      split; [exact Dn|]. split; [exact (before_keeps _ _ _ _ _ Kp B)|split; [exact (handled_keeps _ _ _ _ Kp Hd)|exact Ea]]. }
    destruct M as [D|[M Hp]]; [|rewrite M in St].
    + revert St. destruct (main_at t) eqn:Em; try contradiction; apply Sub; assumption.
    + destruct (in_use_of _ _ (Kn1 _ (nth_error_In _ _ Ea))) as (x & w & U & Ex & Ew). rewrite U, (has_pos_no_pos _ _ _ Hp Ex) in St. revert St. apply Same. apply try_slot_inv; auto. split; assumption.
  - (* Q_pop *) destruct H as (M & Hp & B & Hd & Ea). destruct (in_use t s) as [[x w]|] eqn:U; [|revert St; apply (Fail s); assumption].
    destruct (pop_slot s x t) as [[[b t1]|]|] eqn:Po; cbv beta iota in St; [| |discriminate].
    + destruct b.
      * injection St as <- <-. split; [exists d; exact (reach_pop _ _ _ _ _ _ _ _ _ _ R F M U Po)|]. right. destruct (pop_keeps _ _ _ _ _ Po) as (Kp & _ & _).
        assert (Kp' : keeps t (with_main (M_run s w) t1)) by (eapply keeps_trans; [exact Kp|apply with_main_keeps]). split; [|exact Kp'].
        split; [exact (known_keeps a _ _ Kp' (conj Kn1 Kn2))|]. cbn [apc_of at_pc]. split; [left; reflexivity|]. split; [exact (before_keeps _ _ _ _ _ Kp' B)|split; [exact (handled_keeps _ _ _ _ Kp' Hd)|exact Ea]].
      * apply pop_false in Po. subst t1. revert St. apply Same. split; [split|].
        -- exact Kn1.
        -- cbn [acc evs more_evs now_pending at_pc]. intros s' Hs. apply in_app_iff in Hs as [Hs|[<-|[]]]; [exact (Kn2 _ Hs)|split; [exact (nth_error_In _ _ Ea)|exact Hp]].
        -- cbn [apc_of at_pc]. split; [exact M|split; [exact B|]]. apply (handled_next a _ t i s); auto; cbn [evs more_evs now_pending at_pc]; [intros s' Hs; apply in_app_iff; auto|]. right. apply in_app_iff. right. left. reflexivity.
    + exfalso. destruct Hp as (y & Ey & Hy). apply in_use_some in U as [Ex Ew]. rewrite Ex in Ey. injection Ey as <-. unfold pop_slot in Po. destruct (ring_pos x) as [p|]; [|congruence].
      destruct (nth_error (ring (wq t)) p) as [z|]; [|discriminate]. cbv beta iota in Po. destruct (match z with Some s' => Nat.eqb s' s | None => false end); discriminate.
  - (* Q_execute *) destruct H as (M & B & Hd & Ea).
    assert (Sub : executing s (main_at t) -> (t'0 <- main_step N checks t ;; Some (a, t'0)) = Some (a', t') -> (exists d', reach t' d') /\ (fault t' = true \/ all_inv K hs a' t' /\ keeps t t')).
    { intros D X. destruct (main_step N checks t) as [t1|] eqn:Ms; [|discriminate]. cbv beta iota in X. injection X as <- <-. split; [exists d; exact (reach_main _ _ _ _ _ _ _ R F Ms)|]. right.
      destruct (executing_step _ _ _ _ _ _ _ _ R D Ms) as (Kp & Dn & _). split; [|exact Kp]. split; [exact (known_keeps a _ _ Kp (conj Kn1 Kn2))|]. rewrite Ep.
      split; [exact Dn|]. split; [exact (before_keeps _ _ _ _ _ Kp B)|split; [exact (handled_keeps _ _ _ _ Kp Hd)|exact Ea]]. }
    destruct M as [D|[M En]]; [|rewrite M in St].
    + revert St. destruct (main_at t) eqn:Em; try contradiction; apply Sub; assumption.
    + revert St. apply Same. split; [split; assumption|]. cbn [apc_of at_pc]. split; [exact M|split; [exact B|]]. apply (handled_next a _ t i s); auto.
  - (* Q_wait *) destruct H as (M & B & Hd).
    assert (Next : todo a = true \/ evs a = [] -> forall a1, todo a1 = todo a -> acc a1 = acc a -> evs a1 = evs a -> apc_of a1 = P_chunk (c + K) -> all_inv K hs a1 t).
    { intros X a1 E1 E2 E3 E4. split; [split; rewrite ?E2, ?E3; assumption|]. rewrite E4. split; [exact M|]. rewrite E1. intros j s Lj Ej. destruct X as [X|X]; [auto|].
      assert (Lc : j < chunk_end K hs c) by (unfold chunk_end; pose proof (hs_lt _ _ _ Ej); lia).
      destruct (B j s Lc Ej) as [|[|Ia]]; auto. apply In_nth_error in Ia as [k Ek]. destruct (Hd k s (nth_lt _ _ _ Ek) Ek) as [|Ie]; auto. rewrite X in Ie. destruct Ie. }
    destruct (evs a) as [|s0 l] eqn:Ee; [revert St; apply Same; apply Next; auto|].
    cbn [evs has_todo did first_pass] in St. rewrite Ee in St.
    assert (NT : forall p, apc_of (at_pc p (has_todo a)) = p -> p = P_chunk (c + K) -> all_inv K hs (at_pc p (has_todo a)) t).
    { intros p _ ->. split; [split; cbn [acc evs at_pc has_todo]; rewrite ?Ee; assumption|]. cbn [apc_of at_pc]. split; [exact M|]. intros j s Lj Ej. left. reflexivity. }
    destruct (negb (distinct (s0 :: l))); [|destruct (forallb (is_set t) (s0 :: l)) eqn:Fa; [|destruct (did a || first_pass a); [|discriminate]]]; revert St; apply Same.
    + split; [split; cbn [acc evs at_pc has_todo]; rewrite ?Ee; assumption|]. cbn [apc_of at_pc]. discriminate.
    + split; [split; cbn [acc evs at_pc has_todo]; rewrite ?Ee; assumption|]. cbn [apc_of at_pc]. split; [exact M|split; [reflexivity|]]. cbn [evs at_pc has_todo]. rewrite Ee. apply forallb_forall. exact Fa.
    + apply NT; reflexivity.
  - (* Q_mark *) destruct H as (M & Et & Se). destruct (nth_error (evs a) j) as [s|] eqn:Ee.
    + destruct (mark s t) as [t1|] eqn:Em; [|discriminate]. cbv beta iota in St. injection St as <- <-. pose proof (mark_keeps _ _ _ Em) as Kp.
      split; [exists d; exact (reach_mark _ _ _ _ _ _ _ _ HN R F M (Se _ (nth_error_In _ _ Ee)) Em)|]. right. split; [|exact Kp].
      split; [exact (known_keeps a _ _ Kp (conj Kn1 Kn2))|]. cbn [apc_of at_pc]. split; [rewrite (mark_main _ _ _ Em); exact M|split; [exact Et|]]. intros s' Hs. exact (keeps_set_event _ _ _ Kp (Se _ Hs)).
    + revert St. apply Same. split; [split; assumption|]. cbn [apc_of at_pc]. split; [exact M|]. intros k s _ _. left. exact Et.
  - discriminate.
Qed.
End AllStep.
