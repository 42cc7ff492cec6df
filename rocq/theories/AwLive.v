(** The wait for all of several handles returns. *)
From Coq Require Import Arith Bool List Lia.
From Verif Require Import Base AsModel AsSpec AsProofs AsSteps AsWorker AsMain AsCalls AsProgress AsRing AsQuiet AwModel AwSpec AwQueue AwReach AwAll AwMulti AwSys.
Import ListNotations.

Definition sigb (t : state) (s : nat) : bool := match nth_error (slots t) s with Some x => signaled x | None => false end.
Definition unsig (t : state) (hs : list handle) : nat := length (filter (fun h => match h with Some s => negb (sigb t s) | None => false end) hs).
Lemma keeps_sigb t t' s : keeps t t' -> sigb t s = true -> sigb t' s = true.
Proof. intros [Kp _]. unfold sigb. destruct (nth_error (slots t) s) as [x|] eqn:E; [|discriminate]. intros H. destruct (Kp s x E) as (y & -> & (_ & _ & X & _)). auto. Qed.
Lemma unsig_le t t' hs : keeps t t' -> unsig t' hs <= unsig t hs.
Proof.
  intros Kp. unfold unsig. induction hs as [|h hs IH]; [reflexivity|]. cbn [filter]. destruct h as [s|]; [|exact IH].
  destruct (sigb t s) eqn:E; [rewrite (keeps_sigb _ _ _ Kp E); exact IH|]. cbn [negb length]. destruct (sigb t' s); cbn [negb length]; lia.
Qed.
Lemma unsig_lt t t' hs s : keeps t t' -> In (Some s) hs -> sigb t s = false -> sigb t' s = true -> unsig t' hs < unsig t hs.
Proof.
  intros Kp I E E'. unfold unsig. induction hs as [|h hs IH]; [destruct I|]. pose proof (unsig_le t t' hs Kp) as L. unfold unsig in L. cbn [filter]. destruct I as [->|I].
  - rewrite E, E'. cbn [negb length]. lia.
  - specialize (IH I). destruct h as [s'|]; [|exact IH]. destruct (sigb t s') eqn:E1; [rewrite (keeps_sigb _ _ _ Kp E1); exact IH|]. cbn [negb length]. destruct (sigb t' s'); cbn [negb length]; lia.
Qed.
Section Live.
Variables N C n K : nat.
Variable checks : bool.
Variable hs : list handle.
Notation reach := (reach N C n checks).
Definition new_in (t0 : state) (s : nat) : Prop := In (Some s) hs /\ sigb t0 s = false.
Definition gain (t0 t : state) : Prop := exists s, new_in t0 s /\ sigb t s = true.
Lemma gain_keeps t0 t t' : keeps t t' -> gain t0 t -> gain t0 t'.
Proof using. intros Kp (s & H & E). exists s. split; [exact H|exact (keeps_sigb _ _ _ Kp E)]. Qed.
Lemma gain_lt t0 t : keeps t0 t -> gain t0 t -> unsig t hs < unsig t0 hs.
Proof using. intros Kp (s & (I & E) & E'). exact (unsig_lt _ _ _ _ Kp I E E'). Qed.
Definition live_inv (t0 : state) (a : all_call) (t : state) : Prop :=
  keeps t0 t /\ (forall s, In s (acc a) -> new_in t0 s) /\ (did a = true -> gain t0 t) /\
  (todo a = true -> first_pass a = true \/ gain t0 t \/ apc_of a = P_return false \/ exists c, apc_of a = Q_mark c 0 /\ evs a <> []) /\
  match apc_of a with
  | P_chunk c => True
  | P_flag c i => length (acc a) <= i /\ i <= K /\ c < length hs
  | P_pos c i s | P_dispatch c i s => length (acc a) <= i /\ i < K /\ c < length hs /\ new_in t0 s
  | Q_pos c i => length (evs a) <= i /\ i <= length (acc a) /\ length (acc a) <= K /\ c < length hs
  | Q_dispatch c i s | Q_pop c i s => length (evs a) <= i /\ i < length (acc a) /\ length (acc a) <= K /\ c < length hs
  | Q_execute c i s => length (evs a) <= i /\ i < length (acc a) /\ length (acc a) <= K /\ c < length hs /\ new_in t0 s /\
      match main_at t with M_set s' _ => s' = s /\ sigb t s = true | M_ready => sigb t s = true | M_run s' _ | M_running s' _ _ | M_ran s' _ => s' = s | _ => False end
  | Q_wait c => length (evs a) <= K /\ c < length hs
  | Q_mark c j => length (evs a) <= K /\ j <= length (evs a) /\ c < length hs /\ (j > 0 -> first_pass a = true \/ gain t0 t)
  | P_return _ => True
  end.
Definition CB : nat := 8 * K + 10.
Definition base (c : nat) : nat := (length hs - c - 1) * CB + 1.
Definition rank (a : all_call) : nat :=
  match apc_of a with
  | P_chunk c => (length hs - c) * CB + 1
  | P_flag c i => base c + K + 6 + 4 * K + 3 * (K - i)
  | P_pos c i _ => base c + K + 5 + 4 * K + 3 * (K - i)
  | P_dispatch c i _ => base c + K + 4 + 4 * K + 3 * (K - i)
  | Q_pos c i => base c + K + 4 + 4 * (length (acc a) - i)
  | Q_dispatch c i _ => base c + K + 3 + 4 * (length (acc a) - i)
  | Q_pop c i _ => base c + K + 2 + 4 * (length (acc a) - i)
  | Q_execute c i _ => base c + K + 1 + 4 * (length (acc a) - i)
  | Q_wait c => base c + K + 3
  | Q_mark c j => base c + 1 + (length (evs a) - j)
  | P_return _ => 0
  end.
Definition passes (t0 : state) (a : all_call) : nat := unsig t0 hs + if first_pass a then 1 else 0.
Definition measure (t0 : state) (a : all_call) (t : state) : nat := 25 * (passes t0 a * (length hs * CB + 2) + rank a) + weight t.
Hypothesis HK : 0 < K.
Lemma chunk_next c : c < length hs -> (length hs - (c + K)) * CB + 1 <= base c.
Proof using HK. intros L. unfold base. apply Nat.add_le_mono_r, Nat.mul_le_mono_r. lia. Qed.
Lemma chunk_first c : c < length hs -> base c + CB = (length hs - c) * CB + 1.
Proof using. clear HK. intros L. unfold base. replace (length hs - c) with (S (length hs - c - 1)) at 2 by lia. cbn [Nat.mul]. lia. Qed.
Lemma live_env t0 a t t' : keeps t t' -> main_at t' = main_at t -> live_inv t0 a t -> live_inv t0 a t'.
Proof using.
  clear HK. intros Kp E (K0 & Ac & Di & To & H). pose proof (fun s => keeps_sigb t t' s Kp) as Sg. pose proof (gain_keeps t0 t t' Kp) as Gk.
  split; [exact (keeps_trans _ _ _ K0 Kp)|split; [exact Ac|split; [auto|split]]].
  - intros T. destruct (To T) as [|[|[|]]]; auto.
  - destruct (apc_of a); rewrite ?E; try exact H.
    + destruct H as (H1 & H2 & H3 & H4 & H5 & H6). repeat (split; [assumption|]). destruct (main_at t); auto. destruct H6; auto.
    + destruct H as (H1 & H2 & H3 & H4). repeat (split; [assumption|]). intros J. destruct (H4 J); auto.
Qed.
Lemma rank_lt t0 a a' t t' : passes t0 a' = passes t0 a -> rank a' < rank a -> weight t' <= weight t + 24 -> measure t0 a' t' < measure t0 a t.
Proof using. clear HK. intros E R W. unfold measure. rewrite E. lia. Qed.
Lemma weight_lt t0 a t t' : weight t' < weight t -> measure t0 a t' < measure t0 a t.
Proof using. clear HK. intros W. unfold measure. lia. Qed.
Lemma failed_weight t : fault t = false -> weight (failed t) < weight t.
Proof using. clear HK. intros F. unfold weight. projections. rewrite F. lia. Qed.
Lemma main_weight t t' : fault t = false -> main_step N checks t = Some t' -> weight t' < weight t.
Proof using C. clear HK. intros F H. apply (step_weight N C checks L_main); [reflexivity|]. unfold exec. rewrite F. exact H. Qed.
Lemma keeps_main m t : keeps t (with_main m t).
Proof using. clear HK. apply keeps_same; [reflexivity|exists []; symmetry; apply app_nil_r]. Qed.
Definition ok_next (t0 : state) (a : all_call) (t : state) (a' : all_call) (t' : state) : Prop :=
  exists t0', (fault t' = true \/ live_inv t0' a' t') /\ measure t0' a' t' < measure t0 a t.
(** the same pass goes on with less to do *)
Lemma go t0 a t a' t' : first_pass a' = first_pass a -> rank a' < rank a -> weight t' <= weight t + 24 -> live_inv t0 a' t' -> ok_next t0 a t a' t'.
Proof using. clear HK. intros E R W I. exists t0. split; [right; exact I|]. apply rank_lt; [unfold passes; rewrite E; reflexivity|exact R|exact W]. Qed.
Lemma go_fail t0 a t : fault t = false -> ok_next t0 a t a (failed t).
Proof using. clear HK. intros F. exists t0. split; [left; reflexivity|]. apply weight_lt. apply failed_weight. exact F. Qed.
Lemma keeps_sigb0 t0 t s : keeps t0 t -> sigb t s = false -> sigb t0 s = false.
Proof using. clear HK. intros Kp E. destruct (sigb t0 s) eqn:E0; [|reflexivity]. rewrite (keeps_sigb _ _ _ Kp E0) in E. discriminate. Qed.
Lemma with_main_weight m t : main_at t = M_ready -> m_weight m <= 24 -> weight (with_main m t) <= weight t + 24.
Proof using. clear HK. intros E L. unfold weight. projections. rewrite E. cbn [m_weight]. lia. Qed.
(** the dispatching of a slot, seen from the call *)
Lemma go_main t0 a t d s t1 : reach t d -> fault t = false -> dispatching s (main_at t) -> (forall t', keeps t t' -> live_inv t0 a t') -> main_step N checks t = Some t1 -> ok_next t0 a t a t1.
Proof using. clear HK. intros R F D L Ms. exists t0. split; [right; apply L; exact (proj1 (dispatching_step _ _ _ _ _ _ _ _ R D Ms))|]. apply weight_lt. exact (main_weight _ _ F Ms). Qed.
Lemma try_next_live t0 a t c i s : keeps t0 t -> (forall s, In s (acc a) -> new_in t0 s) -> (did a = true -> gain t0 t) -> (todo a = true -> first_pass a = true \/ gain t0 t) ->
  length (evs a) <= i -> i < length (acc a) -> length (acc a) <= K -> c < length hs -> live_inv t0 (try_slot c i s a) t.
Proof using.
  clear HK. intros Kp Ac Di To L1 L2 L3 L4. unfold try_slot. destruct (existsb (Nat.eqb s) (pend a)).
  - split; [exact Kp|split; [exact Ac|split; [exact Di|split; [intros T; destruct (To T); auto|]]]]. cbn [apc_of at_pc acc evs more_evs]. rewrite app_length. cbn [length]. lia.
  - split; [exact Kp|split; [exact Ac|split; [exact Di|split; [intros T; destruct (To T); auto|]]]]. cbn [apc_of at_pc acc evs]. auto.
Qed.
Lemma try_rank c i s a : i < length (acc a) -> rank (try_slot c i s a) < base c + K + 3 + 4 * (length (acc a) - i).
Proof using. clear HK. intros L. unfold try_slot. destruct (existsb (Nat.eqb s) (pend a)); cbn [rank apc_of at_pc acc more_evs]; lia. Qed.
Lemma try_first c i s a : first_pass (try_slot c i s a) = first_pass a.
Proof using. clear HK. unfold try_slot. destruct (existsb (Nat.eqb s) (pend a)); reflexivity. Qed.
Lemma mark_weight s t t1 : mark s t = Some t1 -> weight t1 <= weight t.
Proof using. clear HK. unfold mark. destruct (in_use t s) as [[x w]|]; intros [= <-]; unfold weight; projections; [lia|destruct (fault t); lia]. Qed.
Lemma mark_sig s t t1 : mark s t = Some t1 -> fault t1 = true \/ sigb t1 s = true.
Proof using.
  clear HK. unfold mark. destruct (in_use t s) as [[x w]|] eqn:U; intros [= <-]; [right|left; reflexivity]. apply in_use_some in U as [Ex _]. unfold sigb. projections. cbn [slots logged with_slot].
  rewrite nth_set_eq by (apply nth_error_Some; congruence). reflexivity.
Qed.
Lemma live_keeps t0 a t t' : keeps t t' -> (forall c i s, apc_of a <> Q_execute c i s) -> live_inv t0 a t -> live_inv t0 a t'.
Proof using.
  clear HK. intros Kp Nq (K0 & Ac & Di & To & H). pose proof (gain_keeps t0 t t' Kp) as Gk.
  split; [exact (keeps_trans _ _ _ K0 Kp)|split; [exact Ac|split; [auto|split]]].
  - intros T. destruct (To T) as [|[|[|]]]; auto.
  - destruct (apc_of a); try exact H; [elim (Nq c i s eq_refl)|]. destruct H as (H1 & H2 & H3 & H4). repeat (split; [assumption|]). intros J. destruct (H4 J); auto.
Qed.
Lemma acc_live t0 a t c i s : keeps t0 t -> (forall s, In s (acc a) -> new_in t0 s) -> (did a = true -> gain t0 t) -> (todo a = true -> first_pass a = true \/ gain t0 t) ->
  length (acc a) <= i -> i < K -> c < length hs -> new_in t0 s -> live_inv t0 (at_pc (P_flag c (i + 1)) (more_acc s a)) t.
Proof using.
  clear HK. intros Kp Ac Di To L1 L2 L3 Hs. split; [exact Kp|split; [|split; [exact Di|split; [intros T; destruct (To T); auto|]]]].
  - cbn [acc at_pc more_acc]. intros s' I. apply in_app_iff in I as [I|[<-|[]]]; auto.
  - cbn [apc_of at_pc acc more_acc]. rewrite app_length. cbn [length]. lia.
Qed.
Theorem live_step t0 a t d a' t' : 0 < N -> reach t d -> fault t = false -> all_inv K hs a t -> live_inv t0 a t -> all_step N checks K hs a t = Some (a', t') -> ok_next t0 a t a' t'.
Proof using HK.
  intros HN R F [[Kn1 Kn2] Iv] Li St. pose proof Li as (Kp & Ac & Di & To & H). unfold all_step in St.
  destruct (apc_of a) as [c|c i|c i s|c i s|c i|c i s|c i s|c i s|c|c j|ok] eqn:Ep.
  - assert (To' : todo a = true -> first_pass a = true \/ gain t0 t) by (intros T; destruct (To T) as [|[|[X|(c' & X & _)]]]; auto; discriminate). clear To.
    destruct (Nat.ltb_spec c (length hs)) as [L|L]; [|destruct (todo a) eqn:Et]; injection St as <- <-.
    + apply go; [reflexivity| |lia|].
      * unfold rank. rewrite Ep. cbn [apc_of at_pc]. pose proof (chunk_first c L). unfold CB in *. lia.
      * split; [exact Kp|split; [intros s []|split; [exact Di|split; [intros T; destruct (To' T); auto|]]]]. cbn [apc_of at_pc fresh acc length]. lia.
    + exists t. split.
      * right. split; [apply keeps_refl|split; [intros s []|split; [discriminate|split; [discriminate|exact I]]]].
      * assert (passes t (next_pass a) + 1 <= passes t0 a). { unfold passes. cbn [first_pass next_pass]. pose proof (unsig_le _ _ hs Kp). destruct (first_pass a); [lia|]. destruct (To' eq_refl) as [|G]; [discriminate|]. pose proof (gain_lt _ _ Kp G). lia. }
        unfold measure. cbn [rank apc_of next_pass]. rewrite Nat.sub_0_r.
        assert ((passes t (next_pass a) + 1) * (length hs * CB + 2) <= passes t0 a * (length hs * CB + 2)) by (apply Nat.mul_le_mono_r; exact H0). lia.
    + apply go; [reflexivity| |lia|].
      * unfold rank. rewrite Ep. cbn [apc_of at_pc]. lia.
      * split; [exact Kp|split; [exact Ac|split; [exact Di|split; [|exact I]]]]. cbn [todo at_pc]. rewrite Et. discriminate.
  - assert (To' : todo a = true -> first_pass a = true \/ gain t0 t) by (intros T; destruct (To T) as [|[|[X|(c' & X & _)]]]; auto; discriminate). clear To. destruct H as (H1 & H2 & H3).
    destruct (Nat.ltb_spec i (Nat.min K (length hs - c))) as [L|L].
    + assert (Next : ok_next t0 a t (at_pc (P_flag c (i + 1)) a) t).
      { apply go; [reflexivity| |lia|]; [unfold rank; rewrite Ep; cbn [apc_of at_pc]; lia|]. split; [exact Kp|split; [exact Ac|split; [exact Di|split; [intros T; destruct (To' T); auto|]]]]. cbn [apc_of at_pc acc]. lia. }
      destruct (nth_error hs (c + i)) as [[s|]|] eqn:Eh; [|injection St as <- <-; exact Next|apply hs_out in Eh; lia].
      destruct (in_use t s) as [[x w]|] eqn:U; [|injection St as <- <-; apply go_fail; exact F]. destruct (signaled x) eqn:Sx; injection St as <- <-; [exact Next|].
      apply in_use_some in U as [Ex _]. apply go; [reflexivity|unfold rank; rewrite Ep; cbn [apc_of at_pc]; lia|lia|].
      split; [exact Kp|split; [exact Ac|split; [exact Di|split; [intros T; destruct (To' T); auto|]]]]. cbn [apc_of at_pc acc]. split; [lia|split; [lia|split; [exact H3|]]]. split; [exact (nth_error_In _ _ Eh)|]. apply (keeps_sigb0 _ _ _ Kp). unfold sigb. rewrite Ex. exact Sx.
    + destruct (acc a) as [|s0 l] eqn:Ea; injection St as <- <-; (apply go; [reflexivity| |lia|]).
      * unfold rank. rewrite Ep. cbn [apc_of at_pc]. pose proof (chunk_next c H3). lia.
      * split; [exact Kp|split; [cbn [acc at_pc]; rewrite Ea; exact Ac|split; [exact Di|split; [intros T; destruct (To' T); auto|exact I]]]].
      * unfold rank. rewrite Ep. cbn [apc_of at_pc acc]. rewrite Ea. cbn [length] in *. lia.
      * split; [exact Kp|split; [cbn [acc at_pc]; rewrite Ea; exact Ac|split; [exact Di|split; [intros T; destruct (To' T); auto|]]]]. cbn [apc_of at_pc acc evs]. destruct Iv as (_ & Ee & _). rewrite Ee, Ea. cbn [length] in *. lia.
  - assert (To' : todo a = true -> first_pass a = true \/ gain t0 t) by (intros T; destruct (To T) as [|[|[X|(c' & X & _)]]]; auto; discriminate). clear To. destruct H as (H1 & H2 & H3 & H4).
    destruct (nth_error (slots t) s) as [x|]; [|discriminate]. cbv beta iota in St. destruct (no_pos x); injection St as <- <-; apply go; try reflexivity.
    + unfold rank. rewrite Ep. cbn [apc_of at_pc]. lia.
    + apply with_main_weight; [exact (proj1 Iv)|cbn [m_weight]; lia].
    + apply (live_keeps t0 _ t); [apply keeps_main|intros c' i' s'; discriminate|]. split; [exact Kp|split; [exact Ac|split; [exact Di|split; [intros T; destruct (To' T); auto|]]]]. cbn [apc_of at_pc acc]. auto.
    + unfold rank. rewrite Ep. cbn [apc_of at_pc more_acc]. lia.
    + lia.
    + apply acc_live; auto.
  - assert (To' : todo a = true -> first_pass a = true \/ gain t0 t) by (intros T; destruct (To T) as [|[|[X|(c' & X & _)]]]; auto; discriminate). destruct H as (H1 & H2 & H3 & H4).
    destruct (proj1 Iv) as [D|M].
    + assert (X : exists t1, main_step N checks t = Some t1 /\ a' = a /\ t' = t1).
      { destruct (main_at t) eqn:Em; try contradiction; (destruct (main_step N checks t) as [t1|]; [|discriminate]; injection St as <- <-; eauto). }
      destruct X as (t1 & Ms & -> & ->). apply (go_main t0 a t d s); auto. intros t2 Kp2. apply (live_keeps t0 _ t); [exact Kp2|rewrite Ep; discriminate|exact Li].
    + rewrite M in St. injection St as <- <-. apply go; [reflexivity|unfold rank; rewrite Ep; cbn [apc_of at_pc more_acc]; lia|lia|apply acc_live; auto].
  - assert (To' : todo a = true -> first_pass a = true \/ gain t0 t) by (intros T; destruct (To T) as [|[|[X|(c' & X & _)]]]; auto; discriminate). destruct H as (H1 & H2 & H3 & H4).
    destruct (nth_error (acc a) i) as [s|] eqn:Ea.
    + assert (Li' : i < length (acc a)) by (apply nth_error_Some; congruence). destruct (nth_error (slots t) s) as [x|]; [|discriminate]. cbv beta iota in St. destruct (no_pos x); injection St as <- <-.
      * apply go; [reflexivity|unfold rank; rewrite Ep; cbn [apc_of at_pc acc]; lia|apply with_main_weight; [exact (proj1 Iv)|cbn [m_weight]; lia]|].
        apply (live_keeps t0 _ t); [apply keeps_main|intros c' i' s'; discriminate|]. split; [exact Kp|split; [exact Ac|split; [exact Di|split; [intros T; destruct (To' T); auto|]]]]. cbn [apc_of at_pc acc evs]. auto.
      * apply go; [apply try_first| |lia|apply try_next_live; assumption]. pose proof (try_rank c i s a Li'). unfold rank at 2. rewrite Ep. lia.
    + injection St as <- <-. apply go; [reflexivity|unfold rank; rewrite Ep; cbn [apc_of at_pc acc]; lia|lia|].
      split; [exact Kp|split; [exact Ac|split; [exact Di|split; [intros T; destruct (To' T); auto|]]]]. cbn [apc_of at_pc acc evs]. split; [lia|exact H4].
  - assert (To' : todo a = true -> first_pass a = true \/ gain t0 t) by (intros T; destruct (To T) as [|[|[X|(c' & X & _)]]]; auto; discriminate). destruct H as (H1 & H2 & H3 & H4).
    destruct (proj1 Iv) as [D|[M Hp]].
    + assert (X : exists t1, main_step N checks t = Some t1 /\ a' = a /\ t' = t1).
      { destruct (main_at t) eqn:Em; try contradiction; (destruct (main_step N checks t) as [t1|]; [|discriminate]; injection St as <- <-; eauto). }
      destruct X as (t1 & Ms & -> & ->). apply (go_main t0 a t d s); auto. intros t2 Kp2. apply (live_keeps t0 _ t); [exact Kp2|rewrite Ep; discriminate|exact Li].
    + rewrite M in St. destruct (in_use t s) as [[x w]|] eqn:U; [|injection St as <- <-; apply go_fail; exact F]. apply in_use_some in U as [Ex _]. rewrite (has_pos_no_pos _ _ _ Hp Ex) in St. injection St as <- <-.
      apply go; [apply try_first| |lia|apply try_next_live; assumption]. pose proof (try_rank c i s a H2). unfold rank at 2. rewrite Ep. lia.
  - assert (To' : todo a = true -> first_pass a = true \/ gain t0 t) by (intros T; destruct (To T) as [|[|[X|(c' & X & _)]]]; auto; discriminate). destruct H as (H1 & H2 & H3 & H4). destruct Iv as (M & _ & _ & _ & Ea).
    destruct (in_use t s) as [[x w]|] eqn:U; [|injection St as <- <-; apply go_fail; exact F].
    destruct (pop_slot s x t) as [[[b t1]|]|] eqn:Po; cbv beta iota in St; [|injection St as <- <-; apply go_fail; exact F|discriminate].
    destruct (pop_keeps _ _ _ _ _ Po) as (Kp1 & M1 & F1). pose proof (pop_slot_weight _ _ _ _ _ Po) as (P1 & P2 & P3 & P4 & P5).
    assert (Kp2 : keeps t (with_main (M_run s w) t1)) by exact (keeps_trans _ _ _ Kp1 (keeps_main _ _)).
    destruct b; injection St as <- <-; (apply go; [reflexivity|unfold rank; rewrite Ep; cbn [apc_of at_pc acc more_evs now_pending]; lia|unfold weight; projections; rewrite ?P1, ?P2, ?P3, ?P4, ?P5, ?M; cbn [m_weight]; rewrite ?P1, ?P2, ?P3, ?P4, ?P5, ?M1, ?M; cbn [m_weight]; lia|]).
    + split; [exact (keeps_trans _ _ _ Kp Kp2)|split; [exact Ac|split; [intros T; exact (gain_keeps _ _ _ Kp2 (Di T))|split; [intros T; destruct (To' T) as [|G]; [auto|right; left; exact (gain_keeps _ _ _ Kp2 G)]|]]]].
      cbn [apc_of at_pc acc evs main_at with_main]. repeat (split; [assumption|]). split; [exact (Ac s (nth_error_In _ _ Ea))|reflexivity].
    + split; [exact (keeps_trans _ _ _ Kp Kp1)|split; [exact Ac|split; [intros T; exact (gain_keeps _ _ _ Kp1 (Di T))|split; [intros T; destruct (To' T) as [|G]; [auto|right; left; exact (gain_keeps _ _ _ Kp1 G)]|]]]].
      cbn [apc_of at_pc acc evs more_evs now_pending]. rewrite app_length. cbn [length]. lia.
  - assert (To' : todo a = true -> first_pass a = true \/ gain t0 t) by (intros T; destruct (To T) as [|[|[X|(c' & X & _)]]]; auto; discriminate). destruct H as (H1 & H2 & H3 & H4 & H5 & H6). destruct Iv as (Me & _ & _ & Ea).
    destruct Me as [D|[M En]].
    + assert (X : exists t1, main_step N checks t = Some t1 /\ a' = a /\ t' = t1).
      { destruct (main_at t) eqn:Em; try contradiction; (destruct (main_step N checks t) as [t1|]; [|discriminate]; injection St as <- <-; eauto). }
      destruct X as (t1 & Ms & -> & ->). destruct (executing_step _ _ _ _ _ _ _ _ R D Ms) as (Kp1 & _ & F1).
      exists t0. split; [right|apply weight_lt; exact (main_weight _ _ F Ms)].
      split; [exact (keeps_trans _ _ _ Kp Kp1)|split; [exact Ac|split; [intros T; exact (gain_keeps _ _ _ Kp1 (Di T))|split; [intros T; destruct (To' T) as [|G]; [auto|right; left; exact (gain_keeps _ _ _ Kp1 G)]|]]]].
      rewrite Ep. repeat (split; [assumption|]). clear Li To. unfold main_step in Ms. destruct (main_at t) eqn:Em; try contradiction; cbn [executing] in D; subst.
      * destruct (nth_error (slots t) s) as [x|] eqn:Ex; [|discriminate]. cbv beta iota in Ms. destruct (work x); injection Ms as <-; [reflexivity|]. cbn [fault failed] in F1. congruence.
      * injection Ms as <-. reflexivity.
      * destruct (nth_error (slots t) s) as [x|] eqn:Ex; [|discriminate]. cbv beta iota in Ms. injection Ms as <-. cbn [main_at with_main]. split; [reflexivity|]. unfold sigb. cbn [slots with_main with_slot]. rewrite nth_set_eq by (apply nth_error_Some; congruence). reflexivity.
      * destruct H6 as [_ H6]. destruct (nth_error (slots t) s) as [x|] eqn:Ex; [|discriminate]. cbv beta iota in Ms. injection Ms as <-. cbn [main_at with_main logged]. exact (keeps_sigb _ _ _ Kp1 H6).
    + rewrite M in *. injection St as <- <-. apply go; [reflexivity|unfold rank; rewrite Ep; cbn [apc_of at_pc acc has_did]; lia|lia|].
      assert (G : gain t0 t) by (exists s; auto). split; [exact Kp|split; [exact Ac|split; [auto|split; [auto|]]]]. cbn [apc_of at_pc acc evs has_did]. lia.
  - assert (To' : todo a = true -> first_pass a = true \/ gain t0 t) by (intros T; destruct (To T) as [|[|[X|(c' & X & _)]]]; auto; discriminate). destruct H as (H1 & H2).
    assert (Next : forall a1, first_pass a1 = first_pass a -> apc_of a1 = P_chunk (c + K) -> acc a1 = acc a -> did a1 = did a -> (todo a1 = true -> first_pass a = true \/ gain t0 t) -> ok_next t0 a t a1 t).
    { intros a1 E1 E2 E3 E4 E5. apply go; [exact E1|unfold rank; rewrite Ep, E2; pose proof (chunk_next c H2); lia|lia|]. split; [exact Kp|split; [rewrite E3; exact Ac|split; [rewrite E4; exact Di|split; [rewrite E1; intros T; destruct (E5 T); auto|rewrite E2; exact I]]]]. }
    destruct (evs a) as [|s0 l] eqn:Ee; [injection St as <- <-; apply Next; auto|]. cbn [evs has_todo] in St. rewrite Ee in St.
    destruct (negb (distinct (s0 :: l))); [injection St as <- <-|destruct (forallb (is_set t) (s0 :: l)); [injection St as <- <-|destruct (did (has_todo a) || first_pass (has_todo a)) eqn:Df; [injection St as <- <-|discriminate]]].
    + exists t0. split; [|apply rank_lt; [reflexivity|unfold rank; rewrite Ep; cbn [apc_of at_pc]; lia|lia]]. right. split; [exact Kp|split; [exact Ac|split; [exact Di|split; [|exact I]]]].
      auto.
    + apply go; [reflexivity|unfold rank; rewrite Ep; cbn [apc_of at_pc evs has_todo]; rewrite Ee; cbn [length] in *; lia|lia|].
      split; [exact Kp|split; [exact Ac|split; [exact Di|split; [|cbn [apc_of at_pc evs has_todo]; rewrite Ee; cbn [length] in *; split; [exact H1|split; [lia|split; [exact H2|lia]]]]]]]. intros _. right. right. right. exists c. split; [reflexivity|]. cbn [evs at_pc has_todo]. rewrite Ee. discriminate.
    + apply Next; auto. intros _. cbn [did first_pass has_todo] in Df. apply orb_true_iff in Df as [Df|Df]; auto.
  - destruct H as (H1 & H2 & H3 & H4). destruct Iv as (M & Et & Se). destruct (nth_error (evs a) j) as [s|] eqn:Ee.
    + assert (Lj : j < length (evs a)) by (apply nth_error_Some; congruence). destruct (mark s t) as [t1|] eqn:Em; [|discriminate]. cbv beta iota in St. injection St as <- <-. pose proof (mark_keeps _ _ _ Em) as Kp1.
      exists t0. split; [|apply rank_lt; [reflexivity|unfold rank; rewrite Ep; cbn [apc_of at_pc evs]; lia|pose proof (mark_weight _ _ _ Em); lia]].
      destruct (mark_sig _ _ _ Em) as [X|X]; [left; exact X|]. right. assert (G : gain t0 t1) by (exists s; split; [apply Ac; exact (proj1 (Kn2 s (nth_error_In _ _ Ee)))|exact X]).
      split; [exact (keeps_trans _ _ _ Kp Kp1)|split; [exact Ac|split; [auto|split; [auto|]]]]. cbn [apc_of at_pc evs]. split; [exact H1|split; [lia|auto]].
    + injection St as <- <-. apply go; [reflexivity|unfold rank; rewrite Ep; cbn [apc_of at_pc]; pose proof (chunk_next c H3); lia|lia|].
      split; [exact Kp|split; [exact Ac|split; [exact Di|split; [|exact I]]]]. intros _. destruct (Nat.eq_dec j 0) as [->|Nj]; [|destruct (H4 ltac:(lia)); auto].
      destruct (To Et) as [|[|[X|(c' & X & Ne)]]]; auto; [discriminate X|]. apply nth_error_None in Ee. destruct (evs a); [congruence|cbn [length] in Ee; lia].
  - discriminate.
Qed.
End Live.
