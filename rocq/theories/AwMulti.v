(** tma_impl_wait_multiple: what holds at every step of the calls that behave. *)
From Coq Require Import Arith Bool List Lia.
From Verif Require Import Base AsModel AsSpec AsProofs AsSteps AsWorker AsMain AsCalls AsProgress AsRing AsQuiet AwModel AwSpec AwQueue AwReach AwAll.
Import ListNotations.

Definition seen (hs : list handle) (start : nat) (all : bool) (a : chunk_call) (t : state) (i : nat) : Prop :=
  forall j s, j < i -> nth_error hs (start + j) = Some (Some s) -> (all = true /\ ended t s) \/ In (s, j) (buf a).
Definition buffered (hs : list handle) (start : nat) (a : chunk_call) (t : state) : Prop :=
  forall s h, In (s, h) (buf a) -> nth_error hs (start + h) = Some (Some s) /\ busy t s.
Definition chunk_inv (K : nat) (hs : list handle) (start count : nat) (all : bool) (a : chunk_call) (t : state) : Prop :=
  und a = None /\ buffered hs start a t /\
  match cpc_of a with
  | C_flag i => main_at t = M_ready /\ length (buf a) <= i /\ seen hs start all a t i
  | C_pos i s => main_at t = M_ready /\ length (buf a) <= i /\ i < count /\ nth_error hs (start + i) = Some (Some s) /\ busy t s /\ seen hs start all a t i
  | C_dispatch i s => (dispatching s (main_at t) \/ main_at t = M_ready /\ has_pos t s) /\ length (buf a) <= i /\ i < count /\ nth_error hs (start + i) = Some (Some s) /\ busy t s /\ seen hs start all a t i
  | C_wait => main_at t = M_ready /\ seen hs start all a t count
  | C_mark k => main_at t = M_ready /\ all = false /\ exists s h, nth_error (buf a) k = Some (s, h) /\ is_set t s = true
  | C_marks j i => main_at t = M_ready /\ all = true /\ seen hs start all a t count /\ forall s h, In (s, h) (buf a) -> is_set t s = true
  | C_return o => main_at t = M_ready /\
      match o with
      | Found i => if all then forall j s, j < count -> nth_error hs (start + j) = Some (Some s) -> ended t s else exists s, nth_error hs (start + i) = Some (Some s) /\ ended t s
      | Overflow => K < count
      | NoWork => all = false -> forall j s, j < count -> nth_error hs (start + j) <> Some (Some s)
      | _ => True
      end
  | _ => False
  end.
Lemma seen_keeps hs start all a t t' i : keeps t t' -> seen hs start all a t i -> seen hs start all a t' i.
Proof. intros Kp H j s L E. destruct (H j s L E) as [[]|]; auto. left. split; [assumption|]. eapply keeps_ended; eassumption. Qed.
Lemma buffered_keeps hs start a t t' : keeps t t' -> buffered hs start a t -> buffered hs start a t'.
Proof. intros Kp H s h I. destruct (H s h I). split; [assumption|]. eapply keeps_busy; eassumption. Qed.
Lemma chunk_env K hs start count all a t t' : keeps t t' -> main_at t' = main_at t -> chunk_inv K hs start count all a t -> chunk_inv K hs start count all a t'.
Proof.
  intros Kp E (U & Bf & H). split; [exact U|split; [exact (buffered_keeps _ _ _ _ _ Kp Bf)|]]. pose proof (fun i => seen_keeps hs start all a t t' i Kp) as Sn.
  pose proof (fun s => keeps_busy t t' s Kp) as Bu. pose proof (fun s => keeps_ended t t' s Kp) as En. pose proof (fun s => keeps_pos t t' s Kp) as Po. pose proof (fun s => keeps_set_event t t' s Kp) as Se.
  destruct (cpc_of a) as [i|i s|i s|i s| |k|j i|i|o]; rewrite ?E; try (intuition auto; fail).
  - destruct H as (M & Ea & s & h & Eb & Es). split; [exact M|split; [exact Ea|]]. exists s, h. auto.
  - destruct H as (M & Ea & S & H). split; [exact M|split; [exact Ea|split; [auto|]]]. intros s h I. apply Se. exact (H s h I).
  - destruct H as (M & H). split; [exact M|]. destruct o; auto. destruct all; [intros j s L Ej; apply En; exact (H j s L Ej)|]. destruct H as (s & Es & H). exists s. auto.
Qed.
Lemma first_set_spec t l k r : first_set t k l = Some r -> exists i s h, r = k + i /\ nth_error l i = Some (s, h) /\ is_set t s = true.
Proof.
  revert k. induction l as [|[s h] l IH]; intros k; [discriminate|]. cbn [first_set]. destruct (is_set t s) eqn:E.
  - intros [= <-]. exists 0, s, h. split; [lia|auto].
  - intros H. destruct (IH _ H) as (i & s' & h' & -> & En & Es). exists (S i), s', h'. split; [lia|auto].
Qed.
Section MultiStep.
Variables N C n K : nat.
Variable checks : bool.
Notation reach := (reach N C n checks).
Lemma seen_next hs start all a a' t i s : seen hs start all a t i -> (forall p, In p (buf a) -> In p (buf a')) -> nth_error hs (start + i) = Some s ->
  (forall s', s = Some s' -> (all = true /\ ended t s') \/ In (s', i) (buf a')) -> seen hs start all a' t (i + 1).
Proof using.
  intros H A Es Hs j s' L Ej. destruct (Nat.eq_dec j i) as [->|Ne].
  - rewrite Es in Ej. injection Ej as ->. apply Hs. reflexivity.
  - destruct (H j s' ltac:(lia) Ej) as [|]; auto.
Qed.
Lemma add_buf_inv hs start count all a t i s : und a = None -> buffered hs start a t -> main_at t = M_ready -> length (buf a) <= i -> i < count ->
  nth_error hs (start + i) = Some (Some s) -> busy t s -> seen hs start all a t i -> chunk_inv K hs start count all (add_buf K i s a) t.
Proof using.
  intros U Bf M L Li Eh Bu Sn. unfold add_buf. destruct (Nat.leb_spec K (length (buf a))) as [Lk|Lk].
  - split; [exact U|split; [exact Bf|]]. cbn [cpc_of returns at_cpc]. split; [exact M|]. lia.
  - split; [exact U|split].
    + intros s' h I. cbn [buf] in I. apply in_app_iff in I as [I|[[= <- <-]|[]]]; [exact (Bf _ _ I)|auto].
    + cbn [cpc_of buf]. split; [exact M|split; [rewrite app_length; cbn [length]; lia|]]. apply (seen_next hs start all a _ t i (Some s)); auto; cbn [buf].
      * intros p I. apply in_app_iff. auto.
      * intros s' [= <-]. right. apply in_app_iff. right. left. reflexivity.
Qed.
Lemma chunk_step_inv hs start count all m over a t d a' t' : 0 < N -> reach t d -> fault t = false -> start + count <= length hs -> (all = true -> checks = false) ->
  chunk_inv K hs start count all a t -> chunk_step N checks K hs start count all m over a t = Some (a', t') ->
  (exists d', reach t' d') /\ (fault t' = true \/ chunk_inv K hs start count all a' t' /\ keeps t t').
Proof using.
  intros HN R F HL Hc (U & Bf & H) St. unfold chunk_step in St.
  assert (Same : forall a1, chunk_inv K hs start count all a1 t -> Some (a1, t) = Some (a', t') -> (exists d', reach t' d') /\ (fault t' = true \/ chunk_inv K hs start count all a' t' /\ keeps t t')).
  { intros a1 I [= <- <-]. split; [exists d; exact R|]. right. split; [exact I|apply keeps_refl]. }
  assert (Fail : forall s a1, main_at t = M_ready -> in_use t s = None -> Some (a1, failed t) = Some (a', t') -> (exists d', reach t' d') /\ (fault t' = true \/ chunk_inv K hs start count all a' t' /\ keeps t t')).
  { intros s a1 M Us [= <- <-]. split; [exists d; exact (reach_failed _ _ _ _ _ _ s R F M Us)|]. left. reflexivity. }
  destruct (cpc_of a) as [i|i s|i s|i s| |k|j i|i|o] eqn:Ep; try contradiction.
  - (* C_flag *) destruct H as (M & Lb & Sn). destruct (Nat.ltb_spec i count) as [L|L].
    + destruct (nth_error hs (start + i)) as [[s|]|] eqn:Eh; [| |apply hs_out in Eh; lia].
      * destruct (in_use t s) as [[x w]|] eqn:Us; [|revert St; apply (Fail s); assumption]. apply in_use_some in Us as Us'. destruct Us' as [Ex Ew].
        destruct (signaled x) eqn:Sg; [|revert St; apply Same].
        -- assert (En : ended t s) by (exists x, w; split; [exact Ex|split; [exact Ew|]]; eapply event_ended; eauto).
           destruct all; revert St; apply Same.
           ++ split; [exact U|split; [exact Bf|]]. cbn [cpc_of buf]. split; [exact M|split; [lia|]]. apply (seen_next hs start true a _ t i (Some s)); auto. intros s' [= <-]. auto.
           ++ split; [exact U|split; [exact Bf|]]. cbn [cpc_of returns at_cpc]. split; [exact M|]. exists s. auto.
        -- split; [exact U|split; [exact Bf|]]. cbn [cpc_of at_cpc buf]. split; [exact M|split; [exact Lb|split; [exact L|split; [exact Eh|split; [exact (use_busy _ _ _ _ Us)|exact Sn]]]]].
      * revert St; apply Same. split; [exact U|split; [exact Bf|]]. cbn [cpc_of at_cpc buf]. split; [exact M|split; [lia|]]. apply (seen_next hs start all a _ t i None); auto. discriminate.
    + assert (Sc : seen hs start all a t count) by (intros j s Lj; apply Sn; lia).
      destruct (buf a) as [|p l] eqn:Eb.
      * destruct (all && fin a) eqn:Ef; revert St; apply Same; (split; [exact U|split; [exact Bf|]]); cbn [cpc_of returns at_cpc]; (split; [exact M|]).
        -- apply andb_true_iff in Ef as [-> _]. intros j s Lj Ej. destruct (Sc j s Lj Ej) as [[_ X]|X]; [exact X|]. rewrite Eb in X. destruct X.
        -- intros -> j s Lj Ej. destruct (Sc j s Lj Ej) as [[X _]|X]; [discriminate|]. rewrite Eb in X. destruct X.
      * revert St; apply Same. split; [exact U|split; [exact Bf|]]. cbn [cpc_of at_cpc]. split; [exact M|exact Sc].
  - (* C_pos *) destruct H as (M & Lb & L & Eh & Bu & Sn). destruct (nth_error (slots t) s) as [x|] eqn:Ex; [|discriminate]. cbv beta iota in St. destruct (no_pos x) eqn:Np.
    + injection St as <- <-. split.
      * exists (d + 1). apply (reach_try _ _ _ _ _ _ _ x); try assumption. unfold no_pos in Np. destruct (ring_pos x); [discriminate|reflexivity].
      * right. split; [|apply with_main_keeps]. split; [exact U|split; [exact Bf|]]. cbn [cpc_of at_cpc]. split; [left; reflexivity|]. auto.
    + revert St. apply Same. apply add_buf_inv; assumption.
  - (* C_dispatch *) destruct H as (M & Lb & L & Eh & Bu & Sn).
    assert (Sub : dispatching s (main_at t) -> (t'0 <- main_step N checks t ;; Some (a, t'0)) = Some (a', t') -> (exists d', reach t' d') /\ (fault t' = true \/ chunk_inv K hs start count all a' t' /\ keeps t t')).
    { intros D X. destruct (main_step N checks t) as [t1|] eqn:Ms; [|discriminate]. cbv beta iota in X. injection X as <- <-. split; [exists d; exact (reach_main _ _ _ _ _ _ _ R F Ms)|]. right.
      destruct (dispatching_step _ _ _ _ _ _ _ _ R D Ms) as (Kp & Dn & _). split; [|exact Kp]. split; [exact U|split; [exact (buffered_keeps _ _ _ _ _ Kp Bf)|]]. rewrite Ep.
      split; [exact Dn|]. split; [exact Lb|split; [exact L|split; [exact Eh|split; [exact (keeps_busy _ _ _ Kp Bu)|exact (seen_keeps _ _ _ _ _ _ _ Kp Sn)]]]]. }
    destruct M as [D|[M Hp]]; [|rewrite M in St].
    + revert St. destruct (main_at t) eqn:Em; try contradiction; apply Sub; assumption.
    + destruct (in_use_of _ _ Bu) as (x & w & Us & Ex & Ew). rewrite Us, (has_pos_no_pos _ _ _ Hp Ex) in St. revert St. apply Same. apply add_buf_inv; assumption.
  - (* C_wait *) destruct H as (M & Sn). destruct (negb (distinct (map fst (buf a)))).
    { revert St. apply Same. split; [exact U|split; [exact Bf|]]. cbn [cpc_of returns at_cpc]. auto. }
    destruct all.
    + destruct (forallb (is_set t) (map fst (buf a))) eqn:Fa.
      * destruct over; [discriminate|]. revert St. apply Same. split; [exact U|split; [exact Bf|]]. cbn [cpc_of at_cpc]. split; [exact M|split; [reflexivity|split; [exact Sn|]]].
        intros s h I. rewrite forallb_forall in Fa. apply Fa. apply in_map_iff. exists (s, h). auto.
      * destruct m; [destruct over; [discriminate|]|destruct over; [|discriminate]|discriminate]; revert St; apply Same; (split; [exact U|split; [exact Bf|]]); cbn [cpc_of returns at_cpc]; auto.
    + destruct (first_set t 0 (buf a)) as [k|] eqn:Fs.
      * destruct over; [discriminate|]. apply first_set_spec in Fs as (i & s & h & -> & En & Es). revert St. apply Same. split; [exact U|split; [exact Bf|]]. cbn [cpc_of at_cpc]. split; [exact M|split; [reflexivity|]]. exists s, h. auto.
      * destruct m; [destruct over; [discriminate|]|destruct over; [|discriminate]|discriminate]; revert St; apply Same; (split; [exact U|split; [exact Bf|]]); cbn [cpc_of returns at_cpc]; auto.
  - (* C_mark *) destruct H as (M & -> & s & h & Eb & Es). rewrite Eb in St. destruct (mark s t) as [t1|] eqn:Em; [|discriminate]. cbv beta iota in St. injection St as <- <-.
    pose proof (mark_keeps _ _ _ Em) as Kp. split; [exists d; exact (reach_mark _ _ _ _ _ _ _ _ HN R F M Es Em)|]. right. split; [|exact Kp].
    unfold finish. rewrite U. split; [exact U|split; [exact (buffered_keeps _ _ _ _ _ Kp Bf)|]]. cbn [cpc_of returns at_cpc]. split; [rewrite (mark_main _ _ _ Em); exact M|].
    exists s. destruct (Bf s h (nth_error_In _ _ Eb)) as [Eh Bu]. split; [exact Eh|]. apply (keeps_ended _ _ _ Kp). destruct Bu as (x & w & Ex & Ew). exists x, w. split; [exact Ex|split; [exact Ew|]].
    eapply event_ended; eauto. left. unfold is_set in Es. rewrite Ex in Es. exact Es.
  - (* C_marks *) destruct H as (M & -> & Sn & Se). destruct (nth_error (buf a) j) as [[s h]|] eqn:Eb.
    + destruct (mark s t) as [t1|] eqn:Em; [|discriminate]. cbv beta iota in St. rewrite (Hc eq_refl) in St. cbn [andb] in St. injection St as <- <-.
      pose proof (mark_keeps _ _ _ Em) as Kp. split; [exists d; exact (reach_mark _ _ _ _ _ _ _ _ HN R F M (Se _ _ (nth_error_In _ _ Eb)) Em)|]. right. split; [|exact Kp].
      split; [exact U|split; [exact (buffered_keeps _ _ _ _ _ Kp Bf)|]]. cbn [cpc_of at_cpc]. split; [rewrite (mark_main _ _ _ Em); exact M|split; [reflexivity|split; [exact (seen_keeps _ _ _ _ _ _ _ Kp Sn)|]]].
      intros s' h' I. exact (keeps_set_event _ _ _ Kp (Se _ _ I)).
    + revert St. apply Same. unfold finish. rewrite U. split; [exact U|split; [exact Bf|]]. cbn [cpc_of returns at_cpc]. split; [exact M|].
      intros k s Lk Ek. destruct (Sn k s Lk Ek) as [[_ X]|X]; [exact X|]. destruct (Bf _ _ X) as [_ (x & w & Ex & Ew)]. exists x, w. split; [exact Ex|split; [exact Ew|]].
      eapply event_ended; eauto. left. pose proof (Se _ _ X) as Es. unfold is_set in Es. rewrite Ex in Es. exact Es.
  - discriminate.
Qed.
Definition multi_inv (hs : list handle) (all : bool) (m : mode) (p : wpc) (t : state) : Prop :=
  fine_call K checks hs all m /\
  match p with
  | W_chunk i late a => chunk_inv K hs i (chunk_size K hs all m i) all a t /\ i + chunk_size K hs all m i <= length hs /\ (all = true -> i = 0)
  | S_flag i regs und => main_at t = M_ready /\ regs = [] /\ all = false /\ forall j s, nth_error hs j <> Some (Some s)
  | W_return (Found i) => if all then forall s, In (Some s) hs -> ended t s else exists s, nth_error hs i = Some (Some s) /\ ended t s
  | W_return _ => True
  | _ => False
  end.
Lemma multi_env hs all m p t t' : keeps t t' -> main_at t' = main_at t -> multi_inv hs all m p t -> multi_inv hs all m p t'.
Proof using.
  intros Kp E [Fc H]. split; [exact Fc|]. destruct p as [i late a|i regs u|i s regs u|i s regs u|regs|i|o]; try contradiction; try (rewrite E; exact H).
  - destruct H as (H1 & H2 & H3). split; [exact (chunk_env _ _ _ _ _ _ _ _ Kp E H1)|auto].
  - destruct o; auto. destruct all; [intros s I; exact (keeps_ended _ _ _ Kp (H s I))|]. destruct H as (s & Es & H). exists s. split; [exact Es|exact (keeps_ended _ _ _ Kp H)].
Qed.
Lemma start_multi_inv hs all m t : fine_call K checks hs all m -> main_at t = M_ready -> multi_inv hs all m start_multi t.
Proof using.
  intros Fc M. split; [exact Fc|]. cbn [start_multi]. split; [|split].
  - split; [reflexivity|split; [intros s h []|]]. cbn [start_chunk cpc_of buf length]. split; [exact M|split; [lia|]]. intros j s L. lia.
  - unfold fine_call in Fc. destruct m; cbn [chunk_size]; try lia. destruct all; lia.
  - auto.
Qed.
Lemma multi_step_inv hs all m over sel p t d p' t' : 0 < N -> 0 < K -> reach t d -> fault t = false ->
  multi_inv hs all m p t -> multi_step N checks K hs all m over sel p t = Some (p', t') ->
  (exists d', reach t' d') /\ (fault t' = true \/ multi_inv hs all m p' t' /\ keeps t t').
Proof using.
  intros HN HK R F [Fc H] St. unfold multi_step in St.
  assert (Same : forall a1, multi_inv hs all m a1 t -> Some (a1, t) = Some (p', t') -> (exists d', reach t' d') /\ (fault t' = true \/ multi_inv hs all m p' t' /\ keeps t t')).
  { intros a1 I [= <- <-]. split; [exists d; exact R|]. right. split; [exact I|apply keeps_refl]. }
  destruct p as [i late a|i regs u|i s regs u|i s regs u|regs|i|o]; try contradiction; try discriminate.
  - destruct H as (Ci & Lc & Ha).
    assert (Hc : all = true -> checks = false) by (intros ->; exact (proj1 Fc)).
    assert (Step : (' (a'0, t'0) <- chunk_step N checks K hs i (chunk_size K hs all m i) all m over a t ;; Some (W_chunk i late a'0, t'0)) = Some (p', t') -> (exists d', reach t' d') /\ (fault t' = true \/ multi_inv hs all m p' t' /\ keeps t t')).
    { intros X. destruct (chunk_step N checks K hs i (chunk_size K hs all m i) all m over a t) as [[a1 t1]|] eqn:Cs; [|discriminate]. cbv beta iota in X. injection X as <- <-.
      destruct (chunk_step_inv _ _ _ _ _ _ _ _ _ _ _ HN R F Lc Hc Ci Cs) as [R' [F'|[I Kp]]]; [auto|]. split; [exact R'|]. right. split; [|exact Kp]. split; [exact Fc|auto]. }
    destruct (cpc_of a) as [i0|i0 s0|i0 s0|i0 s0| |k0|j0 i0|i0|o] eqn:Ep; try (apply Step; exact St). clear Step.
    destruct Ci as (U & Bf & Ci). rewrite Ep in Ci. destruct Ci as [M Ci]. revert St. apply Same. split; [exact Fc|].
    assert (New : forall k, k <= length hs -> all = false -> m = Poll -> chunk_inv K hs k (chunk_size K hs all m k) all start_chunk t /\ k + chunk_size K hs all m k <= length hs /\ (all = true -> k = 0)).
    { intros k Lk -> ->. split; [|cbn [chunk_size]; split; [lia|discriminate]]. split; [reflexivity|split; [intros s h []|]]. cbn [start_chunk cpc_of buf length]. split; [exact M|split; [lia|]]. intros j s L. lia. }
    unfold after_chunk. destruct m; [destruct all|..].
    + cbn [fine_call] in Fc. destruct Fc as [_ El]. specialize (Ha eq_refl). subst i. rewrite Nat.add_0_l, El, Nat.ltb_irrefl. cbn [chunk_size] in Ci.
      destruct o; auto; try lia. intros s I. apply In_nth_error in I as [j Ej]. apply (Ci j s); [|exact Ej]. pose proof (hs_lt _ _ _ Ej). lia.
    + assert (L : Nat.ltb (i + K) (length hs) = true -> i + K <= length hs) by (intros X; apply Nat.ltb_lt in X; lia).
      cbn [chunk_size] in Ci. destruct o; [..|destruct late|].
      * destruct Ci as (s & Es & X). exists s. auto.
      * destruct (Nat.ltb (i + K) (length hs)) eqn:E; cbn [negb]; [|exact I]. apply New; auto.
      * exact I.
      * destruct (Nat.ltb (i + K) (length hs)) eqn:E; cbn [negb]; [|exact I]. apply New; auto.
      * destruct (Nat.ltb (i + K) (length hs)) eqn:E; cbn [negb]; [|exact I]. apply New; auto.
      * exfalso. lia.
    + cbn [chunk_size] in *. destruct o; auto. assert (i = 0) by lia. subst i. destruct all; [|exact Ci]. intros s I. apply In_nth_error in I as [j Ej]. apply (Ci j s); [|exact Ej]. exact (hs_lt _ _ _ Ej).
    + cbn [chunk_size] in *. assert (i = 0) by lia. subst i. unfold fine_call in Fc. destruct all; [destruct Fc as [_ []]|]. destruct o; auto.
      * split; [exact M|split; [reflexivity|split; [reflexivity|]]]. intros j s Ej. apply (Ci eq_refl j s); [exact (hs_lt _ _ _ Ej)|exact Ej].
      * exfalso. lia.
  - destruct H as (M & -> & Ea & Iv). destruct (nth_error hs i) as [[s|]|] eqn:Eh; [elim (Iv i s Eh)|revert St; apply Same|revert St; apply Same].
    + split; [exact Fc|auto].
    + split; [exact Fc|exact I].
Qed.
End MultiStep.
