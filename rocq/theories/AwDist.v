(** Handles that differ from each other: the wait for all of them does not fail. *)
From Coq Require Import Arith Bool List Lia.
From Verif Require Import Base AsModel AsSpec AwModel AwSpec AwAll.
Import ListNotations.

Lemma distinct_nodup l : NoDup l -> distinct l = true.
Proof.
  induction 1 as [|a l H _ IH]; [reflexivity|]. cbn [distinct]. rewrite IH, andb_true_r. destruct (existsb (Nat.eqb a) l) eqn:E; [|reflexivity].
  apply existsb_exists in E as (b & Ib & E). apply Nat.eqb_eq in E. subst b. contradiction.
Qed.
Lemma nodup_snoc {A} (l : list A) a : NoDup l -> ~ In a l -> NoDup (l ++ [a]).
Proof.
  intros H N. induction H as [|b l Nb H IH]; cbn [app]; [constructor; [intros []|constructor]|]. constructor.
  - rewrite in_app_iff. intros [X|[X|[]]]; [contradiction|]. subst b. apply N. left. reflexivity.
  - apply IH. intros X. apply N. right. exact X.
Qed.
Definition earlier (hs : list handle) (a : all_call) (b : nat) : Prop := evs a = [] /\ forall s, In s (acc a) -> exists j, j < b /\ nth_error hs j = Some (Some s).
Definition picked (a : all_call) (i : nat) : Prop := forall s, In s (evs a) -> exists k, k < i /\ nth_error (acc a) k = Some s.
Definition dist_inv (hs : list handle) (a : all_call) : Prop :=
  NoDup (acc a) /\ NoDup (evs a) /\
  match apc_of a with
  | P_chunk c => True
  | P_flag c i => earlier hs a (c + i)
  | P_pos c i s | P_dispatch c i s => earlier hs a (c + i) /\ nth_error hs (c + i) = Some (Some s)
  | Q_pos c i => picked a i
  | Q_dispatch c i s | Q_pop c i s | Q_execute c i s => picked a i /\ nth_error (acc a) i = Some s
  | Q_wait c | Q_mark c _ => True
  | P_return ok => ok = true
  end.
Lemma earlier_next hs a b : earlier hs a b -> earlier hs a (b + 1).
Proof. intros [E H]. split; [exact E|]. intros s I. destruct (H s I) as (j & L & X). exists j. split; [lia|exact X]. Qed.
Lemma picked_next a i : picked a i -> picked a (i + 1).
Proof. intros H s I. destruct (H s I) as (j & L & X). exists j. split; [lia|exact X]. Qed.
Section Dist.
Variables N K : nat.
Variable checks : bool.
Variable hs : list handle.
Hypothesis U : unique hs.
Lemma acc_next a c i s : dist_inv hs a -> earlier hs a (c + i) -> nth_error hs (c + i) = Some (Some s) -> dist_inv hs (at_pc (P_flag c (i + 1)) (more_acc s a)).
Proof using U.
  intros (Na & Ne & _) [E H] Es. split; [|split; [exact Ne|]].
  - cbn [acc at_pc more_acc]. apply nodup_snoc; [exact Na|]. intros I. destruct (H s I) as (j & L & X). pose proof (U _ _ _ X Es). lia.
  - cbn [apc_of at_pc]. split; [exact E|]. cbn [acc at_pc more_acc]. intros s' I. apply in_app_iff in I as [I|[<-|[]]]; [destruct (H s' I) as (j & L & X); exists j; split; [lia|exact X]|]. exists (c + i). split; [lia|exact Es].
Qed.
Lemma evs_next a i s p : NoDup (acc a) -> NoDup (evs a) -> picked a i -> nth_error (acc a) i = Some s -> NoDup (evs a ++ [s]) /\ picked (AllCall p (first_pass a) (todo a) (did a) (acc a) (evs a ++ [s]) (pend a)) (i + 1).
Proof using.
  intros Na Ne H Es. split.
  - apply nodup_snoc; [exact Ne|]. intros I. destruct (H s I) as (k & L & X). assert (k < length (acc a)) by (apply nth_error_Some; congruence). rewrite NoDup_nth_error in Na. specialize (Na k i H0 ltac:(congruence)). lia.
  - intros s' I. cbn [evs acc] in *. apply in_app_iff in I as [I|[<-|[]]]; [destruct (H s' I) as (k & L & X); exists k; split; [lia|exact X]|]. exists i. split; [lia|exact Es].
Qed.
Lemma try_next a c i s : NoDup (acc a) -> NoDup (evs a) -> picked a i -> nth_error (acc a) i = Some s -> dist_inv hs (try_slot c i s a).
Proof using.
  intros Na Ne H Es. unfold try_slot. destruct (existsb (Nat.eqb s) (pend a)).
  - destruct (evs_next a i s (Q_pos c (i + 1)) Na Ne H Es) as [N1 P1]. split; [exact Na|split; [exact N1|exact P1]].
  - split; [exact Na|split; [exact Ne|split; [exact H|exact Es]]].
Qed.
Theorem dist_step a t a' t' : dist_inv hs a -> all_step N checks K hs a t = Some (a', t') -> dist_inv hs a'.
Proof using U.
  intros I St. pose proof I as (Na & Ne & H). unfold all_step in St.
  destruct (apc_of a) as [c|c i|c i s|c i s|c i|c i s|c i s|c i s|c|c j|ok] eqn:Ep.
  - destruct (Nat.ltb c (length hs)); [|destruct (todo a)]; injection St as <- <-.
    + split; [constructor|split; [constructor|]]. cbn [apc_of at_pc]. split; [reflexivity|]. intros s [].
    + split; [constructor|split; [constructor|exact Logic.I]].
    + split; [exact Na|split; [exact Ne|reflexivity]].
  - destruct (Nat.ltb i (Nat.min K (length hs - c))).
    + destruct (nth_error hs (c + i)) as [[s|]|] eqn:Eh; [destruct (in_use t s) as [[x w]|]; [destruct (signaled x)|]|..]; injection St as <- <-; try exact I.
      * split; [exact Na|split; [exact Ne|]]. cbn [apc_of at_pc]. rewrite Nat.add_assoc. apply earlier_next. exact H.
      * split; [exact Na|split; [exact Ne|split; [exact H|exact Eh]]].
      * split; [exact Na|split; [exact Ne|]]. cbn [apc_of at_pc]. rewrite Nat.add_assoc. apply earlier_next. exact H.
    + destruct (acc a) eqn:Ea; injection St as <- <-.
      * split; [cbn [acc at_pc]; rewrite Ea; exact Na|split; [exact Ne|exact Logic.I]].
      * split; [cbn [acc at_pc]; rewrite Ea; exact Na|split; [exact Ne|]]. cbn [apc_of at_pc]. intros s' Is. cbn [evs at_pc] in Is. destruct H as [E _]. rewrite E in Is. destruct Is.
  - destruct (nth_error (slots t) s) as [x|]; [|discriminate]. cbv beta iota in St. destruct H as [H Es]. destruct (no_pos x); injection St as <- <-.
    + split; [exact Na|split; [exact Ne|split; [exact H|exact Es]]].
    + apply acc_next; assumption.
  - destruct H as [H Es]. destruct (main_at t); try (destruct (main_step N checks t) as [t1|]; [|discriminate]; injection St as <- <-; exact I). injection St as <- <-. apply acc_next; assumption.
  - destruct (nth_error (acc a) i) as [s|] eqn:Ea; [|injection St as <- <-; split; [exact Na|split; [exact Ne|exact Logic.I]]].
    destruct (nth_error (slots t) s) as [x|]; [|discriminate]. cbv beta iota in St. destruct (no_pos x); injection St as <- <-.
    + split; [exact Na|split; [exact Ne|split; [exact H|exact Ea]]].
    + apply try_next; assumption.
  - destruct H as [H Ea]. destruct (main_at t); try (destruct (main_step N checks t) as [t1|]; [|discriminate]; injection St as <- <-; exact I).
    destruct (in_use t s) as [[x w]|]; [|injection St as <- <-; exact I]. destruct (no_pos x); injection St as <- <-.
    + split; [exact Na|split; [exact Ne|split; [exact H|exact Ea]]].
    + apply try_next; assumption.
  - destruct H as [H Ea]. destruct (in_use t s) as [[x w]|]; [|injection St as <- <-; exact I].
    destruct (pop_slot s x t) as [[[b t1]|]|]; cbv beta iota in St; [|injection St as <- <-; exact I|discriminate]. destruct b; injection St as <- <-.
    + split; [exact Na|split; [exact Ne|split; [exact H|exact Ea]]].
    + destruct (evs_next (now_pending s a) i s (Q_pos c (i + 1)) Na Ne H Ea) as [N1 P1]. split; [exact Na|split; [exact N1|exact P1]].
  - destruct H as [H Ea]. destruct (main_at t); try (destruct (main_step N checks t) as [t1|]; [|discriminate]; injection St as <- <-; exact I). injection St as <- <-.
    split; [exact Na|split; [exact Ne|]]. cbn [apc_of at_pc]. apply picked_next. exact H.
  - destruct (evs a) eqn:Ee; [injection St as <- <-; split; [exact Na|split; [cbn [evs at_pc]; rewrite Ee; exact Ne|exact Logic.I]]|]. cbn [evs has_todo] in St. rewrite Ee, (distinct_nodup _ Ne) in St. cbn [negb] in St.
    destruct (forallb (is_set t) (n :: l)); [|destruct (did (has_todo a) || first_pass (has_todo a)); [|discriminate]]; injection St as <- <-; (split; [exact Na|split; [cbn [evs at_pc has_todo]; rewrite Ee; exact Ne|exact Logic.I]]).
  - destruct (nth_error (evs a) j) as [s|]; [|injection St as <- <-; split; [exact Na|split; [exact Ne|exact Logic.I]]]. destruct (mark s t) as [t1|]; [|discriminate]. cbv beta iota in St. injection St as <- <-. split; [exact Na|split; [exact Ne|exact Logic.I]].
  - discriminate.
Qed.
End Dist.
