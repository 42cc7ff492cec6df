(** C139: resource_ptr (tm_resource_ptr.h). *)
From Coq Require Import Arith Lia List Permutation.
From Verif Require Import Base RpModel.
Import ListNotations.

(** Specification: what the program hands over to pointers, and what the pointers hold. *)
Definition given (os : list op) : list nat := flat_map (fun o => match o with Make (Some r) => [r] | Reset _ (Some r) => [r] | _ => [] end) os.
Definition held (H : heap) : list nat := flat_map (fun o => match o with Some (Some r) => [r] | _ => [] end) (objects H).

Definition own (o : option resource) : list nat := match o with Some (Some r) => [r] | _ => [] end.
Lemma nth_split' : forall A (l : list A) i x, nth_error l i = Some x -> l = firstn i l ++ x :: skipn (S i) l.
Proof. induction l as [|y l IH]; intros [|i] x H; try discriminate H; cbn [nth_error firstn skipn app] in *; [congruence|]. f_equal. apply IH, H. Qed.
Lemma put_held : forall H i x o, data H i = Some x -> Permutation (own (Some x) ++ held (put i o H)) (own o ++ held H).
Proof.
  intros H i x o E. unfold data in E. destruct (nth_error (objects H) i) as [o'|] eqn:N; [|discriminate E]. subst o'. unfold held, put. cbn [objects]. rewrite (nth_split' _ _ _ _ N) at 3. rewrite !flat_map_app. cbn [flat_map].
  set (a := flat_map _ (firstn i (objects H))). set (b := flat_map _ (skipn (S i) (objects H))). fold (own o). fold (own (Some x)).
  rewrite !app_assoc. apply Permutation_app_tail. rewrite (Permutation_app_comm (own (Some x)) a). rewrite <- !app_assoc. rewrite (Permutation_app_comm (own (Some x)) (own o)). rewrite !app_assoc. apply Permutation_app_tail, Permutation_app_comm.
Qed.
Lemma data_put : forall H i j o, (exists x, data H i = Some x) -> data (put i o H) j = if Nat.eqb i j then o else data H j.
Proof.
  intros H i j o [x E]. unfold data in *. destruct (nth_error (objects H) i) as [o'|] eqn:N; [|discriminate E]. unfold put. cbn [objects]. assert (L : i < length (objects H)) by (apply nth_error_Some; congruence). destruct (Nat.eqb_spec i j) as [<-|D].
  - rewrite nth_error_app2 by (rewrite firstn_length; lia). rewrite firstn_length. replace (i - min i (length (objects H))) with 0 by lia. reflexivity.
  - pose proof (nth_split' _ _ _ _ N) as Sp. assert (La : length (firstn i (objects H)) = i) by (rewrite firstn_length; lia). revert Sp La. generalize (firstn i (objects H)) (skipn (S i) (objects H)). intros u v Sp La. rewrite Sp. clear - La D. destruct (Nat.lt_ge_cases j i) as [Lj|Lj].
    + rewrite !nth_error_app1 by lia. reflexivity.
    + rewrite !nth_error_app2 by lia. replace (j - length u) with (S (j - i - 1)) by lia. reflexivity.
Qed.
Definition all (H : heap) : list nat := held H ++ destroyed H ++ released H.
Lemma swap_ok : forall i j H H', swap i j H = Some H' -> Permutation (all H') (all H) /\ destroyed H' = destroyed H /\ released H' = released H.
Proof.
  intros i j H H' E. unfold swap in E. destruct (data H j) as [t|] eqn:Ej; [|discriminate E]. destruct (data H i) as [x|] eqn:Ei; [|discriminate E]. cbv beta iota in E. injection E as <-. unfold all. cbn [put destroyed released]. split; [|split; reflexivity]. apply Permutation_app_tail.
  pose proof (put_held H j t (Some x) Ej) as P1. assert (Ei' : exists y, data (put j (Some x) H) i = Some y /\ y = x).
  { rewrite data_put by (exists t; exact Ej). destruct (Nat.eqb_spec j i) as [->|]; [exists x; split; reflexivity|exists x; split; [exact Ei|reflexivity]]. }
  destruct Ei' as (y & Ei' & ->). pose proof (put_held (put j (Some x) H) i x (Some t) Ei') as P2.
  apply (Permutation_app_inv_l (own (Some x))). rewrite P2. apply P1.
Qed.
Lemma run1_ok : forall o H H', run1 o H = Some H' -> Permutation (all H') (given [o] ++ all H).
Proof.
  intros o H H' E. unfold given. cbn [flat_map]. rewrite app_nil_r. destruct o as [r|j|i j|i|i|i r|i j]; cbn [run1] in E.
  - injection E as <-. unfold all, held. cbn [objects destroyed released]. rewrite flat_map_app. cbn [flat_map]. rewrite app_nil_r. rewrite <- app_assoc. rewrite Permutation_app_swap_app. destruct r; reflexivity.
  - destruct (data H j) as [x|] eqn:Ej; [|discriminate E]. cbv beta iota in E. injection E as <-. unfold all. cbn [destroyed released put app]. apply Permutation_app_tail. pose proof (put_held H j x (Some None) Ej) as P. cbn [own app] in P. rewrite <- P. unfold held. cbn [objects put]. rewrite flat_map_app. cbn [flat_map]. rewrite app_nil_r. apply Permutation_app_comm.
  - apply (swap_ok i j H H' E).
  - destruct (data H i) as [x|] eqn:Ei; [|discriminate E]. cbv beta iota in E. injection E as <-. unfold all. cbn [destroyed released put app destroy_resource]. pose proof (put_held H i x None Ei) as P. cbn [own app] in P. change (held (put i None (destroy_resource x H))) with (held (put i None H)).
    rewrite <- P. destruct x as [r|]; cbn [own app]; [|reflexivity]. rewrite <- Permutation_middle. reflexivity.
  - destruct (data H i) as [x|] eqn:Ei; [|discriminate E]. cbv beta iota in E. injection E as <-. unfold all. cbn [destroyed released put app]. pose proof (put_held H i x (Some None) Ei) as P. cbn [own app] in P. rewrite <- P. unfold held at 1. cbn [objects put]. fold (held (put i (Some None) H)). change (flat_map (fun o : option (option nat) => match o with Some (Some r) => [r] | _ => [] end) (firstn i (objects H) ++ Some None :: skipn (S i) (objects H))) with (held (put i (Some None) H)).
    destruct x as [r|]; cbn [own app]; [|reflexivity]. rewrite !app_assoc. rewrite <- Permutation_middle. reflexivity.
  - destruct (data H i) as [x|] eqn:Ei; [|discriminate E]. cbv beta iota in E. injection E as <-. unfold all. cbn [destroyed released put app destroy_resource]. pose proof (put_held H i x (Some r) Ei) as P. change (held (put i (Some r) (destroy_resource x H))) with (held (put i (Some r) H)).
    assert (G : match r with Some r0 => [r0] | None => [] end = own (Some r)) by (destruct r; reflexivity). rewrite G. rewrite (app_assoc (own (Some r))). rewrite <- P. destruct x as [y|]; cbn [own app]; [|reflexivity]. rewrite <- Permutation_middle. reflexivity.
  - apply (swap_ok i j H H' E).
Qed.
Lemma run_ok : forall os H H', run os H = Some H' -> Permutation (all H') (given os ++ all H).
Proof.
  induction os as [|o os IH]; intros H H' E; cbn [run] in E; [injection E as <-; reflexivity|]. destruct (run1 o H) as [H1|] eqn:E1; [|discriminate E]. cbv beta iota in E. rewrite (IH _ _ E). rewrite (run1_ok _ _ _ E1). change (o :: os) with ([o] ++ os). unfold given. rewrite flat_map_app. rewrite !app_assoc. apply Permutation_app_tail, Permutation_app_comm.
Qed.
(** Whatever a program does with its pointers: every resource given to them is held by one of them, or destroyed, or
    released, and that once. *)
Theorem C139_each_once : forall os H, run os empty = Some H -> Permutation (held H ++ destroyed H ++ released H) (given os).
Proof. intros os H E. pose proof (run_ok os empty H E) as P. unfold all at 2 in P. cbn [empty held objects destroyed released flat_map app] in P. rewrite app_nil_r in P. exact P. Qed.
(** If all of them were different, none is destroyed twice, or destroyed and still held or released; once all pointers
    are gone, everything not released is destroyed. *)
Theorem C139_destroyed_once_partial : forall os H, run os empty = Some H -> NoDup (given os) ->
  NoDup (destroyed H) /\ (forall r, In r (destroyed H) -> ~ In r (held H) /\ ~ In r (released H)) /\
  (Forall (fun o => o = None) (objects H) -> forall r, In r (given os) -> In r (destroyed H) \/ In r (released H)).
Proof.
  intros os H E N. pose proof (C139_each_once os H E) as P. apply (Permutation_NoDup (Permutation_sym P)) in N.
  assert (ND : forall (l l' : list nat), NoDup (l ++ l') -> NoDup l /\ NoDup l' /\ forall r, In r l -> ~ In r l').
  { induction l as [|a l IH]; intros l' Nl; cbn [app] in Nl; [split; [constructor|split; [exact Nl|intros r []]]|]. apply NoDup_cons_iff in Nl. destruct Nl as [Na Nl]. destruct (IH l' Nl) as (I1 & I2 & I3). split; [constructor; [|exact I1]|split; [exact I2|]].
    - intros Hi. apply Na, in_app_iff. left. exact Hi.
    - intros r [->|Hr]; [|apply I3, Hr]. intros Hi. apply Na, in_app_iff. right. exact Hi. }
  destruct (ND _ _ N) as (N1 & N2 & D1). destruct (ND _ _ N2) as (N3 & N4 & D2). split; [exact N3|]. split.
  - intros r Hr. split; [|apply D2, Hr]. intros Hh. apply (D1 r Hh), in_app_iff. left. exact Hr.
  - intros Fa r Hr. apply (Permutation_in _ (Permutation_sym P)) in Hr. rewrite in_app_iff in Hr. destruct Hr as [Hr|Hr]; [|apply in_app_iff, Hr]. exfalso. unfold held in Hr. apply in_flat_map in Hr. destruct Hr as (o & Ho & Hr). rewrite Forall_forall in Fa. rewrite (Fa o Ho) in Hr. destruct Hr.
Qed.
Definition story : list op := [Make (Some 7); Make (Some 8); Move_construct 0; Move_assign 1 2; Reset 1 (Some 9); Release 2; Swap 0 1; Destruct 0; Destruct 1; Destruct 2].
Example C139_story : run story empty = Some (Heap [None; None; None] [9; 7] [8]) /\ NoDup (given story).
Proof. split; [reflexivity|]. repeat constructor; cbn; intuition discriminate. Qed.
(** Assigning does not destroy the old resource: the other pointer has it until it goes away. *)
Example C139_assignment_swaps : run [Make (Some 7); Make (Some 8); Move_assign 0 1] empty = Some (Heap [Some (Some 8); Some (Some 7)] [] []).
Proof. reflexivity. Qed.
(** p.reset(p.get()) destroys the resource and keeps it: it is destroyed twice. *)
Theorem C139_reset_own_refuted : run [Make (Some 7); Reset 0 (Some 7); Destruct 0] empty = Some (Heap [None] [7; 7] []).
Proof. reflexivity. Qed.

Print Assumptions C139_each_once.
Print Assumptions C139_destroyed_once_partial.
Print Assumptions C139_reset_own_refuted.
