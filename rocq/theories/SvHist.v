(** Histories of operations on one vector. *)
From Coq Require Import Arith NArith ZArith List Bool Lia ZifyBool ZifyNat.
From Verif Require Import Base SvModel SvSpec SvCells SvProofs SvInsert SvAssign SvWhole.
Import ListNotations.

Section Hist.
  Context {A : Type}.
  Variables triv alloc : bool.
  Variable esize : N.
  Notation elt := (elt A).
  Notation vec := (vec A).
  Notation arg := (arg A).

  Inductive op :=
  | PushBack (x : arg) | PushBackMove (x : arg) | Insert (pos : nat) (x : arg) | InsertMove (pos : nat) (x : arg) | InsertN (pos n : nat) (x : arg)
  | InsertRange (pos : nat) (l : list A) | Emplace (pos : nat) (a : A) | EmplaceBack (a : A) | PopBack | Erase (first last : nat) | Clear
  | Resize (n : nat) (x : arg) | Reserve (n : nat) | AssignN (n : nat) (x : arg) | AssignRange (l : list A) | AssignSelf (first last : nat).

  (** The call of the member function. Functions that cannot fail report success. *)
  Definition step (w : world) (v : vec) (o : op) : option (bool * vec * world) :=
    match o with
    | PushBack x => push_back triv alloc esize w v x
    | PushBackMove x => push_back_move triv alloc esize w v x
    | Insert pos x => insert triv alloc esize w v pos x
    | InsertMove pos x => insert_move triv alloc esize w v pos x
    | InsertN pos n x => insert_n triv alloc esize w v pos n x
    | InsertRange pos l => insert_range triv alloc esize w v pos false l
    | Emplace pos a => emplace triv alloc esize w v pos (Ext a)
    | EmplaceBack a => emplace_back triv alloc esize w v (Ext a)
    | PopBack => v' <- pop_back triv v ;; Some (true, v', w)
    | Erase f l => v' <- erase triv v f l ;; Some (true, v', w)
    | Clear => v' <- clear triv v ;; Some (true, v', w)
    | Resize n x => resize triv alloc esize w v n x
    | Reserve n => reserve triv alloc esize w v n
    | AssignN n x => assign_n triv alloc esize w v n x
    | AssignRange l => assign_range triv alloc esize w v (map Val l)
    | AssignSelf f l => assign_self triv w v f l
    end.
  Fixpoint run (w : world) (v : vec) (ops : list op) : option (list bool * vec * world) :=
    match ops with
    | [] => Some ([], v, w)
    | o :: r => ' (ok, v1, w1) <- step w v o ;; ' (oks, v2, w2) <- run w1 v1 r ;; Some (ok :: oks, v2, w2)
    end.

  (** What they mean for the sequence: [value_of] is the value of the argument, [left_by] what is left of the sequence when
      the argument is moved out of it. A failing assignment empties the vector. *)
  Definition meaning (xs : list elt) (o : op) (ok : bool) : list elt :=
    match o with
    | PushBack x => if ok then xs ++ [value_of xs x] else xs
    | PushBackMove x => if ok then left_by triv xs x ++ [value_of xs x] else left_by triv xs x
    | Insert pos x => if ok then insert_at pos [value_of xs x] xs else xs
    | InsertMove pos x => if ok then insert_at pos [value_of xs x] (left_by triv xs x) else left_by triv xs x
    | InsertN pos n x => if ok then insert_at pos (repeat (value_of xs x) n) xs else xs
    | InsertRange pos l => if ok then insert_at pos (map Val l) xs else xs
    | Emplace pos a => if ok then insert_at pos [Val a] xs else xs
    | EmplaceBack a => if ok then xs ++ [Val a] else xs
    | PopBack => removelast xs
    | Erase f l => erase_at f l xs
    | Clear => []
    | Resize n x => if ok then resized n (value_of xs x) xs else xs
    | Reserve n => xs
    | AssignN n x => if ok then repeat (value_of xs x) n else []
    | AssignRange l => if ok then map Val l else []
    | AssignSelf f l => part f l xs
    end.
  Fixpoint meanings (xs : list elt) (ops : list op) (oks : list bool) : list elt :=
    match ops, oks with o :: r, ok :: oks' => meanings (meaning xs o ok) r oks' | _, _ => xs end.

  (** The capacity an operation asks for, and when it may be called: positions inside of the sequence, sizes in
      bytes far below 2^64. *)
  Definition required (xs : list elt) (o : op) : nat :=
    match o with Reserve n => n | _ => length (meaning xs o true) end.
  Definition allowed (v : vec) (xs : list elt) (o : op) : Prop :=
    (esize * N.of_nat (2 * cap v + required xs o + 1) < 2 ^ 63)%N /\
    match o with
    | PushBack x | PushBackMove x | Resize _ x => valid_arg xs x
    | Insert pos x | InsertMove pos x => pos <= length xs /\ valid_arg xs x
    | InsertN pos n x => pos <= length xs /\ valid_arg xs x /\ (1 <= n \/ pos = length xs \/ triv = true)
    | InsertRange pos _ | Emplace pos _ => pos <= length xs
    | PopBack => xs <> []
    | Erase f l | AssignSelf f l => f <= l <= length xs
    | AssignN n x => valid_arg xs x /\ (1 <= n \/ null v = false)
    | EmplaceBack _ | Clear | Reserve _ | AssignRange _ => True
    end.
  Fixpoint permitted (w : world) (v : vec) (xs : list elt) (ops : list op) : Prop :=
    match ops with
    | [] => True
    | o :: r => allowed v xs o /\ forall ok v' w', step w v o = Some (ok, v', w') -> permitted w' v' (meaning xs o ok) r
    end.

  Hypothesis esize_pos : (1 <= esize)%N.
  Notation inv := (inv triv alloc).

  Lemma insert_at_end : forall l (xs : list elt), insert_at (length xs) l xs = xs ++ l.
  Proof using. clear esize_pos. intros l xs. unfold insert_at. rewrite firstn_all, skipn_all, app_nil_r. reflexivity. Qed.
  Lemma left_length : forall (xs : list elt) x, valid_arg xs x -> length (left_by triv xs x) = length xs.
  Proof using. clear esize_pos. intros xs x H. destruct x as [a|i]; [reflexivity|]. cbn [left_by valid_arg] in *. destruct triv; [reflexivity|]. now apply replace_at_length. Qed.

  Definition stepped (w : world) (v : vec) (xs : list elt) (o : op) : Prop :=
    exists ok v' w', step w v o = Some (ok, v', w') /\ inv v' (meaning xs o ok) /\ balanced w v w' v' /\ length (inl v') = length (inl v) /\
      (alloc = true -> hd_error (oracle w) = Some true -> ok = true) /\ (required xs o <= cap v -> null v = false -> ok = true).

  Lemma from_outcome : forall w v n xs o after, outcome triv alloc w v n (step w v o) xs after -> (forall ok, after ok = meaning xs o ok) ->
    (required xs o <= cap v -> length xs + n <= cap v) -> stepped w v xs o.
  Proof using.
    clear esize_pos. intros w v n xs o after (ok & v' & w' & E & I' & B & L & G1 & G2 & G3) Ha Hr. exists ok, v', w'. split; [exact E|]. split; [now rewrite <- Ha|]. split; [exact B|]. split; [exact L|]. split; [exact G1|].
    intros Q1 Q2. apply G2; [now apply Hr|]. intros Q. unfold null in Q2. rewrite Q in Q2. discriminate.
  Qed.
  Lemma from_assigned : forall w v n xs o after, assigned triv alloc w v n (step w v o) after -> (forall ok, (if ok : bool then after else []) = meaning xs o ok) ->
    (required xs o <= cap v -> n <= cap v) -> stepped w v xs o.
  Proof using.
    clear esize_pos. intros w v n xs o after (ok & v' & w' & E & I' & B & L & G1 & G2) Ha Hr. exists ok, v', w'. split; [exact E|]. split; [now rewrite <- Ha|]. split; [exact B|]. split; [exact L|]. split; [exact G1|].
    intros Q1 Q2. apply G2. now apply Hr.
  Qed.
  Lemma from_sure : forall w v xs o v', step w v o = Some (true, v', w) -> inv v' (meaning xs o true) -> owned v' = owned v -> length (inl v') = length (inl v) -> stepped w v xs o.
  Proof using. clear esize_pos. intros w v xs o v' E I O L. exists true, v', w. split; [exact E|]. split; [exact I|]. split; [unfold balanced; now rewrite O|]. auto. Qed.

  Lemma step_ok : forall w v xs o, inv v xs -> allowed v xs o -> stepped w v xs o.
  Proof using esize_pos.
    intros w v xs o I (F & H). pose proof (v_sz _ _ _ _ I) as Ez. pose proof (inv_le triv alloc v xs I) as Le.
    assert (Fl : forall n, n <= 2 * cap v + required xs o + 1 -> fits esize n) by (intros n Hn; eapply fits_le; [exact Hn|exact F]).
    destruct o as [x|x|pos x|pos x|pos n x|pos l|pos a|a| |f l| |n x|n|n x|l|f l]; cbn [meaning required] in *.
    - assert (Fx : fits esize (2 * cap v + 2)) by (apply Fl; rewrite app_length; cbn; lia).
      eapply from_outcome; [cbn [step]; unfold push_back; rewrite Ez; apply (insert_ok triv alloc esize esize_pos w v xs _ x I Fx); [lia|exact H]| |].
      + intros ok. cbn [meaning]. destruct ok; [apply insert_at_end|reflexivity].
      + cbn [required meaning]. rewrite app_length. cbn. lia.
    - assert (Fx : fits esize (2 * cap v + 2)) by (apply Fl; rewrite app_length; cbn; lia).
      eapply from_outcome; [cbn [step]; unfold push_back_move; rewrite Ez; apply (insert_move_ok triv alloc esize esize_pos w v xs _ x I Fx); [lia|exact H]| |].
      + intros ok. cbn [meaning]. destruct ok; [|reflexivity]. rewrite <- (left_length xs x H). apply insert_at_end.
      + cbn [required meaning]. rewrite app_length, left_length by exact H. cbn. lia.
    - destruct H as (H1 & H2). rewrite insert_at_length in * by exact H1. cbn [length] in *.
      eapply from_outcome; [cbn [step]; apply (insert_ok triv alloc esize esize_pos w v xs pos x I); [apply Fl; lia|exact H1|exact H2]|reflexivity|].
      cbn [required meaning]. rewrite insert_at_length by exact H1. cbn. lia.
    - destruct H as (H1 & H2). rewrite insert_at_length in * by (rewrite left_length by exact H2; exact H1). cbn [length] in *.
      eapply from_outcome; [cbn [step]; apply (insert_move_ok triv alloc esize esize_pos w v xs pos x I); [apply Fl; lia|exact H1|exact H2]|reflexivity|].
      cbn [required meaning]. rewrite insert_at_length, left_length; [cbn; lia|exact H2|rewrite left_length; assumption].
    - destruct H as (H1 & H2 & H3). rewrite insert_at_length in * by exact H1. rewrite repeat_length in *.
      eapply from_outcome; [cbn [step]; apply (insert_n_ok triv alloc esize esize_pos w v xs pos n x I); [apply Fl; lia|exact H1|exact H2|exact H3]|reflexivity|].
      cbn [required meaning]. rewrite insert_at_length, repeat_length by exact H1. lia.
    - rewrite insert_at_length in * by exact H. rewrite map_length in *.
      eapply from_outcome; [cbn [step]; apply (insert_range_ok triv alloc esize esize_pos w v xs pos false l I); [apply Fl; lia|exact H|discriminate]|reflexivity|].
      cbn [required meaning]. rewrite insert_at_length, map_length by exact H. lia.
    - rewrite insert_at_length in * by exact H. cbn [length] in *.
      eapply from_outcome; [cbn [step]; apply (emplace_ok triv alloc esize esize_pos w v xs pos a I); [apply Fl; lia|exact H]|reflexivity|].
      cbn [required meaning]. rewrite insert_at_length by exact H. cbn. lia.
    - assert (Fx : fits esize (2 * cap v + 2)) by (apply Fl; rewrite app_length; cbn; lia).
      eapply from_outcome; [cbn [step]; unfold emplace_back; rewrite Ez; apply (emplace_ok triv alloc esize esize_pos w v xs _ a I Fx); lia| |].
      + intros ok. cbn [meaning]. destruct ok; [apply insert_at_end|reflexivity].
      + cbn [required meaning]. rewrite app_length. cbn. lia.
    - destruct (pop_back_ok triv alloc v xs I H) as (v' & E & I' & O & L & C). eapply from_sure; [cbn [step]; rewrite E; reflexivity|exact I'|exact O|exact L].
    - destruct (erase_ok triv alloc v xs f l I ltac:(lia) ltac:(lia)) as (v' & E & I' & O & L & C). eapply from_sure; [cbn [step]; rewrite E; reflexivity|exact I'|exact O|exact L].
    - destruct (clear_ok triv alloc v xs I) as (v' & E & I' & O & L & C). eapply from_sure; [cbn [step]; rewrite E; reflexivity|exact I'|exact O|exact L].
    - assert (Hl : length (resized n (value_of xs x) xs) = n) by (unfold resized; rewrite app_length, firstn_length, repeat_length; lia). rewrite Hl in *.
      eapply from_outcome; [cbn [step]; apply (resize_ok triv alloc esize esize_pos w v xs n x I); [apply Fl; lia|exact H]|reflexivity|]. cbn [required meaning]. rewrite Hl. lia.
    - destruct (reserve_ok triv alloc esize esize_pos w v xs n I ltac:(apply Fl; lia)) as (R & _). destruct (Nat.le_gt_cases n (cap v)) as [G|G].
      + eapply from_sure; [cbn [step]; unfold reserve; destruct (Nat.leb_spec n (cap v)); [reflexivity|lia]|exact I|reflexivity|reflexivity].
      + eapply from_outcome; [exact R|reflexivity|]. cbn [required]. lia.
    - destruct H as (H1 & H2). rewrite repeat_length in *. eapply from_assigned; [cbn [step]; apply (assign_n_ok triv alloc esize esize_pos w v xs n x I); [apply Fl; lia|exact H1|]|reflexivity|].
      + destruct H2 as [H2|H2]; [right; exact H2|left]. intros Q. unfold null in H2. rewrite Q in H2. discriminate.
      + cbn [required meaning]. rewrite repeat_length. lia.
    - rewrite map_length in *. eapply from_assigned; [cbn [step]; apply (assign_range_ok triv alloc esize esize_pos w v xs (map Val l) I); rewrite map_length; apply Fl; lia|reflexivity|].
      cbn [required meaning]. lia.
    - destruct (assign_self_ok triv alloc w v xs f l I ltac:(lia) ltac:(lia)) as (v' & E & I' & O & L). eapply from_sure; [exact E|exact I'|exact O|exact L].
  Qed.

  Lemma run_ok : forall ops w v xs, inv v xs -> permitted w v xs ops ->
    exists oks v' w', run w v ops = Some (oks, v', w') /\ length oks = length ops /\ inv v' (meanings xs ops oks) /\ balanced w v w' v' /\ length (inl v') = length (inl v).
  Proof using esize_pos.
    induction ops as [|o ops IH]; intros w v xs I P; cbn [run permitted] in *.
    - exists [], v, w. split; [reflexivity|]. split; [reflexivity|]. split; [exact I|]. split; [unfold balanced; lia|reflexivity].
    - destruct P as (H & P). destruct (step_ok w v xs o I H) as (ok & v1 & w1 & E & I1 & B1 & L1 & _ & _). rewrite E.
      destruct (IH w1 v1 _ I1 (P ok v1 w1 E)) as (oks & v2 & w2 & E2 & L & I2 & B2 & L2). rewrite E2. exists (ok :: oks), v2, w2.
      split; [reflexivity|]. split; [cbn; lia|]. split; [exact I2|]. split; [unfold balanced in *; lia|congruence].
  Qed.
End Hist.
Arguments op A : clear implicits.
