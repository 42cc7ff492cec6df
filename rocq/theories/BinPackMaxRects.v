(** MaxRects: splitting, pruning and choosing. *)
From Coq Require Import ZArith List Bool Lia Permutation ZifyBool ZifyNat.
From Verif Require Import Base BinPackModel BinPackSpec BinPackArray BinPackGuillotine BinPackHistory.
Import ListNotations.
Local Open Scope Z_scope.

(** ** Geometry without quantifiers *)
Definition apart (a b : rect) : Prop :=
  left a + width a <= left b \/ left b + width b <= left a \/
  top a + height a <= top b \/ top b + height b <= top a.
Definition contained (a b : rect) : Prop :=
  left b <= left a /\ top b <= top a /\ left a + width a <= left b + width b /\
  top a + height a <= top b + height b.

Lemma apart_iff : forall a b, positive a -> positive b -> (~ overlap a b <-> apart a b).
Proof.
  intros a b [A1 A2] [B1 B2]. unfold overlap, apart, covers. split.
  - intros N.
    destruct (Z_le_gt_dec (left a + width a) (left b)); [tauto|].
    destruct (Z_le_gt_dec (left b + width b) (left a)); [tauto|].
    destruct (Z_le_gt_dec (top a + height a) (top b)); [tauto|].
    destruct (Z_le_gt_dec (top b + height b) (top a)); [tauto|].
    exfalso. apply N. exists (Z.max (left a) (left b)), (Z.max (top a) (top b)). lia.
  - intros A (x & y & C1 & C2). lia.
Qed.

Lemma contained_apart : forall a b c, contained a b -> apart b c -> apart a c.
Proof. unfold contained, apart. intros. lia. Qed.
Lemma contained_refl : forall a, contained a a.
Proof. unfold contained. lia. Qed.
Lemma contained_trans : forall a b c, contained a b -> contained b c -> contained a c.
Proof. unfold contained. lia. Qed.
Lemma apart_sym : forall a b, apart a b -> apart b a.
Proof. unfold apart. intros. lia. Qed.

(** ** Pushing several rectangles *)
Fixpoint push_all (a : arr) (re : bool) (l : list rect) : option arr :=
  match l with
  | [] => Some a
  | r :: l' => a' <- tmbp_push a re r ;; push_all a' re l'
  end.

Lemma push_inv : forall a re r a', arr_ok a -> tmbp_push a re r = Some a' ->
  contents a' = contents a ++ [r] /\ size a' = S (size a) /\ arr_ok a' /\ (capacity a <= capacity a')%nat.
Proof.
  intros a re r a' Ok E.
  assert (Q : re = true \/ (size a < capacity a)%nat).
  { unfold tmbp_push in E. destruct (Nat.leb_spec (capacity a) (size a)) as [L|L]; [|right; lia].
    destruct re; [now left|discriminate]. }
  destruct (push_ok a re r Ok Q) as (a2 & E2 & C & S1 & O & K & _). rewrite E2 in E. injection E as <-. auto.
Qed.

Lemma push_all_inv : forall l a re a', arr_ok a -> push_all a re l = Some a' ->
  contents a' = contents a ++ l /\ size a' = (size a + length l)%nat /\ arr_ok a' /\ (capacity a <= capacity a')%nat.
Proof.
  induction l as [|r l IH]; intros a re a' Ok E; cbn [push_all] in E.
  - injection E as <-. rewrite app_nil_r. cbn [length]. repeat split; try assumption; lia.
  - destruct (tmbp_push a re r) as [a1|] eqn:E1; [|discriminate].
    destruct (push_inv _ _ _ _ Ok E1) as (C1 & S1 & O1 & K1).
    destruct (IH _ _ _ O1 E) as (C2 & S2 & O2 & K2).
    rewrite C2, C1, <- app_assoc. cbn [length app]. repeat split; try assumption; lia.
Qed.

Lemma push_all_ok : forall l a re, arr_ok a -> (size a + length l <= capacity a)%nat ->
  exists a', push_all a re l = Some a' /\ capacity a' = capacity a.
Proof.
  induction l as [|r l IH]; intros a re Ok Cap; cbn [push_all length] in *.
  - exists a. auto.
  - destruct (push_ok a re r Ok) as (a1 & E1 & C1 & S1 & O1 & _ & K1); [right; lia|].
    rewrite E1. assert (K := K1 ltac:(lia)).
    destruct (IH a1 re O1) as (a2 & E2 & K2); [lia|]. exists a2. split; [exact E2|congruence].
Qed.

(** ** Splitting one free rectangle *)
Definition pieces (f u : rect) : list rect :=
  (if top f <? top u then [Rect (left f) (top f) (width f) (top u - top f)] else []) ++
  (if top u + height u <? top f + height f
   then [Rect (left f) (top u + height u) (width f) (top f + height f - (top u + height u))] else []) ++
  (if left f <? left u then [Rect (left f) (top f) (left u - left f) (height f)] else []) ++
  (if left u + width u <? left f + width f
   then [Rect (left u + width u) (top f) (left f + width f - (left u + width u)) (height f)] else []).

Definition apart_b (f u : rect) : bool :=
  (left f + width f <=? left u) || (left u + width u <=? left f) ||
  (top f + height f <=? top u) || (top u + height u <=? top f).

Lemma apart_b_iff : forall f u, apart_b f u = true <-> apart f u.
Proof. intros f u. unfold apart_b, apart. lia. Qed.

Lemma push_all_app : forall l m a re, push_all a re (l ++ m) = (a' <- push_all a re l ;; push_all a' re m).
Proof.
  induction l as [|r l IH]; intros m a re; [reflexivity|]. cbn [push_all app].
  destruct (tmbp_push a re r); [apply IH|reflexivity].
Qed.

Lemma split_eq : forall W H fr re f u, 0 < W -> 0 < H -> W * H <= INT_MAX ->
  good_rect W H f -> good_rect W H u ->
  maxRectsSplitFreeNode fr re f u =
    if apart_b f u then Some (fr, false) else (fr' <- push_all fr re (pieces f u) ;; Some (fr', true)).
Proof.
  intros W H fr re [fl ft fw fh] [ul ut uw uh] HW HH HM [Wf Pf] [Wu Pu].
  destruct (dims_bound W H HW HH HM) as [BW BH].
  unfold within, positive, maxRectsSplitFreeNode, apart_b, pieces in *. cbn [left top width height] in *.
  rewrite (i32_ok (fl + fw)), (i32_ok (ft + fh)), (i32_ok (ul + uw)), (i32_ok (ut + uh)) by (unfold INT_MIN; lia).
  destruct ((fl + fw <=? ul) || (ul + uw <=? fl) || (ft + fh <=? ut) || (ut + uh <=? ft)) eqn:E; [reflexivity|].
  assert (X : ul < fl + fw /\ fl < ul + uw /\ ut < ft + fh /\ ft < ut + uh) by lia.
  replace ((ul <? fl + fw) && (fl <? ul + uw)) with true by lia.
  replace ((ut <? ft + fh) && (ft <? ut + uh)) with true by lia.
  replace ((ft <? ut) && (ut <? ft + fh)) with (ft <? ut) by lia.
  replace ((fl <? ul) && (ul <? fl + fw)) with (fl <? ul) by lia.
  rewrite (i32_ok (ut - ft)), (i32_ok (ft + fh - (ut + uh))), (i32_ok (ul - fl)), (i32_ok (fl + fw - (ul + uw)))
    by (unfold INT_MIN, INT_MAX in *; lia).
  destruct (ft <? ut), (ut + uh <? ft + fh), (fl <? ul), (ul + uw <? fl + fw); cbn [push_all app];
    repeat match goal with |- context [tmbp_push ?a re ?r] => destruct (tmbp_push a re r) end; reflexivity.
Qed.

Lemma pieces_spec : forall W H f u, good_rect W H f -> good_rect W H u -> ~ apart f u ->
  Forall (fun r => good_rect W H r /\ apart r u /\ contained r f) (pieces f u) /\ 
  (forall s, positive s -> contained s f -> apart s u -> exists r, In r (pieces f u) /\ contained s r) /\ 
  (pieces f u = [] -> contained f u) /\ (length (pieces f u) <= 4)%nat.
Proof.
  intros W H [fl ft fw fh] [ul ut uw uh] [Wf Pf] [Wu Pu] N.
  unfold within, positive, apart, contained, pieces in *. cbn [left top width height] in *.
  assert (X : ul < fl + fw /\ fl < ul + uw /\ ut < ft + fh /\ ft < ut + uh) by lia. clear N.
  destruct (Z.ltb_spec ft ut), (Z.ltb_spec (ut + uh) (ft + fh)), (Z.ltb_spec fl ul), (Z.ltb_spec (ul + uw) (fl + fw));
    cbn [app length].
  all: split; [repeat constructor; unfold within, positive; cbn [left top width height]; lia|].
  all: split; [|split; [intros E; try discriminate; lia|lia]].
  all: intros [sl st sw sh] Ps Cs As; cbn [left top width height] in *.
  all: assert (A : (st + sh <= ut /\ ft < ut) \/ (ut + uh <= st /\ ut + uh < ft + fh) \/
                   (sl + sw <= ul /\ fl < ul) \/ (ul + uw <= sl /\ ul + uw < fl + fw)) by lia.
  all: destruct A as [A|[A|[A|A]]]; try (exfalso; lia).
  all: cbn [In]; first
    [ (eexists; split; [left; reflexivity|cbn [left top width height]; lia])
    | (eexists; split; [right; left; reflexivity|cbn [left top width height]; lia])
    | (eexists; split; [right; right; left; reflexivity|cbn [left top width height]; lia])
    | (eexists; split; [right; right; right; left; reflexivity|cbn [left top width height]; lia]) ].
Qed.

(** ** Erasing, by position *)
Lemma erase_nth : forall a i a', arr_ok a -> (i < size a)%nat -> tmbp_unstable_erase a i = Some a' ->
  size a' = (size a - 1)%nat /\ capacity a' = capacity a /\ arr_ok a' /\ 
  forall k, (k < size a - 1)%nat ->
    nth_error (contents a') k = if (k =? i)%nat then nth_error (contents a) (size a - 1) else nth_error (contents a) k.
Proof.
  intros a i a' Ok Li E.
  destruct (erase_ok a i Ok Li) as (a2 & r & E2 & _ & _ & _ & S2 & O2 & K2).
  rewrite E2 in E. injection E as <-. split; [assumption|]. split; [assumption|]. split; [assumption|].
  intros k Lk. unfold arr_ok in *.
  rewrite nth_contents by lia. rewrite !nth_contents by lia.
  unfold tmbp_unstable_erase, assert_ in E2.
  destruct ((0 <? size a)%nat && (size a <=? capacity a)%nat && (i <? size a)%nat); [|discriminate].
  destruct (Nat.eqb_spec i (size a - 1)) as [->|Ne].
  - injection E2 as <-. cbn [data]. destruct (Nat.eqb_spec k (size a - 1)); [lia|reflexivity].
  - destruct (nth_error (data a) (size a - 1)) as [l|] eqn:El; [|discriminate].
    destruct (write_ok _ (data a) i l) as (d & Ed & Ed' & Ld); [unfold capacity in Ok; lia|].
    rewrite Ed in E2. injection E2 as <-. cbn [data]. subst d.
    destruct (Nat.eqb_spec k i) as [->|Nk].
    + rewrite nth_error_app2 by (rewrite firstn_length; lia).
      rewrite firstn_length. unfold capacity in Ok. replace (i - Nat.min i (length (data a)))%nat with 0%nat by lia.
      reflexivity.
    + apply nth_set_other; [lia|unfold capacity in Ok; lia].
Qed.

Lemma erase_total : forall a i, arr_ok a -> (i < size a)%nat -> exists a', tmbp_unstable_erase a i = Some a'.
Proof. intros a i O L. destruct (erase_ok a i O L) as (a' & _ & E & _). exists a'. exact E. Qed.

(** ** The split loop *)
Section Loop.
  Variables (W H : Z) (u : rect) (orig : list rect).
  Hypothesis (HW : 0 < W) (HH : 0 < H) (HM : W * H <= INT_MAX) (Gu : good_rect W H u)
    (Go : Forall (good_rect W H) orig)
    (Last : forall k f, nth_error orig k = Some f -> contained f u -> S k = length orig).
  Let n := length orig.

  Definition fine (r : rect) : Prop :=
    good_rect W H r /\ apart r u /\ exists f, In f orig /\ contained r f.

  Record loop_inv (i : nat) (fr : arr) : Prop := LoopInv {
    li_ok : arr_ok fr;
    li_size : (n <= size fr)%nat \/ (i = n);
    li_todo : forall k, (i <= k < n)%nat -> nth_error (contents fr) k = nth_error orig k;
    li_done : forall k r, nth_error (contents fr) k = Some r -> (k < i \/ n <= k)%nat -> fine r;
    li_cover : forall k f s, (k < i)%nat -> nth_error orig k = Some f -> positive s -> contained s f -> apart s u ->
      exists k' r, (k' < i \/ n <= k')%nat /\ nth_error (contents fr) k' = Some r /\ contained s r }.


  Lemma nth_app_r : forall A (l m : list A) k, (length l <= k)%nat -> nth_error (l ++ m) k = nth_error m (k - length l).
  Proof using. intros. now apply nth_error_app2. Qed.

  Lemma loop_step_keep : forall i fr f, (i < n)%nat -> loop_inv i fr -> nth_error orig i = Some f -> apart f u ->
    loop_inv (S i) fr.
  Proof using All.
    intros i fr f Li [Ok Sz To Do Co] Ef Ap. constructor.
    - exact Ok.
    - left. lia.
    - intros k Hk. apply To. lia.
    - intros k r Ek Hk. destruct (Nat.eq_dec k i) as [->|Ne].
      + rewrite To in Ek by lia. assert (r = f) by congruence. subst r. split.
        * apply (proj1 (Forall_forall _ _) Go). eapply nth_error_In; exact Ef.
        * split; [assumption|]. exists f. split; [eapply nth_error_In; exact Ef|apply contained_refl].
      + apply (Do k); [assumption|lia].
    - intros k f' s Hk Ef' Ps Cs As. destruct (Nat.eq_dec k i) as [->|Ne].
      + exists i, f. split; [lia|]. rewrite To by lia. split; [assumption|]. congruence.
      + destruct (Co k f' s) as (k' & r & B1 & B2 & B3); try assumption; [lia|].
        exists k', r. split; [lia|auto].
  Qed.

  Lemma loop_step_split : forall i fr f fr1 fr2, (i < n)%nat -> loop_inv i fr -> nth_error orig i = Some f -> ~ apart f u ->
    contents fr1 = contents fr ++ pieces f u -> size fr1 = (size fr + length (pieces f u))%nat -> arr_ok fr1 ->
    tmbp_unstable_erase fr1 i = Some fr2 -> loop_inv (S i) fr2.
  Proof using All.
    intros i fr f fr1 fr2 Li [Ok Sz To Do Co] Ef Ap C1 S1 O1 E2.
    assert (Gf : good_rect W H f) by (apply (proj1 (Forall_forall _ _) Go); eapply nth_error_In; exact Ef).
    destruct (pieces_spec W H f u Gf Gu Ap) as (Pg & Pc & Pe & _).
    assert (Sn : (n <= size fr)%nat) by lia.
    destruct (erase_nth fr1 i fr2 O1 ltac:(lia) E2) as (S2 & K2 & O2 & N2).
    assert (L0 := contents_length _ Ok). assert (L1 := contents_length _ O1). assert (L2 := contents_length _ O2).
    assert (Sz2 : (n <= size fr2)%nat \/ S i = n).
    { destruct (pieces f u) as [|p0 ps] eqn:Ep.
      - right. apply Last with f; [assumption|]. apply Pe. reflexivity.
      - left. cbn [length] in S1. lia. }
    (* an entry of fr1 outside [i..n) is fine *)
    assert (Fn : forall k r, nth_error (contents fr1) k = Some r -> (k < i \/ n <= k)%nat -> fine r).
    { intros k r Ek Hk. rewrite C1 in Ek. destruct (Nat.lt_ge_cases k (size fr)) as [B|B].
      - rewrite nth_error_app1 in Ek by lia. apply (Do k); assumption.
      - rewrite nth_error_app2 in Ek by lia. apply nth_error_In in Ek.
        rewrite Forall_forall in Pg. destruct (Pg _ Ek) as (G1 & A1 & B1).
        split; [assumption|]. split; [assumption|]. exists f. split; [eapply nth_error_In; exact Ef|assumption]. }
    (* the entry moved into place i lies outside [i..n) *)
    assert (Mv : (i < size fr1 - 1)%nat -> (n <= size fr1 - 1)%nat).
    { intros B. destruct (pieces f u) as [|p0 ps] eqn:Ep; cbn [length] in S1; [|lia].
      assert (S i = n) by (apply Last with f; [assumption|]; apply Pe; reflexivity). lia. }
    (* every entry of fr1 outside [i..n) survives outside [S i..n) *)
    assert (Sv : forall k r, nth_error (contents fr1) k = Some r -> (k < i \/ n <= k)%nat ->
      exists k', (k' < S i \/ n <= k')%nat /\ nth_error (contents fr2) k' = Some r).
    { intros k r Ek Hk. assert (B : (k < size fr1)%nat) by (rewrite <- L1; apply nth_error_Some; congruence).
      destruct (Nat.eq_dec k (size fr1 - 1)) as [->|Ne].
      - exists i. split; [lia|]. rewrite N2, Nat.eqb_refl by lia. exact Ek.
      - exists k. split; [lia|]. rewrite N2 by lia. destruct (Nat.eqb_spec k i); [lia|exact Ek]. }
    constructor.
    - exact O2.
    - exact Sz2.
    - intros k Hk. rewrite N2 by lia. destruct (Nat.eqb_spec k i); [lia|].
      rewrite C1, nth_error_app1 by lia. apply To. lia.
    - intros k r Ek Hk. assert (B : (k < size fr2)%nat) by (rewrite <- L2; apply nth_error_Some; congruence).
      rewrite N2 in Ek by lia. destruct (Nat.eqb_spec k i) as [->|Ne].
      + apply (Fn _ _ Ek). right. apply Mv. lia.
      + apply (Fn _ _ Ek). lia.
    - intros k f' s Hk Ef' Ps Cs As. destruct (Nat.eq_dec k i) as [->|Ne].
      + assert (f' = f) by congruence. subst f'. destruct (Pc s Ps Cs As) as (r & Hr & Cr).
        apply In_nth_error in Hr. destruct Hr as (t & Et).
        destruct (Sv (size fr + t)%nat r) as (k' & B1 & B2).
        * rewrite C1, nth_error_app2 by lia. rewrite L0. replace (size fr + t - size fr)%nat with t by lia. exact Et.
        * lia.
        * exists k', r. auto.
      + destruct (Co k f' s) as (k' & r & B1 & B2 & B3); try assumption; [lia|].
        destruct (Sv k' r) as (k'' & B4 & B5); [|assumption|exists k'', r; auto].
        rewrite C1. rewrite nth_error_app1; [exact B2|]. apply nth_error_Some. congruence.
  Qed.

  Lemma loop_ok : forall todo i cap0 fr re fr', (i + todo = n)%nat -> loop_inv i fr ->
    mr_split_loop todo cap0 fr re u i = Some fr' -> loop_inv n fr'.
  Proof using All.
    induction todo as [|todo IH]; intros i cap0 fr re fr' Ei I E; cbn [mr_split_loop] in E.
    - injection E as <-. replace n with i by lia. exact I.
    - unfold assert_ in E. destruct (capacity fr =? cap0)%nat; [|discriminate].
      destruct (nth_error (data fr) i) as [f|] eqn:Ef; [|discriminate].
      assert (Eo : nth_error orig i = Some f).
      { destruct I as [Ok Sz To Do Co]. rewrite <- To by lia. rewrite nth_contents by lia. exact Ef. }
      assert (Gf : good_rect W H f) by (apply (proj1 (Forall_forall _ _) Go); eapply nth_error_In; exact Eo).
      rewrite (split_eq W H fr re f u HW HH HM Gf Gu) in E.
      destruct (apart_b f u) eqn:Ea.
      + apply (IH (S i) cap0 fr re); [lia| |exact E].
        apply loop_step_keep with f; try assumption; [lia|]. now apply apart_b_iff.
      + destruct (push_all fr re (pieces f u)) as [fr1|] eqn:Ep; [|discriminate].
        destruct (tmbp_unstable_erase fr1 i) as [fr2|] eqn:E2; [|discriminate].
        destruct (push_all_inv _ _ _ _ (li_ok _ _ I) Ep) as (C1 & S1 & O1 & _).
        apply (IH (S i) cap0 fr2 re); [lia| |exact E].
        apply loop_step_split with fr f fr1; try assumption; [lia|].
        intros A. apply apart_b_iff in A. congruence.
  Qed.

  (** With room for every piece the loop cannot fail. *)
  Lemma loop_total : forall todo i fr re, (i + todo = n)%nat -> loop_inv i fr ->
    (size fr + 4 * todo <= capacity fr)%nat ->
    exists fr', mr_split_loop todo (capacity fr) fr re u i = Some fr' /\ capacity fr' = capacity fr.
  Proof using All.
    induction todo as [|todo IH]; intros i fr re Ei I Cap; cbn [mr_split_loop].
    - exists fr. auto.
    - unfold assert_. rewrite Nat.eqb_refl.
      assert (Sn : (n <= size fr)%nat) by (destruct I; lia).
      destruct (nth_error orig i) as [f|] eqn:Eo; [|apply nth_error_None in Eo; unfold n in *; lia].
      assert (Ef : nth_error (data fr) i = Some f).
      { rewrite <- nth_contents by lia. rewrite (li_todo _ _ I) by lia. exact Eo. }
      rewrite Ef.
      assert (Gf : good_rect W H f) by (apply (proj1 (Forall_forall _ _) Go); eapply nth_error_In; exact Eo).
      rewrite (split_eq W H fr re f u HW HH HM Gf Gu).
      destruct (apart_b f u) eqn:Ea.
      + apply (IH (S i) fr re); [lia| |lia].
        apply loop_step_keep with f; try assumption; [lia|]. now apply apart_b_iff.
      + assert (Ap : ~ apart f u) by (intros A; apply apart_b_iff in A; congruence).
        destruct (pieces_spec W H f u Gf Gu Ap) as (_ & _ & _ & L4).
        destruct (push_all_ok (pieces f u) fr re (li_ok _ _ I)) as (fr1 & Ep & K1); [lia|].
        rewrite Ep.
        destruct (push_all_inv _ _ _ _ (li_ok _ _ I) Ep) as (C1 & S1 & O1 & _).
        destruct (erase_total fr1 i O1) as (fr2 & E2); [lia|]. rewrite E2.
        destruct (erase_nth fr1 i fr2 O1 ltac:(lia) E2) as (S2 & K2 & O2 & _).
        rewrite <- K1, <- K2.
        destruct (IH (S i) fr2 re) as (fr3 & E3 & K3); [lia| | |exists fr3; split; [exact E3|exact K3]].
        * apply loop_step_split with fr f fr1; try assumption. lia.
        * lia.
  Qed.
End Loop.
