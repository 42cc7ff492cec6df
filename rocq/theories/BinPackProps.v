(** Properties of the rectangle packer (C51-C55, C60-C64). *)
From Coq Require Import ZArith List Bool Lia Permutation ZifyBool ZifyNat.
From Verif Require Import Base BinPackModel BinPackSpec BinPackArray BinPackGuillotine BinPackHistory
  BinPackMaxRects BinPackPrune BinPackMaxInsert BinPackMaxReach.
Import ListNotations.
Local Open Scope Z_scope.

(** ** Histories of the guillotine packer *)
Lemma created_history : forall W H n p ops, 0 < W -> 0 < H -> W * H <= INT_MAX -> created W H n p ->
  ok_history W H W H ops -> (total_bins ops <= n)%nat ->
  exists p', grun p ops = Some p' /\ ginv (fst (final_bin W H ops)) (snd (final_bin W H ops)) p'.
Proof.
  intros W H n p ops HW HH HM C Ok N. destruct (created_ok W H n p HW HH HM C) as (I & Mem & Ew & Eh & Cap).
  destruct (history_ok 0 ops p W H) as (p' & E & I' & _); try assumption; [| |exists p'; auto].
  - rewrite Ew, Eh. exact Ok.
  - destruct Mem as [M|M]; [now left|right; lia].
Qed.

(** C51: no operation of a history fails, and afterwards the used rectangles lie in the bin and
    share no cell with each other or with a free rectangle. [created W H n p] covers packs with a
    reallocate function and static packs with the documented memory for [n] bins. *)
Theorem C51_guillotine_disjoint : forall W H n p ops, 0 < W -> 0 < H -> W * H <= INT_MAX -> created W H n p ->
  ok_history W H W H ops -> (total_bins ops <= n)%nat ->
  exists p', grun p ops = Some p' /\
    Forall (within (fst (final_bin W H ops)) (snd (final_bin W H ops))) (contents (p_used p') ++ contents (p_free p')) /\
    pairwise_disjoint (contents (p_used p') ++ contents (p_free p')).
Proof.
  intros W H n p ops HW HH HM C Ok N. destruct (created_history W H n p ops HW HH HM C Ok N) as (p' & E & I).
  exists p'. split; [exact E|]. split; [|eapply ginv_disjoint; exact I].
  apply Forall_app. split; apply Forall_forall; intros r Hr; [eapply ginv_within_used|eapply ginv_within_free]; eassumption.
Qed.

(** Two different pieces of a bin could still leave holes: they do not. *)
Theorem C51_guillotine_tiles : forall W H n p ops p', 0 < W -> 0 < H -> W * H <= INT_MAX -> created W H n p ->
  ok_history W H W H ops -> (total_bins ops <= n)%nat -> grun p ops = Some p' ->
  forall x y, covers (Rect 0 0 (fst (final_bin W H ops)) (snd (final_bin W H ops))) x y <->
    exists r, In r (contents (p_used p') ++ contents (p_free p')) /\ covers r x y.
Proof.
  intros W H n p ops p' HW HH HM C Ok N E x y. destruct (created_history W H n p ops HW HH HM C Ok N) as (p1 & E1 & I).
  assert (p1 = p') by congruence. subst p1. pose proof (gi_cover _ _ _ I x y) as Q. rewrite <- cover_app in Q. split.
  - intros B. apply cnt_1 in B. apply cover_pos_in. lia.
  - intros (r & Hr & Cr). pose proof (cover_in _ _ _ _ Hr Cr).
    pose proof (cnt_01 (Rect 0 0 (fst (final_bin W H ops)) (snd (final_bin W H ops))) x y). apply cnt_1_inv. lia.
Qed.

Definition demo_ops : list gop :=
  [OpInsert 3 4 BestAreaFit MinimizeArea true; OpInsert 7 2 BestShortSideFit LongerAxis false;
   OpBatch [(2, 2, 0%nat); (9, 3, 1%nat); (50, 1, 2%nat); (1, 5, 3%nat)] BestLongSideFit ShorterLeftoverAxis true true;
   OpMerge; OpInsert 2 1 BestAreaFit MaximizeArea true].
Example C51_demo : exists p p', created 10 10 7 p /\ ok_history 10 10 10 10 demo_ops /\ total_bins demo_ops = 7%nat /\
  grun p demo_ops = Some p' /\ length (contents (p_used p')) = 5%nat /\ length (contents (p_free p')) = 3%nat.
Proof.
  destruct (binPackCreateStatic 10 10 (repeat (Rect 0 0 0 0) 14) (repeat (Rect 0 0 0 0) 7)) as [p|] eqn:E; [|discriminate].
  assert (Cr : created 10 10 7 p) by (apply created_static with (repeat (Rect 0 0 0 0) 14) (repeat (Rect 0 0 0 0) 7);
    [cbn; lia|cbn; lia|lia|exact E]).
  vm_compute in E. injection E as <-. eexists. eexists. split; [exact Cr|].
  split; [cbn; repeat constructor; lia|]. split; [reflexivity|]. split; [vm_compute; reflexivity|]. split; reflexivity.
Qed.

(** C52 *)
Theorem C52_guillotine_area : forall W H n p ops p', 0 < W -> 0 < H -> W * H <= INT_MAX -> created W H n p ->
  ok_history W H W H ops -> (total_bins ops <= n)%nat -> grun p ops = Some p' ->
  p_used_area p' = total_area (contents (p_used p')) /\
  p_used_area p' + total_area (contents (p_free p')) = fst (final_bin W H ops) * snd (final_bin W H ops) /\
  0 <= p_used_area p' <= fst (final_bin W H ops) * snd (final_bin W H ops).
Proof.
  intros W H n p ops p' HW HH HM C Ok N E. destruct (created_history W H n p ops HW HH HM C Ok N) as (p1 & E1 & I).
  assert (p1 = p') by congruence. subst p1.
  pose proof (gi_area _ _ _ I). pose proof (gi_total _ _ _ I).
  pose proof (total_area_nonneg _ (gi_pu _ _ _ I)). pose proof (total_area_nonneg _ (gi_pf _ _ _ I)). lia.
Qed.
Example C52_demo : exists p p', binPackCreate 10 10 = Some p /\ grun p demo_ops = Some p' /\ p_used_area p' = 37 /\
  total_area (contents (p_free p')) = 63.
Proof. eexists. eexists. split; [vm_compute; reflexivity|]. split; [vm_compute; reflexivity|]. split; reflexivity. Qed.

(** C53 *)
Theorem C53_guillotine_placed_iff_room : forall W H n p ops p' w h fc sc cf, 0 < W -> 0 < H -> W * H <= INT_MAX ->
  created W H n p -> ok_history W H W H ops -> (total_bins ops < n)%nat -> grun p ops = Some p' -> 0 < w -> 0 < h ->
  exists p2 res, guillotineInsertChoice p' w h fc sc cf = Some (p2, res) /\
    (br_placed res = true <-> exists f, In f (contents (p_free p')) /\ has_room w h cf f) /\
    (br_placed res = true -> has_dims w h (br_flipped res) (br_rect res) /\ (br_flipped res = true -> cf = true) /\
       contents (p_used p2) = contents (p_used p') ++ [br_rect res]) /\
    (br_placed res = false -> p2 = p').
Proof.
  intros W H n p ops p' w h fc sc cf HW HH HM C Ok N E Hw Hh.
  destruct (created_ok W H n p HW HH HM C) as (I0 & Mem & Ew & Eh & Cap).
  destruct (history_ok 1 ops p W H) as (p1 & E1 & I & M1 & _); try assumption.
  { rewrite Ew, Eh. exact Ok. }
  { destruct Mem as [M|M]; [now left|right; lia]. }
  assert (p1 = p') by congruence. subst p1.
  destruct (insert_choice_ok _ _ p' w h fc sc cf I Hw Hh M1) as (p2 & res & E2 & _ & _ & _ & _ & _ & _ & Q).
  exists p2, res. split; [exact E2|]. destruct Q as [(P & -> & R)|(P & Rm & D & F & U)].
  - split; [|split; [congruence|reflexivity]]. split; [congruence|]. intros (f & Hf & Rf). exfalso. eapply R; eassumption.
  - split; [tauto|]. split; [auto|congruence].
Qed.

(** The same for MaxRects, for which every empty spot of the bin counts (see C62). *)
Theorem C53_maxrects_choice_partial : forall W0 H0 W H p w h c cf g, mreach W0 H0 W H p -> 0 < w -> 0 < h ->
  maxRectsChoice p w h c cf = Some g ->
  (mr_valid g = true <-> exists f, In f (contents (p_free p)) /\ has_room w h cf f) /\
  (mr_valid g = true -> (m_flipped g = true -> cf = true) /\
     exists f, nth_error (contents (p_free p)) (m_index g) = Some f /\ fits w h (m_flipped g) f).
Proof.
  intros W0 H0 W H p w h c cf g R Hw Hh E. destruct (reach_minv _ _ _ _ _ R) as (I & _).
  destruct (mr_choice_ok W H c p w h cf g (mi_W _ _ _ I) (mi_H _ _ _ I) (mi_max _ _ _ I) Hw Hh
    (good_positive _ _ _ (mi_gu _ _ _ I)) (mi_gf _ _ _ I) E) as [[V N]|(V & f & Ef & [Ft Fl] & _)].
  - rewrite V. split; [|discriminate]. split; [discriminate|]. intros (f & Hf & Rf). exfalso. eapply N; eassumption.
  - rewrite V. split.
    + split; [intros _|reflexivity]. exists f. split; [eapply nth_error_In; exact Ef|].
      unfold has_room, fits in *. destruct (m_flipped g); [right; auto|left; auto].
    + intros _. split; [exact Fl|]. exists f. auto.
Qed.
Example C53_demo : exists p p' p2 res, binPackCreate 10 10 = Some p /\ grun p demo_ops = Some p' /\
  guillotineInsertChoice p' 8 7 BestAreaFit ShorterAxis true = Some (p2, res) /\ br_placed res = true /\
  br_flipped res = true /\ br_rect res = Rect 3 2 7 8.
Proof.
  eexists. eexists. eexists. eexists. split; [vm_compute; reflexivity|]. split; [vm_compute; reflexivity|].
  split; [vm_compute; reflexivity|]. repeat split.
Qed.

(** C54: memory of the documented size, and only that much, is never exhausted. *)
Theorem C54_static_memory_suffices : forall W H n fm um ops, 0 < W -> 0 < H -> W * H <= INT_MAX -> (1 <= n)%nat ->
  length fm = guillotineFreeRectsSize n -> length um = n -> ok_history W H W H ops -> (total_bins ops <= n)%nat ->
  exists p p', binPackCreateStatic W H fm um = Some p /\ grun p ops = Some p'.
Proof.
  intros W H n fm um ops HW HH HM Ln Lf Lu Ok N.
  destruct (create_total W H n 0 0 HW HH HM) as [_ T]. destruct (T fm um Ln) as (p & E); [lia|].
  assert (C : created W H n p) by (apply created_static with fm um; [lia|lia|lia|exact E]).
  destruct (created_history W H n p ops HW HH HM C Ok N) as (p' & E' & _). exists p, p'. auto.
Qed.
(** One slot less than documented is not enough for [n = 1]: the documented size cannot be lowered by one. *)
Example C54_demo : exists p, binPackCreateStatic 4 4 (repeat (Rect 0 0 0 0) 1) (repeat (Rect 0 0 0 0) 1) = Some p /\
  grun p [OpInsert 2 2 BestAreaFit MinimizeArea false] = None.
Proof. eexists. split; [vm_compute; reflexivity|]. vm_compute. reflexivity. Qed.
Example C54_demo2 : exists p p', binPackCreateStatic 4 4 (repeat (Rect 0 0 0 0) 2) (repeat (Rect 0 0 0 0) 1) = Some p /\
  grun p [OpInsert 2 2 BestAreaFit MinimizeArea false] = Some p' /\ size (p_free p') = 2%nat.
Proof. eexists. eexists. split; [vm_compute; reflexivity|]. split; [vm_compute; reflexivity|]. reflexivity. Qed.
(** For [n = 0] the documented sizes do not even allow creating the pack. *)
Theorem C54_no_bins_refuted : exists W H fm um, length fm = guillotineFreeRectsSize 0 /\ length um = 0%nat /\
  binPackCreateStatic W H fm um = None.
Proof. exists 1, 1, [], []. repeat split. Qed.

(** ** MaxRects *)
Fixpoint minserts (p : pack) (l : list (Z * Z)) (c : mr_choice) (cf : bool) : option (pack * list bpresult) :=
  match l with
  | [] => Some (p, [])
  | (w, h) :: l' =>
    ' (p', r) <- maxRectsInsertChoice p w h c cf ;; ' (p'', rs) <- minserts p' l' c cf ;; Some (p'', r :: rs)
  end.

(** C55: three insertions into a 10x10 bin whose results overlap. *)
Theorem C55_maxrects_disjoint_refuted : exists p p' rs, binPackCreate 10 10 = Some p /\
  minserts p [(5, 5); (5, 10); (10, 5)] MRShortSide false = Some (p', rs) /\
  forallb br_placed rs = true /\ ~ pairwise_disjoint (contents (p_used p')).
Proof.
  eexists. eexists. eexists. split; [vm_compute; reflexivity|]. split; [vm_compute; reflexivity|]. split; [reflexivity|].
  intros D. apply (D 1%nat 2%nat (Rect 5 0 5 10) (Rect 0 5 10 5)); [lia|reflexivity|reflexivity|].
  exists 5, 5. unfold covers. cbn [left top width height]. lia.
Qed.

(** The insertions of [mreach] leave out exact fits other than in the last free rectangle
    ([no_exact_fit]) and steps that read freed memory (see C63). Missing from the full property:
    those steps, and batches. *)
Theorem C55_maxrects_disjoint_partial : forall W0 H0 W H p, mreach W0 H0 W H p ->
  Forall (within W H) (contents (p_used p)) /\ pairwise_disjoint (contents (p_used p)) /\
  (forall f u, In f (contents (p_free p)) -> In u (contents (p_used p)) -> ~ overlap f u) /\
  p_used_area p = total_area (contents (p_used p)) /\ p_used_area p <= W * H.
Proof.
  intros W0 H0 W H p R. destruct (reach_minv _ _ _ _ _ R) as (I & _).
  pose proof (mi_gu _ _ _ I) as Gu. pose proof (mi_gf _ _ _ I) as Gf. rewrite Forall_forall in Gf.
  pose proof (good_positive _ _ _ Gu) as Pu. rewrite Forall_forall in Pu.
  split; [rewrite Forall_forall in *; intros r Hr; apply (Gu r Hr)|]. split; [apply I|]. split.
  - intros f u Hf Hu. apply apart_iff; [apply (Gf f Hf)|now apply Pu|now apply (mi_apart _ _ _ I)].
  - split; [apply I|]. rewrite (mi_area _ _ _ I). apply disjoint_area; apply I.
Qed.


(** A run that checks the side condition of [mreach]. *)
Definition rect_eqb (a b : rect) : bool :=
  (left a =? left b) && (top a =? top b) && (width a =? width b) && (height a =? height b).
Fixpoint msafe (p : pack) (l : list (Z * Z)) (c : mr_choice) (cf : bool) : bool :=
  match l with
  | [] => true
  | (w, h) :: l' =>
    (0 <? w) && (0 <? h) &&
    match maxRectsInsertChoice p w h c cf with
    | Some (p', r) => negb (existsb (rect_eqb (br_rect r)) (contents (p_free p))) && msafe p' l' c cf
    | None => false
    end
  end.
Lemma msafe_reach : forall l W0 H0 W H p c cf p' rs, mreach W0 H0 W H p -> msafe p l c cf = true ->
  minserts p l c cf = Some (p', rs) -> mreach W0 H0 W H p'.
Proof.
  induction l as [|[w h] l IH]; intros W0 H0 W H p c cf p' rs R S E; cbn [minserts msafe] in *.
  - injection E as <- <-. exact R.
  - destruct (maxRectsInsertChoice p w h c cf) as [[p1 r]|] eqn:E1; [|discriminate].
    destruct (minserts p1 l c cf) as [[p2 rs2]|] eqn:E2; [|discriminate]. injection E as <- <-.
    apply andb_true_iff in S. destruct S as [S1 S]. apply andb_true_iff in S. destruct S as [S2 S3].
    apply (IH W0 H0 W H p1 c cf p2 rs2); try assumption.
    apply (mreach_insert W0 H0 W H p w h c cf p1 r); try assumption; [lia|lia|]. intros _. left. intros In1.
    apply negb_true_iff in S2. assert (existsb (rect_eqb (br_rect r)) (contents (p_free p)) = true); [|congruence].
    apply existsb_exists. exists (br_rect r). split; [assumption|]. unfold rect_eqb. rewrite !Z.eqb_refl. reflexivity.
Qed.

Definition mdemo : list (Z * Z) := [(3, 4); (4, 2); (2, 6); (5, 3)].
Example C55_demo : exists p p' rs, binPackCreate 10 10 = Some p /\
  minserts p mdemo MRArea true = Some (p', rs) /\ mreach 10 10 10 10 p' /\ length (contents (p_used p')) = 4%nat /\
  length (contents (p_free p')) = 4%nat.
Proof.
  destruct (binPackCreate 10 10) as [p|] eqn:E; [|discriminate].
  assert (R : mreach 10 10 10 10 p) by (apply mreach_create with 16%nat 16%nat; [lia|lia|unfold INT_MAX; lia|exact E]).
  vm_compute in E. injection E as <-.
  match type of R with mreach _ _ _ _ ?q => destruct (minserts q mdemo MRArea true) as [[p' rs]|] eqn:E; [|vm_compute in E; discriminate];
    exists q, p', rs; assert (S : msafe q mdemo MRArea true = true) by (vm_compute; reflexivity) end.
  pose proof (msafe_reach _ _ _ _ _ _ _ _ _ _ R S E) as R'. vm_compute in E. injection E as <- <-.
  split; [reflexivity|]. split; [vm_compute; reflexivity|]. split; [exact R'|]. split; reflexivity.
Qed.

(** C60: one batch call answers each request at most once, with its own user data, leaves the
    unanswered ones at the front, and those fit nowhere any more. *)
Theorem C60_batch_accounts : forall W H n p ops p' dims fc sc cf merge, 0 < W -> 0 < H -> W * H <= INT_MAX ->
  created W H n p -> ok_history W H W H ops -> (total_bins ops + length dims <= n)%nat -> grun p ops = Some p' ->
  Forall dim_pos dims ->
  exists p2 dims' rs rest, guillotineInsertBatch p' dims (length dims) fc sc cf merge = Some (p2, dims', rs, rest) /\
    Permutation dims dims' /\ (rest + length rs = length dims)%nat /\
    Forall2 answers rs (rev (skipn rest dims')) /\
    Forall (fun r => br_flipped (fst r) = true -> cf = true) rs /\
    contents (p_used p2) = contents (p_used p') ++ map (fun r => br_rect (fst r)) rs /\
    (forall w h u f, In (w, h, u) (firstn rest dims') -> In f (contents (p_free p2)) -> ~ has_room w h cf f).
Proof.
  intros W H n p ops p' dims fc sc cf merge HW HH HM C Ok N E F.
  destruct (created_ok W H n p HW HH HM C) as (I0 & Mem & Ew & Eh & Cap).
  destruct (history_ok (length dims) ops p W H) as (p1 & E1 & I & M1 & _); try assumption.
  { rewrite Ew, Eh. exact Ok. }
  { destruct Mem as [M|M]; [now left|right; lia]. }
  assert (p1 = p') by congruence. subst p1.
  destruct (batch_ok _ _ (length dims) p' dims fc sc cf merge I) as
    (p2 & dims' & rs & rest & E2 & _ & _ & _ & _ & _ & _ & [B1 B2 B3 B4 B5 B6 B7]); try assumption; [lia|].
  exists p2, dims', rs, rest. split; [exact E2|]. split; [assumption|]. split; [assumption|]. split; [|auto].
  rewrite firstn_all2 in B4; [assumption|]. rewrite skipn_length. pose proof (Permutation_length B1). lia.
Qed.
Example C60_demo : exists p p2 dims' rs, binPackCreate 10 10 = Some p /\
  guillotineInsertBatch p [(4, 4, 7%nat); (20, 2, 8%nat); (9, 3, 9%nat); (6, 6, 5%nat)] 4 BestAreaFit ShorterAxis true true
    = Some (p2, dims', rs, 1%nat) /\ map snd rs = [5; 7; 9]%nat.
Proof. eexists. eexists. eexists. eexists. split; [vm_compute; reflexivity|]. split; [vm_compute; reflexivity|]. reflexivity. Qed.

(** C61: the chosen free rectangle minimises the documented quantity. An exact fit is taken at once;
    a free rectangle that holds the bin upright is not tried with the bin flipped. *)
Theorem C61_guillotine_choice_optimal : forall W H n p ops p' w h c cf g, 0 < W -> 0 < H -> W * H <= INT_MAX ->
  created W H n p -> ok_history W H W H ops -> (total_bins ops <= n)%nat -> grun p ops = Some p' -> 0 < w -> 0 < h ->
  guillotineChoice p' w h c cf = Some g -> g_score g <> INVALID_SCORE ->
  exists f, nth_error (contents (p_free p')) (g_index g) = Some f /\ fits w h (g_flipped g) f /\
    (has_dims w h (g_flipped g) f \/
     forall f', In f' (contents (p_free p')) ->
       (fits w h false f' -> (if g_flipped g then leftover c h w f else leftover c w h f) <= leftover c w h f') /\
       (~ fits w h false f' -> cf = true -> fits w h true f' ->
          (if g_flipped g then leftover c h w f else leftover c w h f) <= leftover c h w f')).
Proof.
  intros W H n p ops p' w h c cf g HW HH HM C Ok N E Hw Hh Eg V.
  destruct (created_history W H n p ops HW HH HM C Ok N) as (p1 & E1 & I).
  assert (p1 = p') by congruence. subst p1.
  destruct (choice_ok _ _ p' c w h cf I Hw Hh) as (g1 & Eg1 & _ & Q). assert (g1 = g) by congruence. subst g1.
  destruct Q as [[S _]|(f & Ef & Ft & _ & [[_ D]|[S O]])]; [contradiction| |].
  - exists f. auto.
  - exists f. split; [assumption|]. split; [assumption|]. right. intros f' Hf. rewrite <- S. exact (O f' Hf).
Qed.
(** For MaxRects all positions and both orientations are compared, by a pair of numbers. *)
Theorem C61_maxrects_choice_optimal_partial : forall W0 H0 W H p w h c cf g, mreach W0 H0 W H p -> 0 < w -> 0 < h ->
  maxRectsChoice p w h c cf = Some g -> mr_valid g = true ->
  exists f, nth_error (contents (p_free p)) (m_index g) = Some f /\ fits w h (m_flipped g) f /\
    forall f' fl', In f' (contents (p_free p)) -> fits w h fl' f' -> (fl' = true -> cf = true) ->
      lexle (measure c W0 H0 (contents (p_used p)) (if m_flipped g then h else w) (if m_flipped g then w else h) f)
            (measure c W0 H0 (contents (p_used p)) (if fl' then h else w) (if fl' then w else h) f').
Proof.
  intros W0 H0 W H p w h c cf g R Hw Hh E V. destruct (reach_minv _ _ _ _ _ R) as (I & Ew & Eh & _).
  destruct (mr_choice_ok W H c p w h cf g (mi_W _ _ _ I) (mi_H _ _ _ I) (mi_max _ _ _ I) Hw Hh
    (good_positive _ _ _ (mi_gu _ _ _ I)) (mi_gf _ _ _ I) E) as [[V' _]|(_ & f & Ef & [Ft Fl] & O)]; [congruence|].
  exists f. split; [assumption|]. split; [assumption|]. intros f' fl' Hf Ft' Fl'.
  specialize (O f' fl' Hf (conj Ft' Fl')). unfold gain in O. rewrite Ew, Eh in O. exact O.
Qed.
Example C61_demo : exists p p' g, binPackCreate 10 10 = Some p /\ grun p demo_ops = Some p' /\
  guillotineChoice p' 2 1 BestAreaFit true = Some g /\ g_index g = 2%nat /\ length (contents (p_free p')) = 3%nat.
Proof.
  eexists. eexists. eexists. split; [vm_compute; reflexivity|]. split; [vm_compute; reflexivity|].
  split; [vm_compute; reflexivity|]. split; reflexivity.
Qed.

(** C62: a MaxRects insertion succeeds exactly when the bin has an empty spot for it anywhere. *)
Theorem C62_maxrects_complete_partial : forall W0 H0 W H p w h c cf p' res, mreach W0 H0 W H p -> 0 < w -> 0 < h ->
  maxRectsInsertChoice p w h c cf = Some (p', res) ->
  (br_placed res = true <-> exists s, spot W H (contents (p_used p)) w h cf s) /\
  (br_placed res = true -> spot W H (contents (p_used p)) w h cf (br_rect res) /\
     has_dims w h (br_flipped res) (br_rect res) /\ (br_flipped res = true -> cf = true) /\
     contents (p_used p') = contents (p_used p) ++ [br_rect res]) /\
  (br_placed res = false -> p' = p).
Proof.
  intros W0 H0 W H p w h c cf p' res R Hw Hh E. destruct (reach_minv _ _ _ _ _ R) as (I & _).
  eapply mr_placed_iff; eassumption.
Qed.
(** The guillotine packer does not have this property: it may refuse a bin although there is room. *)
Theorem C62_guillotine_incomplete_refuted : exists p p' res, binPackCreate 4 4 = Some p /\
  grun p [OpInsert 2 2 BestAreaFit ShorterLeftoverAxis false] = Some p' /\
  guillotineInsertChoice p' 2 4 BestAreaFit ShorterLeftoverAxis false = Some (p', res) /\ br_placed res = false /\
  spot 4 4 (contents (p_used p')) 2 4 false (Rect 2 0 2 4).
Proof.
  eexists. eexists. eexists. split; [vm_compute; reflexivity|]. split; [vm_compute; reflexivity|].
  split; [vm_compute; reflexivity|]. split; [reflexivity|].
  split; [left; split; reflexivity|]. split; [unfold within; cbn; lia|].
  intros u [<-|[]] (x & y & C1 & C2). unfold covers in *. cbn [left top width height] in *. lia.
Qed.
Example C62_demo : exists p p' rs p2 r2 p3 r3, binPackCreate 10 10 = Some p /\ minserts p mdemo MRArea true = Some (p', rs) /\
  maxRectsInsertChoice p' 4 6 MRArea true = Some (p2, r2) /\ br_placed r2 = true /\ br_flipped r2 = true /\
  maxRectsInsertChoice p' 5 5 MRContact true = Some (p3, r3) /\ br_placed r3 = false.
Proof.
  do 7 eexists. split; [vm_compute; reflexivity|]. split; [vm_compute; reflexivity|]. split; [vm_compute; reflexivity|].
  split; [reflexivity|]. split; [reflexivity|]. split; [vm_compute; reflexivity|]. reflexivity.
Qed.

(** C63: eight insertions into a pack made by binPackCreate, none of them an exact fit, make the
    split loop read the free array through a pointer taken before the array was reallocated. *)
Theorem C63_maxrects_use_after_realloc_refuted : exists p p' rs, binPackCreate 50 50 = Some p /\
  minserts p [(2, 22); (15, 2); (22, 6); (2, 8); (14, 17); (19, 5); (7, 12)] MRShortSide false = Some (p', rs) /\
  msafe p [(2, 22); (15, 2); (22, 6); (2, 8); (14, 17); (19, 5); (7, 12)] MRShortSide false = true /\
  maxRectsInsertChoice p' 8 22 MRShortSide false = None.
Proof.
  eexists. eexists. eexists. split; [vm_compute; reflexivity|]. split; [vm_compute; reflexivity|].
  split; vm_compute; reflexivity.
Qed.
(** An insertion cannot go wrong while the free array has five times the room it uses and the bin
    has at most 2^29 - 1 cells. *)
Theorem C63_maxrects_total_partial : forall W0 H0 W H c p w h cf, mreach W0 H0 W H p -> 4 * (W * H) <= INT_MAX ->
  0 < w -> 0 < h -> w * h <= INT_MAX -> (5 * size (p_free p) <= capacity (p_free p))%nat ->
  p_realloc p = true \/ (size (p_used p) < capacity (p_used p))%nat ->
  (forall r, In r (contents (p_free p)) -> ~ has_dims w h false r /\ ~ has_dims w h true r) ->
  exists p' res, maxRectsInsertChoice p w h c cf = Some (p', res) /\ mreach W0 H0 W H p'.
Proof.
  intros W0 H0 W H c p w h cf R B4 Hw Hh Hm Cap Us Nx. destruct (reach_minv _ _ _ _ _ R) as (I & _).
  destruct (mr_insert_choice_total W H c p w h cf I B4 Hw Hh Hm Cap Us Nx) as (p' & res & E).
  exists p', res. split; [exact E|]. apply (mreach_insert W0 H0 W H p w h c cf p' res); try assumption.
  intros Pl. left. intros Hin. destruct (Nx _ Hin) as [N1 N2].
  destruct (mr_placed_iff W H p w h c cf p' res I Hw Hh E) as (_ & Q & _). destruct (Q Pl) as (_ & D & _).
  destruct (br_flipped res); contradiction.
Qed.
Example C63_demo : exists p, binPackCreateStatic 20 20 (repeat (Rect 0 0 0 0) 50) (repeat (Rect 0 0 0 0) 5) = Some p /\
  mreach 20 20 20 20 p /\ (5 * size (p_free p) <= capacity (p_free p))%nat /\ (size (p_used p) < capacity (p_used p))%nat.
Proof.
  destruct (binPackCreateStatic 20 20 (repeat (Rect 0 0 0 0) 50) (repeat (Rect 0 0 0 0) 5)) as [p|] eqn:E; [|discriminate].
  exists p. split; [reflexivity|]. split; [eapply mreach_static; [lia|lia|unfold INT_MAX; lia|exact E]|].
  vm_compute in E. injection E as <-. cbn. lia.
Qed.

(** C64: clearing. *)
Theorem C64_clear_partial : forall W H n p ops p', 0 < W -> 0 < H -> W * H <= INT_MAX -> created W H n p ->
  ok_history W H W H ops -> (total_bins ops <= n)%nat -> grun p ops = Some p' ->
  exists p2, binPackClear p' = Some p2 /\ contents (p_used p2) = [] /\ contents (p_free p2) = [Rect 0 0 W H] /\
    p_used_area p2 = 0.
Proof.
  intros W H n p ops p' HW HH HM C Ok N E. destruct (created_ok W H n p HW HH HM C) as (I0 & Mem & Ew & Eh & Cap).
  destruct (history_ok 0 ops p W H) as (p1 & E1 & I & _ & X1 & X2 & K); try assumption.
  { rewrite Ew, Eh. exact Ok. }
  { destruct Mem as [M|M]; [now left|right; lia]. }
  assert (p1 = p') by congruence. subst p1. unfold binPackClear, binPackReset.
  destruct (data (p_free p')) as [|d0 d] eqn:Ed; [unfold capacity in K; rewrite Ed in K; cbn in K; lia|].
  eexists. split; [reflexivity|]. rewrite X1, X2, Ew, Eh. repeat split.
Qed.
(** After binPackReset, binPackClear goes back to the size given at creation, not the reset size. *)
Theorem C64_clear_after_reset_refuted : exists p p' r, binPackCreate 10 10 = Some p /\
  grun p [OpReset 4 4; OpClear; OpInsert 8 8 BestAreaFit ShorterAxis false] = Some p' /\
  contents (p_used p') = [r] /\ ~ within 4 4 r.
Proof.
  eexists. eexists. eexists. split; [vm_compute; reflexivity|]. split; [vm_compute; reflexivity|]. split; [reflexivity|].
  unfold within. cbn [left top width height]. lia.
Qed.
(** binPackFitToSize keeps the packing, *)
Theorem C64_fit_keeps_packing : forall W H n p ops p', 0 < W -> 0 < H -> W * H <= INT_MAX -> created W H n p ->
  ok_history W H W H ops -> (total_bins ops <= n)%nat -> grun p ops = Some p' -> p_realloc p' = true ->
  exists p2, binPackFitToSize p' = Some p2 /\ contents (p_used p2) = contents (p_used p') /\
    contents (p_free p2) = contents (p_free p') /\ p_used_area p2 = p_used_area p' /\
    capacity (p_used p2) = length (contents (p_used p')) /\ capacity (p_free p2) = length (contents (p_free p')).
Proof.
  intros W H n p ops p' HW HH HM C Ok N E Re. unfold binPackFitToSize, assert_. rewrite Re.
  eexists. split; [reflexivity|]. unfold contents, capacity. cbn [p_used p_free data size p_used_area].
  rewrite !firstn_firstn, !Nat.min_id. repeat split.
Qed.
(** but a full pack that was fitted stays without a free rectangle when it is cleared. *)
Theorem C64_clear_after_fit_refuted : exists p p1 p2 p3, binPackCreate 4 4 = Some p /\
  grun p [OpInsert 4 4 BestAreaFit ShorterAxis false] = Some p1 /\ binPackFitToSize p1 = Some p2 /\
  binPackClear p2 = Some p3 /\ contents (p_used p3) = [] /\ contents (p_free p3) = [].
Proof.
  do 4 eexists. split; [vm_compute; reflexivity|]. split; [vm_compute; reflexivity|]. split; [vm_compute; reflexivity|].
  split; [vm_compute; reflexivity|]. split; reflexivity.
Qed.
Example C64_demo : exists p p' p2, binPackCreate 10 10 = Some p /\ grun p demo_ops = Some p' /\
  length (contents (p_used p')) = 5%nat /\ binPackClear p' = Some p2 /\ contents (p_free p2) = [Rect 0 0 10 10].
Proof.
  do 3 eexists. split; [vm_compute; reflexivity|]. split; [vm_compute; reflexivity|]. split; [reflexivity|].
  split; [vm_compute; reflexivity|]. reflexivity.
Qed.

Print Assumptions C51_guillotine_disjoint.
Print Assumptions C51_guillotine_tiles.
Print Assumptions C52_guillotine_area.
Print Assumptions C53_guillotine_placed_iff_room.
Print Assumptions C53_maxrects_choice_partial.
Print Assumptions C54_static_memory_suffices.
Print Assumptions C54_no_bins_refuted.
Print Assumptions C55_maxrects_disjoint_refuted.
Print Assumptions C55_maxrects_disjoint_partial.
Print Assumptions C60_batch_accounts.
Print Assumptions C61_guillotine_choice_optimal.
Print Assumptions C61_maxrects_choice_optimal_partial.
Print Assumptions C62_maxrects_complete_partial.
Print Assumptions C62_guillotine_incomplete_refuted.
Print Assumptions C63_maxrects_use_after_realloc_refuted.
Print Assumptions C63_maxrects_total_partial.
Print Assumptions C64_clear_partial.
Print Assumptions C64_clear_after_reset_refuted.
Print Assumptions C64_fit_keeps_packing.
Print Assumptions C64_clear_after_fit_refuted.
