(** MaxRects: packs reachable without the exact-fit defect, totality, and the defects themselves. *)
From Coq Require Import ZArith List Bool Lia Permutation ZifyBool ZifyNat.
From Verif Require Import Base BinPackModel BinPackSpec BinPackArray BinPackGuillotine BinPackHistory
  BinPackMaxRects BinPackPrune BinPackMaxInsert.
Import ListNotations.
Local Open Scope Z_scope.

(** ** Reachable packs *)
(** The placed rectangle is not one of the free rectangles, or it is the last of them. *)
Definition no_exact_fit (p : pack) (r : rect) : Prop :=
  ~ In r (contents (p_free p)) \/ nth_error (contents (p_free p)) (size (p_free p) - 1) = Some r.

(** [mreach W0 H0 W H p]: p was created for a W0 x H0 bin and its bin now is W x H. *)
Inductive mreach (W0 H0 : Z) : Z -> Z -> pack -> Prop :=
  | mreach_create : forall f u p, 0 < W0 -> 0 < H0 -> W0 * H0 <= INT_MAX ->
      binPackCreateEx W0 H0 f u = Some p -> mreach W0 H0 W0 H0 p
  | mreach_static : forall f u p, 0 < W0 -> 0 < H0 -> W0 * H0 <= INT_MAX ->
      binPackCreateStatic W0 H0 f u = Some p -> mreach W0 H0 W0 H0 p
  | mreach_insert : forall W H p w h c cf p' res, mreach W0 H0 W H p -> 0 < w -> 0 < h ->
      maxRectsInsertChoice p w h c cf = Some (p', res) ->
      (br_placed res = true -> no_exact_fit p (br_rect res)) -> mreach W0 H0 W H p'
  | mreach_clear : forall p p', mreach W0 H0 W0 H0 p -> binPackClear p = Some p' -> mreach W0 H0 W0 H0 p'
  | mreach_reset : forall W H p w h p', mreach W0 H0 W H p -> 0 < w -> 0 < h -> w * h <= INT_MAX ->
      binPackReset p w h = Some p' -> mreach W0 H0 w h p'.

Lemma single_minv : forall W H p, 0 < W -> 0 < H -> W * H <= INT_MAX -> arr_ok (p_free p) -> arr_ok (p_used p) ->
  contents (p_free p) = [Rect 0 0 W H] -> contents (p_used p) = [] -> p_used_area p = 0 -> minv W H p.
Proof.
  intros W H p HW HH HM Of Ou Cf Cu Ar. constructor; try assumption; rewrite ?Cf, ?Cu.
  - constructor; [|constructor]. unfold good_rect, within, positive. cbn [left top width height]. lia.
  - constructor.
  - intros [|i] j a b _ E; discriminate.
  - intros f u _ [].
  - intros s Ps Ws _. exists (Rect 0 0 W H). split; [now left|]. unfold within, contained in *. cbn [left top width height]. lia.
  - intros i j a b N Ea Eb. destruct i as [|[|i]]; destruct j as [|[|j]]; cbn in *; try discriminate; lia.
  - rewrite Ar. reflexivity.
Qed.

Lemma init_minv : forall q W H p, 0 < W -> 0 < H -> W * H <= INT_MAX -> binPackInit q W H = Some p ->
  minv W H p /\ p_width p = W /\ p_height p = H.
Proof.
  intros q W H p HW HH HM E. unfold binPackInit in E.
  destruct (tmbp_push (Arr (data (p_free q)) 0) (p_realloc q) (Rect 0 0 W H)) as [a|] eqn:Ea; [|discriminate].
  injection E as <-. apply push_inv in Ea; [|unfold arr_ok, capacity; cbn; lia]. destruct Ea as (C & S1 & O & _).
  split; [|auto]. apply single_minv; cbn [p_free p_used p_used_area]; try assumption.
  - unfold arr_ok, capacity. cbn. lia.
  - reflexivity.
  - reflexivity.
Qed.

Lemma reset_minv : forall p w h p', 0 < w -> 0 < h -> w * h <= INT_MAX -> (1 <= capacity (p_free p))%nat ->
  binPackReset p w h = Some p' -> minv w h p' /\ p_width p' = p_width p /\ p_height p' = p_height p.
Proof.
  intros p w h p' Hw Hh Hm Cap E. unfold binPackReset in E.
  destruct (data (p_free p)) as [|d0 d] eqn:Ed; [unfold capacity in Cap; rewrite Ed in Cap; cbn in Cap; lia|].
  injection E as <-. split; [|auto]. apply single_minv; cbn [p_free p_used p_used_area]; try assumption; try reflexivity.
  - unfold arr_ok, capacity. cbn. lia.
  - unfold arr_ok, capacity. cbn. lia.
Qed.

Lemma minv_capacity : forall W H p, minv W H p -> (1 <= capacity (p_free p))%nat \/ contents (p_free p) = [].
Proof.
  intros W H p I. pose proof (mi_free _ _ _ I) as O. unfold arr_ok in O. destruct (size (p_free p)) eqn:E; [|left; lia].
  right. unfold contents. rewrite E. reflexivity.
Qed.

(** The capacity of the free array never shrinks to nothing. *)
Lemma split_cap : forall fr re f u fr' b, arr_ok fr -> maxRectsSplitFreeNode fr re f u = Some (fr', b) ->
  (capacity fr <= capacity fr')%nat /\ arr_ok fr'.
Proof.
  intros fr re f u fr' b O E. unfold maxRectsSplitFreeNode in E.
  repeat match type of E with
  | match ?x with _ => _ end = _ => let Q := fresh "Q" in destruct x eqn:Q; try discriminate
  end.
  all: repeat match goal with
  | H : (if ?c then _ else _) = Some _ |- _ => destruct c
  | H : match ?x with _ => _ end = Some _ |- _ => let Q := fresh "Q" in destruct x eqn:Q; try discriminate
  end.
  all: repeat match goal with
  | H : Some _ = Some _ |- _ => injection H as <-
  | H : Some _ = Some _ |- _ => injection H; intros; subst; clear H
  end.
  all: repeat match goal with
  | O : arr_ok ?a, H : tmbp_push ?a _ _ = Some ?a' |- _ =>
      let C := fresh "C" in let K := fresh "K" in apply (push_inv _ _ _ _ O) in H; destruct H as (_ & _ & C & K)
  end.
  all: try (split; [lia|assumption]).
Qed.

Lemma no_exact_fit_roomy : forall W H p w h choice f, minv W H p -> 0 < w -> 0 < h ->
  nth_error (contents (p_free p)) (m_index choice) = Some f -> fits w h (m_flipped choice) f ->
  no_exact_fit p (place w h (m_flipped choice) f) -> roomy p w h choice f.
Proof.
  intros W H p w h choice f I Hw Hh Ef Ft Ne. unfold roomy.
  assert (D : has_dims w h (m_flipped choice) f \/ ~ has_dims w h (m_flipped choice) f).
  { unfold has_dims. destruct (m_flipped choice); lia. }
  destruct D as [D|D]; [|now left]. right.
  assert (P : place w h (m_flipped choice) f = f).
  { destruct f as [fl ft fw fh]. unfold place, has_dims in *. cbn [left top width height] in *.
    destruct (m_flipped choice); destruct D; subst; reflexivity. }
  rewrite P in Ne. destruct Ne as [Ne|Ne]; [exfalso; apply Ne; eapply nth_error_In; exact Ef|].
  assert (B : (m_index choice < size (p_free p))%nat).
  { rewrite <- (contents_length _ (mi_free _ _ _ I)). apply nth_error_Some. congruence. }
  destruct (Nat.eq_dec (m_index choice) (size (p_free p) - 1)) as [E|E]; [lia|].
  exfalso. apply (mi_anti _ _ _ I _ _ f f E Ef Ne). apply contained_refl.
Qed.

Lemma mr_insert_choice_ok : forall W H p w h c cf p' res, minv W H p -> 0 < w -> 0 < h ->
  maxRectsInsertChoice p w h c cf = Some (p', res) ->
  (br_placed res = true -> no_exact_fit p (br_rect res)) ->
  minv W H p' /\ p_width p' = p_width p /\ p_height p' = p_height p.
Proof.
  intros W H p w h c cf p' res I Hw Hh E Ne. unfold maxRectsInsertChoice in E.
  destruct (maxRectsChoice p w h c cf) as [g|] eqn:Eg; [|discriminate].
  destruct (mr_choice_ok W H c p w h cf g (mi_W _ _ _ I) (mi_H _ _ _ I) (mi_max _ _ _ I) Hw Hh
    (good_positive _ _ _ (mi_gu _ _ _ I)) (mi_gf _ _ _ I) Eg) as [[V _]|(V & f & Ef & [Ft _] & _)]; rewrite V in E.
  - injection E as <- <-. auto.
  - assert (Q : br_rect res = place w h (m_flipped g) f /\ br_placed res = true).
    { unfold maxRectsInsert, assert_ in E. rewrite V in E. unfold binPackRectFromPosition in E.
      assert (B : (m_index g < size (p_free p))%nat).
      { rewrite <- (contents_length _ (mi_free _ _ _ I)). apply nth_error_Some. congruence. }
      rewrite <- nth_contents, Ef in E by assumption.
      repeat match type of E with match ?x with _ => _ end = _ => destruct x; [|discriminate] end.
      injection E as <- <-. auto. }
    destruct Q as [Q1 Q2]. specialize (Ne Q2). rewrite Q1 in Ne.
    pose proof (no_exact_fit_roomy W H p w h g f I Hw Hh Ef Ft Ne) as Ro.
    destruct (mr_insert_ok W H p w h g f p' res I Hw Hh Ef Ft Ro E) as (I' & _ & _ & E1 & E2 & _). auto.
Qed.


Lemma erase_inv : forall a i a', tmbp_unstable_erase a i = Some a' -> arr_ok a' /\ capacity a' = capacity a.
Proof.
  intros a i a' E. assert (Q : arr_ok a /\ (i < size a)%nat).
  { unfold tmbp_unstable_erase, assert_ in E. unfold arr_ok.
    destruct ((0 <? size a)%nat && (size a <=? capacity a)%nat && (i <? size a)%nat) eqn:B; [lia|discriminate]. }
  destruct Q as [O L]. destruct (erase_nth a i a' O L E) as (_ & K & O' & _). auto.
Qed.
Lemma loop_cap : forall todo cap0 fr re u i fr', arr_ok fr -> mr_split_loop todo cap0 fr re u i = Some fr' ->
  arr_ok fr' /\ (capacity fr <= capacity fr')%nat.
Proof.
  induction todo as [|todo IH]; intros cap0 fr re u i fr' O E; cbn [mr_split_loop] in E.
  - injection E as <-. auto.
  - unfold assert_ in E. destruct (capacity fr =? cap0)%nat; [|discriminate].
    destruct (nth_error (data fr) i) as [f|]; [|discriminate].
    destruct (maxRectsSplitFreeNode fr re f u) as [[fr1 b]|] eqn:E1; [|discriminate].
    apply split_cap in E1; [|assumption]. destruct E1 as [K1 O1].
    destruct b.
    + destruct (tmbp_unstable_erase fr1 i) as [fr2|] eqn:E2; [|discriminate].
      apply erase_inv in E2. destruct E2 as [O2 K2]. apply IH in E; [|assumption]. split; [tauto|lia].
    + apply IH in E; [|assumption]. split; [tauto|lia].
Qed.
Lemma prune_inner_cap : forall fuel fr i j fr' er, prune_inner fuel fr i j = Some (fr', er) -> capacity fr' = capacity fr.
Proof.
  induction fuel as [|fuel IH]; intros fr i j fr' er E; cbn [prune_inner] in E; [discriminate|].
  destruct (j <? size fr)%nat; [|injection E as <- <-; reflexivity].
  destruct (nth_error (data fr) i) as [a|]; [|discriminate]. destruct (nth_error (data fr) j) as [b|]; [|discriminate].
  destruct (isContainedIn a b) as [[|]|]; [| |discriminate].
  - destruct (tmbp_unstable_erase fr i) as [fr1|] eqn:E1; [|discriminate]. injection E as <- <-. now apply erase_inv in E1.
  - destruct (isContainedIn b a) as [[|]|]; [|now apply IH in E|discriminate].
    destruct (tmbp_unstable_erase fr j) as [fr1|] eqn:E1; [|discriminate]. apply erase_inv in E1. apply IH in E. lia.
Qed.
Lemma prune_outer_cap : forall fuel fr i fr', prune_outer fuel fr i = Some fr' -> capacity fr' = capacity fr.
Proof.
  induction fuel as [|fuel IH]; intros fr i fr' E; cbn [prune_outer] in E; [discriminate|].
  destruct (i <? size fr)%nat; [|injection E as <-; reflexivity].
  destruct (prune_inner (S (size fr)) fr i (S i)) as [[fr1 er]|] eqn:E1; [|discriminate].
  apply prune_inner_cap in E1. apply IH in E. lia.
Qed.
Lemma insert_choice_cap : forall p w h c cf p' res, arr_ok (p_free p) ->
  maxRectsInsertChoice p w h c cf = Some (p', res) -> (capacity (p_free p) <= capacity (p_free p'))%nat.
Proof.
  intros p w h c cf p' res O E. unfold maxRectsInsertChoice in E.
  destruct (maxRectsChoice p w h c cf) as [g|]; [|discriminate].
  destruct (mr_valid g); [|injection E as <- <-; lia].
  unfold maxRectsInsert, assert_ in E. destruct (mr_valid g); [|discriminate].
  destruct (binPackRectFromPosition p w h (m_index g) (m_flipped g)) as [r|]; [|discriminate].
  destruct (mr_split_loop (size (p_free p)) (capacity (p_free p)) (p_free p) (p_realloc p) r 0) as [fr1|] eqn:E1; [|discriminate].
  apply loop_cap in E1; [|assumption].
  destruct (maxRectsPrune fr1) as [fr2|] eqn:E2; [|discriminate]. apply prune_outer_cap in E2.
  repeat match type of E with match ?x with _ => _ end = _ => destruct x; [|discriminate] end.
  injection E as <- <-. cbn [p_free]. lia.
Qed.

Lemma init_cap : forall q W H p, binPackInit q W H = Some p -> (1 <= capacity (p_free p))%nat.
Proof.
  intros q W H p E. unfold binPackInit in E.
  destruct (tmbp_push (Arr (data (p_free q)) 0) (p_realloc q) (Rect 0 0 W H)) as [a|] eqn:Ea; [|discriminate].
  injection E as <-. apply push_inv in Ea; [|unfold arr_ok, capacity; cbn; lia]. destruct Ea as (_ & S1 & O & _).
  unfold arr_ok in O. cbn [size] in S1. cbn [p_free]. lia.
Qed.

Lemma reach_minv : forall W0 H0 W H p, mreach W0 H0 W H p ->
  minv W H p /\ p_width p = W0 /\ p_height p = H0 /\ (1 <= capacity (p_free p))%nat.
Proof.
  intros W0 H0 W H p R. induction R as
    [f u p A B C E|f u p A B C E|W H p w h c cf p' res R [I [Ew [Eh K]]] Hw Hh E Ne|p p' R [I [Ew [Eh K]]] E|W H p w h p' R [I [Ew [Eh K]]] Hw Hh Hm E].
  - unfold binPackCreateEx in E. pose proof (init_cap _ _ _ _ E). destruct (init_minv _ _ _ _ A B C E) as (I & E1 & E2). auto.
  - unfold binPackCreateStatic in E. pose proof (init_cap _ _ _ _ E). destruct (init_minv _ _ _ _ A B C E) as (I & E1 & E2). auto.
  - destruct (mr_insert_choice_ok W H p w h c cf p' res I Hw Hh E Ne) as (I' & E1 & E2).
    pose proof (insert_choice_cap p w h c cf p' res (mi_free _ _ _ I) E). split; [assumption|]. split; [congruence|]. split; [congruence|lia].
  - unfold binPackClear in E. rewrite Ew, Eh in E.
    destruct (reset_minv p W0 H0 p' (mi_W _ _ _ I) (mi_H _ _ _ I) (mi_max _ _ _ I) K E) as (I' & E1 & E2).
    split; [assumption|]. split; [congruence|]. split; [congruence|].
    assert (Q := mi_complete _ _ _ I' (Rect 0 0 1 1)). pose proof (mi_W _ _ _ I). pose proof (mi_H _ _ _ I).
    destruct (minv_capacity _ _ _ I') as [Z|Z]; [assumption|].
    unfold binPackReset in E. destruct (data (p_free p)) eqn:Ed; [unfold capacity in K; rewrite Ed in K; cbn in K; lia|].
    injection E as <-. cbn in Z. discriminate.
  - destruct (reset_minv p w h p' Hw Hh Hm K E) as (I' & E1 & E2).
    split; [assumption|]. split; [congruence|]. split; [congruence|].
    unfold binPackReset in E. destruct (data (p_free p)) eqn:Ed; [unfold capacity in K; rewrite Ed in K; cbn in K; lia|].
    injection E as <-. unfold capacity. cbn. lia.
Qed.

(** ** Finding a place *)
(** An empty spot for the bin. *)
Definition spot (W H : Z) (used : list rect) (w h : Z) (canFlip : bool) (s : rect) : Prop :=
  (has_dims w h false s \/ (canFlip = true /\ has_dims w h true s)) /\ within W H s /\
  forall u, In u used -> ~ overlap s u.

Lemma mr_placed_iff : forall W H p w h c cf p' res, minv W H p -> 0 < w -> 0 < h ->
  maxRectsInsertChoice p w h c cf = Some (p', res) ->
  (br_placed res = true <-> exists s, spot W H (contents (p_used p)) w h cf s) /\
  (br_placed res = true -> spot W H (contents (p_used p)) w h cf (br_rect res) /\
     has_dims w h (br_flipped res) (br_rect res) /\ (br_flipped res = true -> cf = true) /\
     contents (p_used p') = contents (p_used p) ++ [br_rect res]) /\
  (br_placed res = false -> p' = p).
Proof.
  intros W H p w h c cf p' res I Hw Hh E. unfold maxRectsInsertChoice in E.
  destruct (maxRectsChoice p w h c cf) as [g|] eqn:Eg; [|discriminate].
  assert (Gu := good_positive _ _ _ (mi_gu _ _ _ I)). assert (Gu' := Gu). rewrite Forall_forall in Gu'.
  destruct (mr_choice_ok W H c p w h cf g (mi_W _ _ _ I) (mi_H _ _ _ I) (mi_max _ _ _ I) Hw Hh
    Gu (mi_gf _ _ _ I) Eg) as [[V N]|(V & f & Ef & [Ft Fl] & _)]; rewrite V in E.
  - injection E as <- <-. cbn [br_placed not_placed]. split; [|split; [discriminate|reflexivity]].
    split; [discriminate|]. intros (s & D & Ws & As). exfalso.
    assert (Ps : positive s) by (unfold has_dims, positive in *; lia).
    destruct (mi_complete _ _ _ I s Ps Ws) as (f & Hf & Cf).
    { intros u Hu. apply apart_iff; [assumption|now apply Gu'|now apply As]. }
    apply (N f Hf). unfold has_room, contained, has_dims in *.
    destruct D as [D|[D1 D2]]; [left|right]; lia.
  - assert (Gf : good_rect W H f) by (apply (proj1 (Forall_forall _ _) (mi_gf _ _ _ I)); eapply nth_error_In; exact Ef).
    destruct (place_good W H w h (m_flipped g) f Gf Hw Hh Ft) as (Gp & Cp & Dp).
    assert (Sp : spot W H (contents (p_used p)) w h cf (place w h (m_flipped g) f)).
    { split; [destruct (m_flipped g); auto|]. split; [apply Gp|].
      intros u Hu. apply apart_iff; [apply Gp|now apply Gu'|].
      eapply contained_apart; [exact Cp|]. apply (mi_apart _ _ _ I); [eapply nth_error_In; exact Ef|assumption]. }
    unfold maxRectsInsert, assert_ in E. rewrite V in E. unfold binPackRectFromPosition in E.
    assert (B : (m_index g < size (p_free p))%nat).
    { rewrite <- (contents_length _ (mi_free _ _ _ I)). apply nth_error_Some. congruence. }
    rewrite <- nth_contents, Ef in E by assumption.
    change (if m_flipped g then Rect (left f) (top f) h w else Rect (left f) (top f) w h)
      with (place w h (m_flipped g) f) in E.
    destruct (mr_split_loop _ _ _ _ _ _) as [fr1|]; [|discriminate].
    destruct (maxRectsPrune fr1) as [fr2|]; [|discriminate].
    destruct (tmbp_push (p_used p) (p_realloc p) _) as [us|] eqn:E3; [|discriminate].
    destruct (push_inv _ _ _ _ (mi_used _ _ _ I) E3) as (C3 & _).
    repeat match type of E with match ?x with _ => _ end = _ => destruct x; [|discriminate] end.
    injection E as <- <-. cbn [br_placed br_rect br_flipped p_used].
    split; [split; [intros _; eexists; exact Sp|reflexivity]|]. split; [|discriminate]. intros _. auto.
Qed.

(** ** When an insertion cannot fail *)
Lemma commonInterval_total : forall a b c d, 0 <= a < b -> 0 <= c < d -> b <= INT_MAX -> d <= INT_MAX ->
  exists v, commonInterval a b c d = Some v /\ 0 <= v <= b - a.
Proof.
  intros a b c d L1 L2 B1 B2. unfold commonInterval.
  destruct ((b <? c) || (d <? a)) eqn:B; [exists 0; split; [reflexivity|lia]|].
  rewrite i32_ok by (unfold INT_MIN, INT_MAX in *; destruct (Z.ltb_spec b d), (Z.ltb_spec a c); lia).
  eexists. split; [reflexivity|]. destruct (Z.ltb_spec b d), (Z.ltb_spec a c); lia.
Qed.

Definition half_perimeters (l : list rect) : Z := fold_right (fun u acc => width u + height u + acc) 0 l.

Lemma contact_loop_total : forall W H us l t r b score, W <= INT_MAX -> H <= INT_MAX -> Forall (good_rect W H) us ->
  0 <= l < r -> r <= W -> 0 <= t < b -> b <= H -> 0 <= score -> score + half_perimeters us <= INT_MAX ->
  exists v, contact_loop us l t r b score = Some v /\ 0 <= v <= score + half_perimeters us.
Proof.
  intros W H. induction us as [|u us IH]; intros l t r b score BW BH F Hl Hr Ht Hb Sc Su; cbn [contact_loop half_perimeters fold_right] in *.
  - exists score. split; [reflexivity|lia].
  - inversion F as [|? ? [Wu Pu] F']; subst. unfold within, positive in *. fold (half_perimeters us) in *.
    assert (N : 0 <= half_perimeters us).
    { clear - F'. induction us as [|v us IHu]; [cbn; lia|]. inversion F' as [|? ? [_ Pv] F'']; subst.
      unfold positive in Pv. cbn [half_perimeters fold_right]. specialize (IHu F''). unfold half_perimeters in IHu. lia. }
    rewrite (i32_ok (left u + width u)), (i32_ok (top u + height u)) by (unfold INT_MIN; lia).
    assert (Q1 : exists s1, (if (left u =? r) || (left u + width u =? l)
       then c <- commonInterval (top u) (top u + height u) t b ;; i32 (score + c) else Some score) = Some s1 /\
       score <= s1 <= score + height u).
    { destruct ((left u =? r) || (left u + width u =? l)); [|exists score; split; [reflexivity|lia]].
      destruct (commonInterval_total (top u) (top u + height u) t b) as (v & -> & Bv); try lia.
      rewrite i32_ok by (unfold INT_MIN; lia). eexists. split; [reflexivity|lia]. }
    destruct Q1 as (s1 & -> & B1).
    assert (Q2 : exists s2, (if (top u =? b) || (top u + height u =? t)
       then c <- commonInterval (left u) (left u + width u) l r ;; i32 (s1 + c) else Some s1) = Some s2 /\
       s1 <= s2 <= s1 + width u).
    { destruct ((top u =? b) || (top u + height u =? t)); [|exists s1; split; [reflexivity|lia]].
      destruct (commonInterval_total (left u) (left u + width u) l r) as (v & -> & Bv); try lia.
      rewrite i32_ok by (unfold INT_MIN; lia). eexists. split; [reflexivity|lia]. }
    destruct Q2 as (s2 & -> & B2).
    destruct (IH l t r b s2) as (v & Ev & Bv); try assumption; try lia.
    exists v. split; [exact Ev|lia].
Qed.

Lemma half_perimeters_area : forall l, Forall positive l -> half_perimeters l <= 2 * total_area l.
Proof.
  induction l as [|u l IH]; intros F; [cbn; lia|]. inversion F as [|? ? [P1 P2] F']; subst.
  cbn [half_perimeters fold_right]. fold (half_perimeters l). change (total_area (u :: l)) with (area u + total_area l).
  specialize (IH F'). unfold area. nia.
Qed.

Lemma mr_scores_total : forall W H c p w h f, minv W H p -> 4 * (W * H) <= INT_MAX -> good_rect W H f ->
  0 < w <= width f -> 0 < h <= height f -> exists s, mr_scores c p w h f = Some s.
Proof.
  intros W H c p w h f I B4 [Wf Pf] Hw Hh. pose proof (mi_W _ _ _ I) as HW. pose proof (mi_H _ _ _ I) as HH.
  destruct (dims_bound W H HW HH (mi_max _ _ _ I)) as [BW BH].
  pose proof (area_bound W H f HW HH Pf Wf) as BA. unfold within, positive in *.
  assert (WH : W <= W * H /\ H <= W * H) by nia.
  destruct c; cbn [mr_scores].
  1,2,3: rewrite (i32_ok (width f - w)), (i32_ok (height f - h)), !tmbp_abs_nonneg by (unfold INT_MIN, INT_MAX in *; lia).
  - eexists; reflexivity.
  - eexists; reflexivity.
  - assert (0 < w * h <= width f * height f) by nia.
    rewrite (i32_ok (width f * height f)), (i32_ok (w * h)), i32_ok by (unfold INT_MIN, INT_MAX in *; lia).
    eexists; reflexivity.
  - rewrite i32_ok by (unfold INT_MIN; lia). eexists; reflexivity.
  - rewrite (i32_ok (left f + w)), (i32_ok (top f + h)) by (unfold INT_MIN; lia).
    unfold contactPointScore.
    assert (HP : half_perimeters (contents (p_used p)) <= 2 * (W * H)).
    { pose proof (half_perimeters_area _ (good_positive _ _ _ (mi_gu _ _ _ I))).
      pose proof (disjoint_area W H _ HW HH (mi_gu _ _ _ I) (mi_disj _ _ _ I)). lia. }
    assert (Q1 : exists s1, (if (left f =? 0) || (left f + w =? p_width p) then i32 (top f + h - top f) else Some 0) = Some s1 /\ 0 <= s1 <= h).
    { destruct (_ || _); [rewrite i32_ok by (unfold INT_MIN; lia)|]; eexists; (split; [reflexivity|lia]). }
    destruct Q1 as (s1 & -> & B1).
    assert (Q2 : exists s2, (if (top f =? 0) || (top f + h =? p_height p)
       then d <- i32 (left f + w - left f) ;; i32 (s1 + d) else Some s1) = Some s2 /\ 0 <= s2 <= h + w).
    { destruct (_ || _); [rewrite (i32_ok (left f + w - left f)) by (unfold INT_MIN; lia);
        rewrite i32_ok by (unfold INT_MIN; lia)|]; eexists; (split; [reflexivity|lia]). }
    destruct Q2 as (s2 & -> & B2).
    destruct (contact_loop_total W H (contents (p_used p)) (left f) (top f) (left f + w) (top f + h) s2)
      as (v & -> & Bv); try lia; [apply I|].
    rewrite i32_ok by (unfold INT_MIN, INT_MAX in *; lia). eexists; reflexivity.
Qed.

Lemma mr_choice_total : forall W H c p w h cf, minv W H p -> 4 * (W * H) <= INT_MAX -> 0 < w -> 0 < h ->
  w * h <= INT_MAX -> exists g, maxRectsChoice p w h c cf = Some g.
Proof.
  intros W H c p w h cf I B4 Hw Hh Hm. unfold maxRectsChoice. pose proof (mi_gf _ _ _ I) as G.
  generalize 0%nat (MResult 0 INVALID_SCORE INVALID_SCORE false).
  induction (contents (p_free p)) as [|f fs IH]; intros i res; cbn [mr_best]; [eexists; reflexivity|].
  inversion G as [|? ? Gf G']; subst. specialize (IH G').
  assert (Pre : exists z, (match c with MRArea => fa <- i32 (width f * height f) ;; a <- i32 (w * h) ;; i32 (fa - a) | _ => Some 0 end) = Some z).
  { destruct c; try (eexists; reflexivity). destruct Gf as [Wf Pf].
    pose proof (area_bound W H f (mi_W _ _ _ I) (mi_H _ _ _ I) Pf Wf). pose proof (mi_max _ _ _ I).
    assert (0 < w * h) by nia.
    rewrite (i32_ok (width f * height f)), (i32_ok (w * h)), i32_ok by (unfold INT_MIN, INT_MAX in *; lia). eexists; reflexivity. }
  destruct Pre as (z & ->).
  assert (T : forall w h fl res, 0 < w -> 0 < h -> exists r, mr_try c p w h f i fl res = Some r).
  { intros w1 h1 fl r0 P1 P2. unfold mr_try. destruct ((w1 <=? width f) && (h1 <=? height f)) eqn:B; [|eexists; reflexivity].
    destruct (mr_scores_total W H c p w1 h1 f I B4 Gf) as (s & ->); [lia|lia|]. eexists; reflexivity. }
  destruct (T w h false res Hw Hh) as (r1 & ->).
  assert (T2 : exists r2, (if cf then mr_try c p h w f i true r1 else Some r1) = Some r2).
  { destruct cf; [apply T; assumption|eexists; reflexivity]. }
  destruct T2 as (r2 & ->). apply IH.
Qed.

Lemma mr_insert_choice_total : forall W H c p w h cf, minv W H p -> 4 * (W * H) <= INT_MAX -> 0 < w -> 0 < h ->
  w * h <= INT_MAX -> (5 * size (p_free p) <= capacity (p_free p))%nat ->
  p_realloc p = true \/ (size (p_used p) < capacity (p_used p))%nat ->
  (forall r, In r (contents (p_free p)) -> ~ has_dims w h false r /\ ~ has_dims w h true r) ->
  exists p' res, maxRectsInsertChoice p w h c cf = Some (p', res).
Proof.
  intros W H c p w h cf I B4 Hw Hh Hm Cap Us Nx. unfold maxRectsInsertChoice.
  destruct (mr_choice_total W H c p w h cf I B4 Hw Hh Hm) as (g & Eg). rewrite Eg.
  destruct (mr_choice_ok W H c p w h cf g (mi_W _ _ _ I) (mi_H _ _ _ I) (mi_max _ _ _ I) Hw Hh
    (good_positive _ _ _ (mi_gu _ _ _ I)) (mi_gf _ _ _ I) Eg) as [[V N]|(V & f & Ef & [Ft Fl] & _)]; rewrite V.
  { eexists; eexists; reflexivity. }
  assert (Gf : good_rect W H f) by (apply (proj1 (Forall_forall _ _) (mi_gf _ _ _ I)); eapply nth_error_In; exact Ef).
  destruct (place_good W H w h (m_flipped g) f Gf Hw Hh Ft) as (Gp & Cp & Dp).
  assert (Ro : roomy p w h g f).
  { left. destruct (Nx f) as [N1 N2]; [eapply nth_error_In; exact Ef|]. destruct (m_flipped g); assumption. }
  pose proof (roomy_last W H p w h g f I Hw Hh Ef Ft Ro) as La.
  unfold maxRectsInsert, assert_. rewrite V. unfold binPackRectFromPosition.
  assert (B : (m_index g < size (p_free p))%nat).
  { rewrite <- (contents_length _ (mi_free _ _ _ I)). apply nth_error_Some. congruence. }
  rewrite <- nth_contents, Ef by assumption.
  change (if m_flipped g then Rect (left f) (top f) h w else Rect (left f) (top f) w h)
    with (place w h (m_flipped g) f).
  set (u := place w h (m_flipped g) f) in *.
  destruct (loop_total W H u (contents (p_free p)) (mi_W _ _ _ I) (mi_H _ _ _ I) (mi_max _ _ _ I) Gp (mi_gf _ _ _ I) La
    (size (p_free p)) 0 (p_free p) (p_realloc p)) as (fr1 & E1 & K1).
  { rewrite (contents_length _ (mi_free _ _ _ I)). lia. }
  { now apply loop_start. }
  { lia. }
  rewrite E1.
  assert (L1 : loop_inv W H u (contents (p_free p)) (length (contents (p_free p))) fr1).
  { eapply (loop_ok W H u (contents (p_free p)) (mi_W _ _ _ I) (mi_H _ _ _ I) (mi_max _ _ _ I) Gp (mi_gf _ _ _ I) La (size (p_free p)) 0);
      [|now apply loop_start|exact E1]. rewrite (contents_length _ (mi_free _ _ _ I)). lia. }
  destruct L1 as [O1 _ _ Do1 _].
  assert (G1 : Forall (good_rect W H) (contents fr1)).
  { rewrite Forall_forall. intros r Hr. apply In_nth_error in Hr. destruct Hr as (k & Ek). apply (Do1 k r Ek). lia. }
  destruct (prune_ok W H (mi_W _ _ _ I) (mi_H _ _ _ I) (mi_max _ _ _ I) fr1 O1 G1) as (fr2 & E2 & _). rewrite E2.
  destruct (push_ok (p_used p) (p_realloc p) u (mi_used _ _ _ I) Us) as (us & -> & _).
  pose proof (area_bound W H u (mi_W _ _ _ I) (mi_H _ _ _ I) (proj2 Gp) (proj1 Gp)) as BA. pose proof (mi_max _ _ _ I) as HM.
  rewrite (i32_ok (width u * height u)) by (unfold INT_MIN; lia).
  assert (T : total_area (contents (p_used p) ++ [u]) <= W * H).
  { apply disjoint_area; [apply I|apply I| |].
    - apply Forall_app. split; [apply I|]. constructor; [exact Gp|constructor].
    - apply disjoint_snoc; [eapply good_positive; apply I|apply Gp|apply I|].
      intros v Hv. apply apart_sym. eapply contained_apart; [exact Cp|].
      apply (mi_apart _ _ _ I); [eapply nth_error_In; exact Ef|assumption]. }
  rewrite total_area_app in T. unfold total_area at 2 in T. cbn [fold_right] in T. unfold area in T.
  pose proof (total_area_nonneg _ (good_positive _ _ _ (mi_gu _ _ _ I))).
  rewrite (i32_ok (p_used_area p + _)) by (rewrite (mi_area _ _ _ I); unfold INT_MIN; lia).
  eexists; eexists; reflexivity.
Qed.
