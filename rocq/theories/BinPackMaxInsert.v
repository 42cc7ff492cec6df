(** MaxRects: choosing a free rectangle and placing a bin in it. *)
From Coq Require Import ZArith List Bool Lia Permutation ZifyBool ZifyNat.
From Verif Require Import Base BinPackModel BinPackSpec BinPackArray BinPackGuillotine BinPackHistory BinPackMaxRects BinPackPrune.
Import ListNotations.
Local Open Scope Z_scope.

(** ** Area of disjoint rectangles *)
Fixpoint sumN (n : nat) (g : Z -> Z) : Z := match n with O => 0 | S m => sumN m g + g (Z.of_nat m) end.
Definition sum2 (W H : Z) (g : Z -> Z -> Z) : Z := sumN (Z.to_nat W) (fun x => sumN (Z.to_nat H) (fun y => g x y)).

Lemma sumN_ext : forall n g h, (forall k, (k < n)%nat -> g (Z.of_nat k) = h (Z.of_nat k)) -> sumN n g = sumN n h.
Proof. induction n as [|n IH]; intros g h E; cbn [sumN]; [reflexivity|]. rewrite (IH g h), E; auto. Qed.
Lemma sumN_add : forall n g h, sumN n (fun x => g x + h x) = sumN n g + sumN n h.
Proof. induction n as [|n IH]; intros g h; cbn [sumN]; [reflexivity|]. rewrite IH. lia. Qed.
Lemma sumN_scale : forall n c g, sumN n (fun x => g x * c) = sumN n g * c.
Proof. induction n as [|n IH]; intros c g; cbn [sumN]; [reflexivity|]. rewrite IH. lia. Qed.
Lemma sumN_le : forall n g h, (forall k, (k < n)%nat -> g (Z.of_nat k) <= h (Z.of_nat k)) -> sumN n g <= sumN n h.
Proof. induction n as [|n IH]; intros g h L; cbn [sumN]; [lia|]. specialize (IH g h). pose proof (L n). 
  assert (forall k, (k < n)%nat -> g (Z.of_nat k) <= h (Z.of_nat k)) by (intros; apply L; lia).
  specialize (IH H0). specialize (H ltac:(lia)). lia. Qed.
Lemma sumN_const : forall n c, sumN n (fun _ => c) = Z.of_nat n * c.
Proof. induction n as [|n IH]; intros c; cbn [sumN]; [lia|]. rewrite IH. lia. Qed.

Definition ind (a w x : Z) : Z := if (a <=? x) && (x <? a + w) then 1 else 0.
Lemma sumN_ind : forall n a w, 0 <= a -> 0 <= w ->
  sumN n (ind a w) = Z.max 0 (Z.min (Z.of_nat n) (a + w) - a).
Proof.
  induction n as [|n IH]; intros a w Ha Hw; cbn [sumN]; [lia|]. rewrite IH by assumption. unfold ind.
  destruct ((a <=? Z.of_nat n) && (Z.of_nat n <? a + w)) eqn:E; lia.
Qed.

Lemma cnt_ind : forall r x y, cnt r x y = ind (left r) (width r) x * ind (top r) (height r) y.
Proof.
  intros r x y. unfold cnt, covers_b, ind.
  destruct (left r <=? x), (x <? left r + width r), (top r <=? y), (y <? top r + height r); reflexivity.
Qed.

Lemma sum_cnt : forall W H r, good_rect W H r -> sum2 W H (cnt r) = area r.
Proof.
  intros W H r [Wi Po]. unfold within, positive in *. unfold sum2.
  rewrite (sumN_ext _ _ (fun x => ind (left r) (width r) x * height r)).
  - rewrite sumN_scale, sumN_ind by lia. unfold area. f_equal. lia.
  - intros k _. rewrite (sumN_ext _ _ (fun y => ind (top r) (height r) y * ind (left r) (width r) (Z.of_nat k))).
    + rewrite sumN_scale, sumN_ind by lia.
      replace (Z.max 0 (Z.min (Z.of_nat (Z.to_nat H)) (top r + height r) - top r)) with (height r) by lia. lia.
    + intros k' _. rewrite cnt_ind. lia.
Qed.

Lemma sum_cover : forall W H l, Forall (good_rect W H) l -> sum2 W H (cover l) = total_area l.
Proof.
  intros W H. induction l as [|r l IH]; intros F.
  - unfold sum2, cover, total_area. cbn [fold_right].
    rewrite (sumN_ext _ _ (fun _ => 0)); [rewrite sumN_const; lia|]. intros k _. rewrite sumN_const. lia.
  - inversion F as [|? ? G F']; subst.
    change (total_area (r :: l)) with (area r + total_area l). rewrite <- IH by assumption.
    rewrite <- (sum_cnt W H) by assumption. unfold sum2. rewrite <- sumN_add. apply sumN_ext. intros k _.
    rewrite <- sumN_add. apply sumN_ext. intros k' _. reflexivity.
Qed.

Lemma disjoint_cover : forall l x y, pairwise_disjoint l -> cover l x y <= 1.
Proof.
  induction l as [|r l IH]; intros x y D; [cbn; lia|].
  change (cover (r :: l) x y) with (cnt r x y + cover l x y).
  assert (D' : pairwise_disjoint l).
  { intros i j a b N Ea Eb. apply (D (S i) (S j) a b); [lia|exact Ea|exact Eb]. }
  specialize (IH x y D'). pose proof (cnt_01 r x y). pose proof (cover_nonneg l x y).
  destruct (Z.eq_dec (cnt r x y) 1) as [E|E]; [|lia].
  destruct (Z_le_gt_dec 1 (cover l x y)) as [L|L]; [|lia].
  destruct (cover_pos_in l x y L) as (q & Hq & Cq). apply In_nth_error in Hq. destruct Hq as (k & Ek).
  exfalso. apply (D 0%nat (S k) r q); [lia|reflexivity|exact Ek|]. exists x, y.
  split; [now apply cnt_1_inv|assumption].
Qed.

Lemma disjoint_area : forall W H l, 0 < W -> 0 < H -> Forall (good_rect W H) l -> pairwise_disjoint l ->
  total_area l <= W * H.
Proof.
  intros W H l HW HH F D. rewrite <- (sum_cover W H) by assumption. unfold sum2.
  transitivity (sumN (Z.to_nat W) (fun _ => H)).
  - apply sumN_le. intros k _. transitivity (sumN (Z.to_nat H) (fun _ => 1)).
    + apply sumN_le. intros k' _. now apply disjoint_cover.
    + rewrite sumN_const. lia.
  - rewrite sumN_const. lia.
Qed.

(** ** The measure each rule minimises *)
Definition short_side (w h : Z) (f : rect) : Z := Z.min (width f - w) (height f - h).
Definition long_side (w h : Z) (f : rect) : Z := Z.max (width f - w) (height f - h).

(** Length of the common part of two intervals. *)
Definition shared (a b c d : Z) : Z := Z.max 0 (Z.min b d - Z.max a c).
(** Contact of the rectangle [l,r) x [t,b) with a placed one. *)
Definition touch (l t r b : Z) (u : rect) : Z :=
  (if (left u =? r) || (left u + width u =? l) then shared (top u) (top u + height u) t b else 0) +
  (if (top u =? b) || (top u + height u =? t) then shared (left u) (left u + width u) l r else 0).
(** Contact with the sides of the bin and with everything placed. *)
Definition contact (W H : Z) (used : list rect) (l t r b : Z) : Z :=
  (if (l =? 0) || (r =? W) then b - t else 0) + (if (t =? 0) || (b =? H) then r - l else 0) +
  fold_right (fun u acc => touch l t r b u + acc) 0 used.

Definition measure (c : mr_choice) (W H : Z) (used : list rect) (w h : Z) (f : rect) : Z * Z :=
  match c with
  | MRShortSide => (short_side w h f, long_side w h f)
  | MRLongSide => (long_side w h f, short_side w h f)
  | MRArea => (area f - w * h, short_side w h f)
  | MRBottomLeft => (top f + h, left f)
  | MRContact => (- contact W H used (left f) (top f) (left f + w) (top f + h), 0)
  end.

Definition lexlt (a b : Z * Z) : Prop := fst a < fst b \/ (fst a = fst b /\ snd a < snd b).
Definition lexle (a b : Z * Z) : Prop := fst a < fst b \/ (fst a = fst b /\ snd a <= snd b).

Definition mr_key (c : mr_choice) (s0 s1 : Z) : Z * Z :=
  match c with MRLongSide => (s1, s0) | MRContact => (s0, 0) | _ => (s0, s1) end.

Lemma mr_better_iff : forall c s res,
  mr_better c s res = true <-> lexlt (mr_key c (fst s) (snd s)) (mr_key c (m_s0 res) (m_s1 res)).
Proof. intros c [s0 s1] res. unfold mr_better, lexlt, mr_key. destruct c; cbn [fst snd]; lia. Qed.

Lemma commonInterval_val : forall a b c d v, a < b -> c < d -> commonInterval a b c d = Some v -> v = shared a b c d.
Proof.
  intros a b c d v L1 L2 E. unfold commonInterval, shared in *.
  destruct ((b <? c) || (d <? a)) eqn:B.
  - injection E as <-. lia.
  - apply i32_some in E. destruct E as [-> _].
    destruct (Z.ltb_spec b d), (Z.ltb_spec a c); lia.
Qed.

Lemma contact_loop_val : forall us l t r b score v, Forall positive us -> l < r -> t < b ->
  contact_loop us l t r b score = Some v -> v = score + fold_right (fun u acc => touch l t r b u + acc) 0 us.
Proof.
  induction us as [|u us IH]; intros l t r b score v F L1 L2 E; cbn [contact_loop fold_right] in *.
  - injection E as <-. lia.
  - inversion F as [|? ? [P1 P2] F']; subst.
    destruct (i32 (left u + width u)) as [ur|] eqn:E1; [|discriminate]. apply i32_some in E1. destruct E1 as [-> _].
    destruct (i32 (top u + height u)) as [ub|] eqn:E2; [|discriminate]. apply i32_some in E2. destruct E2 as [-> _].
    unfold touch at 1.
    assert (S1 : exists s1, (if (left u =? r) || (left u + width u =? l)
       then c <- commonInterval (top u) (top u + height u) t b ;; i32 (score + c) else Some score) = Some s1).
    { match type of E with match ?x with _ => _ end = _ => destruct x as [s1|]; [exists s1; reflexivity|discriminate] end. }
    destruct S1 as [s1 S1]. rewrite S1 in E.
    assert (V1 : s1 = score + (if (left u =? r) || (left u + width u =? l) then shared (top u) (top u + height u) t b else 0)).
    { destruct ((left u =? r) || (left u + width u =? l)); [|injection S1 as <-; lia].
      destruct (commonInterval (top u) (top u + height u) t b) as [c|] eqn:Ec; [|discriminate].
      apply commonInterval_val in Ec; [|lia|lia]. apply i32_some in S1. lia. }
    assert (S2 : exists s2, (if (top u =? b) || (top u + height u =? t)
       then c <- commonInterval (left u) (left u + width u) l r ;; i32 (s1 + c) else Some s1) = Some s2).
    { match type of E with match ?x with _ => _ end = _ => destruct x as [s2|]; [exists s2; reflexivity|discriminate] end. }
    destruct S2 as [s2 S2]. rewrite S2 in E.
    assert (V2 : s2 = s1 + (if (top u =? b) || (top u + height u =? t) then shared (left u) (left u + width u) l r else 0)).
    { destruct ((top u =? b) || (top u + height u =? t)); [|injection S2 as <-; lia].
      destruct (commonInterval (left u) (left u + width u) l r) as [c|] eqn:Ec; [|discriminate].
      apply commonInterval_val in Ec; [|lia|lia]. apply i32_some in S2. lia. }
    apply IH in E; try assumption. lia.
Qed.

Lemma touch_nonneg : forall l t r b u, 0 <= touch l t r b u.
Proof. intros. unfold touch, shared. destruct (_ || _), (_ || _); lia. Qed.
Lemma touches_nonneg : forall us l t r b, 0 <= fold_right (fun u acc => touch l t r b u + acc) 0 us.
Proof. induction us as [|u us IH]; intros; cbn [fold_right]; [lia|]. pose proof (touch_nonneg l t r b u). specialize (IH l t r b). lia. Qed.

Lemma contact_val : forall p l t r b v, Forall positive (contents (p_used p)) -> l < r -> t < b ->
  contactPointScore p l t r b = Some v ->
  v = contact (p_width p) (p_height p) (contents (p_used p)) l t r b /\ 0 <= v.
Proof.
  intros p l t r b v F L1 L2 E. unfold contactPointScore in E.
  assert (Q : v = contact (p_width p) (p_height p) (contents (p_used p)) l t r b).
  { unfold contact.
    destruct ((l =? 0) || (r =? p_width p)).
    - destruct (i32 (b - t)) as [s1|] eqn:E1; [|discriminate]. apply i32_some in E1.
      destruct ((t =? 0) || (b =? p_height p)).
      + destruct (i32 (r - l)) as [d|] eqn:E2; [|discriminate]. apply i32_some in E2.
        destruct (i32 (s1 + d)) as [s2|] eqn:E3; [|discriminate]. apply i32_some in E3.
        apply contact_loop_val in E; try assumption; lia.
      + apply contact_loop_val in E; try assumption; lia.
    - destruct ((t =? 0) || (b =? p_height p)).
      + destruct (i32 (r - l)) as [d|] eqn:E2; [|discriminate]. apply i32_some in E2.
        destruct (i32 (0 + d)) as [s2|] eqn:E3; [|discriminate]. apply i32_some in E3.
        apply contact_loop_val in E; try assumption; lia.
      + apply contact_loop_val in E; try assumption; lia. }
  split; [exact Q|]. rewrite Q. unfold contact. pose proof (touches_nonneg (contents (p_used p)) l t r b).
  destruct (_ || _), (_ || _); lia.
Qed.

Lemma tmbp_abs_nonneg : forall v, 0 <= v -> tmbp_abs v = Some v.
Proof. intros v L. unfold tmbp_abs. destruct (Z.ltb_spec v 0); [lia|reflexivity]. Qed.

Lemma mr_scores_val : forall c p W H w h f s, 0 < W -> 0 < H -> W * H <= INT_MAX -> Forall positive (contents (p_used p)) ->
  good_rect W H f -> 0 < w <= width f -> 0 < h <= height f -> mr_scores c p w h f = Some s ->
  mr_key c (fst s) (snd s) = measure c (p_width p) (p_height p) (contents (p_used p)) w h f /\
  lexlt (mr_key c (fst s) (snd s)) (mr_key c INVALID_SCORE INVALID_SCORE).
Proof.
  intros c p W H w h f s HW HH HM F [Wf Pf] Hw Hh E.
  destruct (dims_bound W H HW HH HM) as [BW BH].
  pose proof (area_bound W H f HW HH Pf Wf) as BA.
  unfold within, positive in *. unfold INVALID_SCORE, lexlt, measure, short_side, long_side.
  destruct c; cbn [mr_scores] in E.
  1,2,3: rewrite (i32_ok (width f - w)), (i32_ok (height f - h)), !tmbp_abs_nonneg in E
    by (unfold INT_MIN, INT_MAX in *; lia).
  - injection E as <-. cbn [mr_key fst snd].
    split; [f_equal|]; destruct (Z.ltb_spec (width f - w) (height f - h)); lia.
  - injection E as <-. cbn [mr_key fst snd].
    split; [f_equal|]; destruct (Z.ltb_spec (width f - w) (height f - h)); lia.
  - destruct (i32 (width f * height f)) as [fa|] eqn:E1; [|discriminate]. apply i32_some in E1.
    destruct (i32 (w * h)) as [a|] eqn:E2; [|discriminate]. apply i32_some in E2.
    destruct (i32 (fa - a)) as [d|] eqn:E3; [|discriminate]. apply i32_some in E3.
    injection E as <-. cbn [mr_key fst snd]. unfold area.
    split; [f_equal; [lia|destruct (Z.ltb_spec (width f - w) (height f - h)); lia]|].
    assert (0 < w * h) by nia. lia.
  - destruct (i32 (top f + h)) as [t|] eqn:E1; [|discriminate]. apply i32_some in E1.
    injection E as <-. cbn [mr_key fst snd]. split; [f_equal; lia|]. lia.
  - destruct (i32 (left f + w)) as [r|] eqn:E1; [|discriminate]. apply i32_some in E1. destruct E1 as [-> _].
    destruct (i32 (top f + h)) as [b|] eqn:E2; [|discriminate]. apply i32_some in E2. destruct E2 as [-> _].
    destruct (contactPointScore p (left f) (top f) (left f + w) (top f + h)) as [v|] eqn:E3; [|discriminate].
    apply contact_val in E3; [|assumption|lia|lia]. destruct E3 as [Ev Nv].
    destruct (i32 (- v)) as [m|] eqn:E4; [|discriminate]. apply i32_some in E4.
    injection E as <-. cbn [mr_key fst snd]. split; [f_equal; lia|]. unfold INT_MAX. lia.
Qed.

(** ** The choice *)
Definition cand (w h : Z) (cf : bool) (f : rect) (fl : bool) : Prop := fits w h fl f /\ (fl = true -> cf = true).
Definition gain (c : mr_choice) (p : pack) (w h : Z) (f : rect) (fl : bool) : Z * Z :=
  measure c (p_width p) (p_height p) (contents (p_used p)) (if fl then h else w) (if fl then w else h) f.

Section Choice.
  Variables (W H : Z) (c : mr_choice) (p : pack) (w h : Z) (cf : bool) (all : list rect).
  Hypothesis (HW : 0 < W) (HH : 0 < H) (HM : W * H <= INT_MAX) (Hw : 0 < w) (Hh : 0 < h)
    (Fu : Forall positive (contents (p_used p))) (Ga : Forall (good_rect W H) all).

  Definition selected (seen : nat -> bool -> Prop) (res : mresult) : Prop :=
    (m_s0 res = INVALID_SCORE /\ m_s1 res = INVALID_SCORE /\
       forall k f fl, seen k fl -> nth_error all k = Some f -> ~ cand w h cf f fl) \/
    (exists f, nth_error all (m_index res) = Some f /\ cand w h cf f (m_flipped res) /\
       mr_key c (m_s0 res) (m_s1 res) = gain c p w h f (m_flipped res) /\
       lexlt (mr_key c (m_s0 res) (m_s1 res)) (mr_key c INVALID_SCORE INVALID_SCORE) /\
       forall k f' fl', seen k fl' -> nth_error all k = Some f' -> cand w h cf f' fl' ->
         lexle (mr_key c (m_s0 res) (m_s1 res)) (gain c p w h f' fl')).

  Lemma lexlt_valid : forall res, lexlt (mr_key c (m_s0 res) (m_s1 res)) (mr_key c INVALID_SCORE INVALID_SCORE) ->
    mr_valid res = true.
  Proof using.
    intros res L. unfold mr_valid, lexlt, mr_key in *. destruct c; cbn [fst snd] in L; lia.
  Qed.

  Lemma try_selected : forall seen i f fl res res', nth_error all i = Some f -> (fl = true -> cf = true) ->
    selected seen res -> mr_try c p (if fl then h else w) (if fl then w else h) f i fl res = Some res' ->
    selected (fun k b => seen k b \/ (k = i /\ b = fl)) res'.
  Proof using All.
    intros seen i f fl res res' Ef Fl Se E. unfold mr_try in E.
    assert (Gf : good_rect W H f) by (apply (proj1 (Forall_forall _ _) Ga); eapply nth_error_In; exact Ef).
    assert (Fi : ((if fl then h else w) <=? width f) && ((if fl then w else h) <=? height f) = true <-> fits w h fl f).
    { unfold fits. destruct fl; lia. }
    destruct (((if fl then h else w) <=? width f) && ((if fl then w else h) <=? height f)) eqn:B.
    - assert (Ft : fits w h fl f) by (apply Fi; reflexivity).
      destruct (mr_scores c p (if fl then h else w) (if fl then w else h) f) as [s|] eqn:Es; [|discriminate].
      injection E as <-.
      apply (mr_scores_val c p W H) in Es; try assumption; [|destruct fl; lia|destruct fl; lia].
      destruct Es as [Ek Ev]. fold (gain c p w h f fl) in Ek.
      destruct (mr_better c s res) eqn:Eb.
      + apply mr_better_iff in Eb. right. exists f. cbn [m_index m_flipped m_s0 m_s1].
        split; [assumption|]. split; [split; assumption|]. split; [assumption|]. split; [assumption|].
        intros k f' fl' [Sk|[-> ->]] Ef' Ca.
        * destruct Se as [(_ & _ & N)|(f0 & _ & _ & _ & _ & Opt)]; [exfalso; eapply N; eassumption|].
          specialize (Opt k f' fl' Sk Ef' Ca). unfold lexlt, lexle in *. lia.
        * assert (f' = f) by congruence. subst f'. rewrite Ek. unfold lexle. lia.
      + assert (Nb : ~ lexlt (mr_key c (fst s) (snd s)) (mr_key c (m_s0 res) (m_s1 res))).
        { intros Q. apply mr_better_iff in Q. congruence. }
        destruct Se as [(I0 & I1 & N)|(f0 & E0 & C0 & K0 & V0 & Opt)].
        * exfalso. apply Nb. rewrite I0, I1. exact Ev.
        * right. exists f0. split; [assumption|]. split; [assumption|]. split; [assumption|]. split; [assumption|].
          intros k f' fl' [Sk|[-> ->]] Ef' Ca; [eapply Opt; eassumption|].
          assert (f' = f) by congruence. subst f'. rewrite <- Ek. unfold lexlt, lexle in *. lia.
    - injection E as <-. assert (Nf : ~ fits w h fl f) by (intros Q; apply Fi in Q; discriminate).
      destruct Se as [(I0 & I1 & N)|(f0 & E0 & C0 & K0 & V0 & Opt)].
      + left. split; [assumption|]. split; [assumption|].
        intros k f' fl' [Sk|[-> ->]] Ef' Ca; [eapply N; eassumption|].
        assert (f' = f) by congruence. subst f'. apply Nf. apply Ca.
      + right. exists f0. split; [assumption|]. split; [assumption|]. split; [assumption|]. split; [assumption|].
        intros k f' fl' [Sk|[-> ->]] Ef' Ca; [eapply Opt; eassumption|].
        assert (f' = f) by congruence. subst f'. exfalso. apply Nf. apply Ca.
  Qed.

  Lemma selected_weaken : forall (s1 s2 : nat -> bool -> Prop) res,
    (forall k f fl, s2 k fl -> nth_error all k = Some f -> cand w h cf f fl -> s1 k fl) -> selected s1 res -> selected s2 res.
  Proof using.
    intros s1 s2 res I [(A & B & N)|(f & A & B & C & D & O)].
    - left. split; [assumption|]. split; [assumption|]. intros k f fl S E Ca. apply (N k f fl); try assumption. eapply I; eassumption.
    - right. exists f. split; [assumption|]. split; [assumption|]. split; [assumption|]. split; [assumption|].
      intros k f' fl' S E Ca. apply (O k); try assumption. eapply I; eassumption.
  Qed.

  Lemma best_selected : forall fs pre res res', all = pre ++ fs ->
    selected (fun k _ => (k < length pre)%nat) res -> mr_best c cf p w h fs (length pre) res = Some res' ->
    selected (fun _ _ => True) res'.
  Proof using All.
    induction fs as [|f fs IH]; intros pre res res' Ea Se E; cbn [mr_best] in E.
    - injection E as <-. eapply selected_weaken; [|exact Se]. intros k f fl _ En _.
      rewrite app_nil_r in Ea. subst pre. apply nth_error_Some. congruence.
    - match type of E with match ?x with _ => _ end = _ => destruct x; [|discriminate] end.
      destruct (mr_try c p w h f (length pre) false res) as [r1|] eqn:E1; [|discriminate].
      assert (Ef : nth_error all (length pre) = Some f) by (rewrite Ea; apply nth_error_prefix).
      pose proof (try_selected _ (length pre) f false res r1 Ef ltac:(discriminate) Se E1) as S1.
      assert (S2 : exists r2, (if cf then mr_try c p h w f (length pre) true r1 else Some r1) = Some r2 /\
        selected (fun k _ => (k < S (length pre))%nat) r2).
      { assert (E' := E). destruct (Bool.bool_dec cf true) as [Ecf|Ecf].
        - rewrite Ecf in E' |- *.
          destruct (mr_try c p h w f (length pre) true r1) as [r2|] eqn:E2; [|discriminate E'].
          exists r2. split; [reflexivity|].
          pose proof (try_selected (fun k b => (k < length pre)%nat \/ (k = length pre /\ b = false))
            (length pre) f true r1 r2 Ef (fun _ => Ecf) S1 E2) as S3.
          eapply selected_weaken; [|exact S3]. intros k f' fl Hk _ _. cbn.
          destruct (Nat.eq_dec k (length pre)) as [->|Ne]; [destruct fl; tauto|left; left; lia].
        - apply not_true_is_false in Ecf. rewrite Ecf. exists r1. split; [reflexivity|].
          eapply selected_weaken; [|exact S1]. intros k f' fl Hk _ [_ Ca]. cbn.
          destruct (Nat.eq_dec k (length pre)) as [->|Ne]; [|left; lia].
          right. split; [reflexivity|]. destruct fl; [|reflexivity]. exfalso. specialize (Ca eq_refl). congruence. }
      destruct S2 as (r2 & Er2 & S2). rewrite Er2 in E.
      apply (IH (pre ++ [f]) r2 res').
      + rewrite app_snoc. exact Ea.
      + rewrite snoc_length. exact S2.
      + rewrite snoc_length. exact E.
  Qed.
End Choice.

Lemma mr_choice_ok : forall W H c p w h cf res, 0 < W -> 0 < H -> W * H <= INT_MAX -> 0 < w -> 0 < h ->
  Forall positive (contents (p_used p)) -> Forall (good_rect W H) (contents (p_free p)) ->
  maxRectsChoice p w h c cf = Some res ->
  (mr_valid res = false /\ forall f, In f (contents (p_free p)) -> ~ has_room w h cf f) \/
  (mr_valid res = true /\ exists f, nth_error (contents (p_free p)) (m_index res) = Some f /\
     cand w h cf f (m_flipped res) /\
     forall f' fl', In f' (contents (p_free p)) -> cand w h cf f' fl' ->
       lexle (gain c p w h f (m_flipped res)) (gain c p w h f' fl')).
Proof.
  intros W H c p w h cf res HW HH HM Hw Hh Fu Ga E. unfold maxRectsChoice in E.
  pose proof (best_selected W H c p w h cf (contents (p_free p)) HW HH HM Hw Hh Fu Ga (contents (p_free p)) []
    (MResult 0 INVALID_SCORE INVALID_SCORE false) res eq_refl) as S.
  destruct S as [(I0 & I1 & N)|(f & E0 & C0 & K0 & V0 & Opt)].
  - left. split; [reflexivity|]. split; [reflexivity|]. intros k f fl Hk. cbn in Hk. lia.
  - exact E.
  - left. split; [unfold mr_valid; rewrite I0, I1; reflexivity|]. intros f Hf R.
    apply In_nth_error in Hf. destruct Hf as (k & Ek).
    destruct R as [R|[Ec R]].
    + apply (N k f false Logic.I Ek). split; [exact R|discriminate].
    + apply (N k f true Logic.I Ek). split; [exact R|intros _; exact Ec].
  - right. split; [eapply lexlt_valid; exact V0|]. exists f. split; [assumption|]. split; [assumption|].
    intros f' fl' Hf Ca. apply In_nth_error in Hf. destruct Hf as (k & Ek). rewrite <- K0. exact (Opt k f' fl' Logic.I Ek Ca).
Qed.

(** ** The invariant of MaxRects packs *)
Record minv (W H : Z) (p : pack) : Prop := MInv {
  mi_W : 0 < W; mi_H : 0 < H; mi_max : W * H <= INT_MAX;
  mi_free : arr_ok (p_free p); mi_used : arr_ok (p_used p);
  mi_gf : Forall (good_rect W H) (contents (p_free p));
  mi_gu : Forall (good_rect W H) (contents (p_used p));
  mi_disj : pairwise_disjoint (contents (p_used p));
  mi_apart : forall f u, In f (contents (p_free p)) -> In u (contents (p_used p)) -> apart f u;
  mi_complete : forall s, positive s -> within W H s -> (forall u, In u (contents (p_used p)) -> apart s u) ->
    exists f, In f (contents (p_free p)) /\ contained s f;
  mi_anti : antichain (contents (p_free p));
  mi_area : p_used_area p = total_area (contents (p_used p)) }.

Lemma disjoint_snoc : forall l u, Forall positive l -> positive u -> pairwise_disjoint l ->
  (forall r, In r l -> apart r u) -> pairwise_disjoint (l ++ [u]).
Proof.
  intros l u Fl Pu D A i j a b N Ea Eb.
  assert (Q : forall k r, nth_error (l ++ [u]) k = Some r -> (k < length l /\ nth_error l k = Some r)%nat \/ (k = length l /\ r = u)).
  { intros k r E. destruct (Nat.lt_ge_cases k (length l)) as [B|B].
    - rewrite nth_error_app1 in E by assumption. auto.
    - rewrite nth_error_app2 in E by assumption. right. destruct (k - length l)%nat as [|m] eqn:Em.
      + cbn in E. injection E as <-. split; [lia|reflexivity].
      + cbn in E. destruct m; discriminate. }
  rewrite Forall_forall in Fl.
  destruct (Q i a Ea) as [[B1 E1]|[B1 ->]]; destruct (Q j b Eb) as [[B2 E2]|[B2 ->]].
  - apply (D i j); assumption.
  - apply apart_iff; [apply Fl; eapply nth_error_In; exact E1|assumption|]. apply A. eapply nth_error_In; exact E1.
  - apply apart_iff; [assumption|apply Fl; eapply nth_error_In; exact E2|]. apply apart_sym, A. eapply nth_error_In; exact E2.
  - lia.
Qed.

Lemma good_positive : forall W H l, Forall (good_rect W H) l -> Forall positive l.
Proof. intros W H l F. rewrite Forall_forall in *. intros r Hr. apply (F r Hr). Qed.

Definition place (w h : Z) (fl : bool) (f : rect) : rect :=
  if fl then Rect (left f) (top f) h w else Rect (left f) (top f) w h.

(** What the insertion needs: the chosen free rectangle is larger than the bin, or it is the last one. *)
Definition roomy (p : pack) (w h : Z) (choice : mresult) (f : rect) : Prop :=
  ~ has_dims w h (m_flipped choice) f \/ S (m_index choice) = size (p_free p).

Lemma place_good : forall W H w h fl f, good_rect W H f -> 0 < w -> 0 < h -> fits w h fl f ->
  good_rect W H (place w h fl f) /\ contained (place w h fl f) f /\ has_dims w h fl (place w h fl f).
Proof.
  intros W H w h fl f [Wf Pf] Hw Hh Ft. unfold place, fits, good_rect, within, positive, contained, has_dims in *.
  destruct fl; cbn [left top width height]; lia.
Qed.

Lemma loop_start : forall W H u p, minv W H p -> loop_inv W H u (contents (p_free p)) 0 (p_free p).
Proof.
  intros W H u p I. assert (L := contents_length _ (mi_free _ _ _ I)). constructor.
  - apply I.
  - left. lia.
  - reflexivity.
  - intros k r E B. assert (k < length (contents (p_free p)))%nat by (apply nth_error_Some; congruence). lia.
  - intros k f s B. lia.
Qed.

Lemma roomy_last : forall W H p w h choice f, minv W H p -> 0 < w -> 0 < h ->
  nth_error (contents (p_free p)) (m_index choice) = Some f -> fits w h (m_flipped choice) f -> roomy p w h choice f ->
  forall k g, nth_error (contents (p_free p)) k = Some g -> contained g (place w h (m_flipped choice) f) ->
    S k = length (contents (p_free p)).
Proof.
  intros W H p w h choice f I Hw Hh Ef Ft Ro k g Eg Cg.
  assert (Gf : good_rect W H f) by (apply (proj1 (Forall_forall _ _) (mi_gf _ _ _ I)); eapply nth_error_In; exact Ef).
  destruct (place_good W H w h (m_flipped choice) f Gf Hw Hh Ft) as (Gu & Cu & Du).
  rewrite (contents_length _ (mi_free _ _ _ I)).
  destruct (Nat.eq_dec k (m_index choice)) as [->|Ne].
  - assert (g = f) by congruence. subst g. destruct Ro as [Ro|Ro]; [|assumption].
    exfalso. apply Ro. unfold contained, has_dims in *. destruct (m_flipped choice); lia.
  - exfalso. apply (mi_anti _ _ _ I k (m_index choice) g f Ne Eg Ef). eapply contained_trans; eassumption.
Qed.

Lemma mr_insert_ok : forall W H p w h choice f p' res, minv W H p -> 0 < w -> 0 < h ->
  nth_error (contents (p_free p)) (m_index choice) = Some f -> fits w h (m_flipped choice) f -> roomy p w h choice f ->
  maxRectsInsert p w h choice = Some (p', res) ->
  minv W H p' /\ res = BPResult (place w h (m_flipped choice) f) (m_flipped choice) true /\
  contents (p_used p') = contents (p_used p) ++ [br_rect res] /\
  p_width p' = p_width p /\ p_height p' = p_height p /\ p_realloc p' = p_realloc p.
Proof.
  intros W H p w h choice f p' res I Hw Hh Ef Ft Ro E.
  pose proof (roomy_last W H p w h choice f I Hw Hh Ef Ft Ro) as La.
  pose proof (loop_start W H (place w h (m_flipped choice) f) p I) as L0.
  destruct I as [HW HH HM Of Ou Gf Gu Di Ap Co An Ar].
  assert (Gff : good_rect W H f) by (apply (proj1 (Forall_forall _ _) Gf); eapply nth_error_In; exact Ef).
  destruct (place_good W H w h (m_flipped choice) f Gff Hw Hh Ft) as (Gp & Cp & Dp).
  unfold maxRectsInsert, assert_ in E. destruct (mr_valid choice); [|discriminate].
  unfold binPackRectFromPosition in E.
  assert (Bi : (m_index choice < size (p_free p))%nat).
  { rewrite <- (contents_length _ Of). apply nth_error_Some. congruence. }
  rewrite <- nth_contents, Ef in E by assumption.
  change (if m_flipped choice then Rect (left f) (top f) h w else Rect (left f) (top f) w h)
    with (place w h (m_flipped choice) f) in E.
  set (u := place w h (m_flipped choice) f) in *.
  destruct (mr_split_loop (size (p_free p)) (capacity (p_free p)) (p_free p) (p_realloc p) u 0) as [fr1|] eqn:E1; [|discriminate].
  assert (L1 : loop_inv W H u (contents (p_free p)) (length (contents (p_free p))) fr1).
  { eapply (loop_ok W H u (contents (p_free p)) HW HH HM Gp Gf La (size (p_free p)) 0); [|exact L0|exact E1].
    rewrite (contents_length _ Of). lia. }
  destruct L1 as [O1 _ _ Do1 Co1].
  assert (Fi : forall r, In r (contents fr1) -> fine W H u (contents (p_free p)) r).
  { intros r Hr. apply In_nth_error in Hr. destruct Hr as (k & Ek). apply (Do1 k r Ek). lia. }
  assert (G1 : Forall (good_rect W H) (contents fr1)).
  { rewrite Forall_forall. intros r Hr. apply (Fi r Hr). }
  destruct (prune_ok W H HW HH HM fr1 O1 G1) as (fr2 & E2 & [A1 A2 A3 A4 A5 A6 A7] & An2). rewrite E2 in E.
  destruct (tmbp_push (p_used p) (p_realloc p) u) as [us|] eqn:E3; [|discriminate].
  destruct (push_inv _ _ _ _ Ou E3) as (C3 & S3 & O3 & _).
  destruct (i32 (width u * height u)) as [ar|] eqn:E4; [|discriminate]. apply i32_some in E4.
  destruct (i32 (p_used_area p + ar)) as [tot|] eqn:E5; [|discriminate]. apply i32_some in E5.
  injection E as <- <-. cbn [br_rect p_used p_width p_height p_realloc].
  split; [|auto].
  assert (Au : forall v, In v (contents (p_used p)) -> apart v u).
  { intros v Hv. apply apart_sym. eapply contained_apart; [exact Cp|]. apply Ap; [eapply nth_error_In; exact Ef|assumption]. }
  constructor; cbn [p_free p_used p_used_area]; try assumption.
  - rewrite Forall_forall in *. intros r Hr. apply G1. now apply A6.
  - rewrite C3. apply Forall_app. split; [assumption|]. constructor; [assumption|constructor].
  - rewrite C3. apply disjoint_snoc; [eapply good_positive; exact Gu|apply Gp|assumption|assumption].
  - intros g v Hg Hv. rewrite C3 in Hv. apply in_app_iff in Hv. destruct (Fi g (A6 g Hg)) as (_ & Q1 & (f0 & Hf0 & Cf0)).
    destruct Hv as [Hv|[<-|[]]]; [|assumption]. eapply contained_apart; [exact Cf0|]. apply Ap; assumption.
  - intros s Ps Ws As. rewrite C3 in As.
    destruct (Co s Ps Ws) as (f0 & Hf0 & Cf0).
    { intros v Hv. apply As. apply in_app_iff. now left. }
    apply In_nth_error in Hf0. destruct Hf0 as (k & Ek).
    destruct (Co1 k f0 s) as (k' & r & _ & Er & Cr); try assumption.
    + apply nth_error_Some. congruence.
    + apply As. apply in_app_iff. right. now left.
    + destruct (A7 r) as (r' & Hr' & Cr'); [eapply nth_error_In; exact Er|].
      exists r'. split; [assumption|]. eapply contained_trans; eassumption.
  - rewrite C3, total_area_app. unfold total_area at 2. cbn [fold_right]. unfold area. lia.
Qed.
