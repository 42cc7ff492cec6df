(** The guillotine packer keeps used and free rects a partition of the bin. *)
From Coq Require Import ZArith List Bool Lia Permutation ZifyBool ZifyNat.
From Verif Require Import Base BinPackModel BinPackSpec BinPackArray.
Import ListNotations.
Local Open Scope Z_scope.

Record ginv (W H : Z) (p : pack) : Prop := GInv {
  gi_W : 0 < W; gi_H : 0 < H; gi_max : W * H <= INT_MAX;
  gi_free : arr_ok (p_free p); gi_used : arr_ok (p_used p);
  gi_cover : forall x y,
    cover (contents (p_used p)) x y + cover (contents (p_free p)) x y = cnt (Rect 0 0 W H) x y;
  gi_pf : Forall positive (contents (p_free p));
  gi_pu : Forall positive (contents (p_used p));
  gi_area : p_used_area p = total_area (contents (p_used p));
  gi_total : total_area (contents (p_used p)) + total_area (contents (p_free p)) = W * H;
  gi_count : (size (p_free p) <= 1 + size (p_used p))%nat }.

Lemma ginv_within_free : forall W H p r, ginv W H p -> In r (contents (p_free p)) -> within W H r.
Proof.
  intros W H p r I Hin. apply within_of_cells.
  - apply (proj1 (Forall_forall _ _) (gi_pf _ _ _ I)). assumption.
  - intros x y C. apply cnt_1_inv. pose proof (gi_cover _ _ _ I x y) as E.
    pose proof (cover_in _ _ _ _ Hin C). pose proof (cover_nonneg (contents (p_used p)) x y).
    pose proof (cnt_01 (Rect 0 0 W H) x y). lia.
Qed.
Lemma ginv_within_used : forall W H p r, ginv W H p -> In r (contents (p_used p)) -> within W H r.
Proof.
  intros W H p r I Hin. apply within_of_cells.
  - apply (proj1 (Forall_forall _ _) (gi_pu _ _ _ I)). assumption.
  - intros x y C. apply cnt_1_inv. pose proof (gi_cover _ _ _ I x y) as E.
    pose proof (cover_in _ _ _ _ Hin C). pose proof (cover_nonneg (contents (p_free p)) x y).
    pose proof (cnt_01 (Rect 0 0 W H) x y). lia.
Qed.
Lemma ginv_disjoint : forall W H p, ginv W H p -> pairwise_disjoint (contents (p_used p) ++ contents (p_free p)).
Proof.
  intros W H p I. apply cover_le1_disjoint. intros x y. rewrite cover_app, (gi_cover _ _ _ I).
  apply cnt_01.
Qed.

Lemma dims_bound : forall W H, 0 < W -> 0 < H -> W * H <= INT_MAX -> W <= INT_MAX /\ H <= INT_MAX.
Proof. intros. nia. Qed.
Lemma area_bound : forall W H r, 0 < W -> 0 < H -> positive r -> within W H r ->
  0 < width r * height r <= W * H.
Proof. intros W H [l t w h] HW HH [P1 P2] (A & B & C & D). cbn [left top width height] in *. nia. Qed.

(** ** Cutting a free rect *)
Definition bottom_of (f r : rect) (hz : bool) : rect :=
  Rect (left f) (top f + height r) (if hz then width f else width r) (height f - height r).
Definition right_of (f r : rect) (hz : bool) : rect :=
  Rect (left f + width r) (top f) (width f - width r) (if hz then height r else height f).

Lemma cut_cells : forall f r hz x y, left r = left f -> top r = top f ->
  0 < width r <= width f -> 0 < height r <= height f ->
  cnt f x y = cnt r x y + cnt (bottom_of f r hz) x y + cnt (right_of f r hz) x y.
Proof.
  intros [fl ft fw fh] [rl rt rw rh] hz x y. unfold cnt, bottom_of, right_of. cbn [left top width height].
  intros -> -> Hw Hh.
  destruct (covers_b (Rect fl ft fw fh) x y) eqn:E1; destruct (covers_b (Rect fl ft rw rh) x y) eqn:E2;
  match goal with |- context [covers_b ?a x y] => destruct (covers_b a x y) eqn:E3 end;
  match goal with |- context [covers_b ?a x y] => destruct (covers_b a x y) eqn:E4 | _ => idtac end;
  unfold covers_b in *; cbn [left top width height] in *; destruct hz; lia.
Qed.
Lemma cut_area : forall f r hz, 
  area f = area r + area (bottom_of f r hz) + area (right_of f r hz).
Proof. intros [fl ft fw fh] [rl rt rw rh] []; unfold area, bottom_of, right_of; cbn [left top width height]; lia. Qed.

Lemma not_positive_cnt : forall r x y, (0 <? width r) && (0 <? height r) = false -> cnt r x y = 0.
Proof. intros r x y E. unfold cnt. destruct (covers_b r x y) eqn:C; [|reflexivity]. unfold covers_b in C. lia. Qed.
Lemma not_positive_area : forall r, 0 <= width r -> 0 <= height r ->
  (0 <? width r) && (0 <? height r) = false -> area r = 0.
Proof. intros r H1 H2 E. unfold area. assert (width r = 0 \/ height r = 0) as [->| ->] by lia; lia. Qed.

Lemma guillotineSplit_ok : forall W H fr re f r sc,
  0 < W -> 0 < H -> W * H <= INT_MAX -> arr_ok fr -> within W H f -> left r = left f -> top r = top f ->
  0 < width r <= width f -> 0 < height r <= height f ->
  re = true \/ (size fr + 2 <= capacity fr)%nat ->
  exists fr' extra, guillotineSplit fr re f r sc = Some fr' /\ contents fr' = contents fr ++ extra /\
    size fr' = (size fr + length extra)%nat /\ (length extra <= 2)%nat /\ arr_ok fr' /\ Forall positive extra /\
    (capacity fr <= capacity fr')%nat /\ (re = false -> capacity fr' = capacity fr) /\
    (forall x y, cnt r x y + cover extra x y = cnt f x y) /\ area r + total_area extra = area f.
Proof.
  intros W H fr re f r sc HW HH HM Ok Wi El Et Hw Hh Cap.
  destruct (dims_bound W H HW HH HM) as [BW BH].
  unfold within in Wi.
  unfold guillotineSplit.
  rewrite (i32_ok (width f - width r)) by (unfold INT_MIN; lia).
  rewrite (i32_ok (height f - height r)) by (unfold INT_MIN; lia).
  assert (Hs : exists hz, guillotineSplitHorizontal f r (width f - width r) (height f - height r) sc = Some hz).
  { unfold guillotineSplitHorizontal. destruct sc; try (eexists; reflexivity);
    rewrite (i32_ok (width r * (height f - height r))) by (unfold INT_MIN; nia);
    rewrite (i32_ok ((width f - width r) * height r)) by (unfold INT_MIN; nia); eexists; reflexivity. }
  destruct Hs as [hz ->].
  rewrite (i32_ok (top f + height r)) by (unfold INT_MIN; lia).
  rewrite (i32_ok (left f + width r)) by (unfold INT_MIN; lia).
  fold (bottom_of f r hz). fold (right_of f r hz).
  pose proof (fun x y => cut_cells f r hz x y El Et Hw Hh) as Cc.
  pose proof (cut_area f r hz) as Ca.
  assert (Nb : 0 <= width (bottom_of f r hz) /\ 0 <= height (bottom_of f r hz)).
  { unfold bottom_of; cbn [width height]; destruct hz; lia. }
  assert (Nr : 0 <= width (right_of f r hz) /\ 0 <= height (right_of f r hz)).
  { unfold right_of; cbn [width height]; destruct hz; lia. }
  set (b := bottom_of f r hz) in *. set (rr := right_of f r hz) in *. clearbody b rr.
  destruct ((0 <? width b) && (0 <? height b)) eqn:Pb.
  - destruct (push_ok fr re b Ok) as (fr1 & E1 & C1 & S1 & Ok1 & K1 & K1'); [destruct Cap; [now left|right; lia]|].
    rewrite E1.
    destruct ((0 <? width rr) && (0 <? height rr)) eqn:Pr.
    + destruct (push_ok fr1 re rr Ok1) as (fr2 & E2 & C2 & S2 & Ok2 & K2 & K2').
      { destruct Cap; [now left|right]. lia. }
      exists fr2, [b; rr]. split; [exact E2|]. split; [rewrite C2, C1, <- app_assoc; reflexivity|].
      cbn [length]. split; [lia|]. split; [lia|]. split; [exact Ok2|].
      split; [repeat constructor; lia|]. split; [lia|].
      split; [intros ->; destruct Cap as [|Cap]; [discriminate|]; rewrite K2' by lia; apply K1'; lia|].
      split; [intros x y; rewrite Cc; unfold cover; cbn [fold_right]; lia|].
      unfold total_area; cbn [fold_right]; lia.
    + exists fr1, [b]. split; [reflexivity|]. split; [exact C1|].
      cbn [length]. split; [lia|]. split; [lia|]. split; [exact Ok1|].
      split; [repeat constructor; lia|]. split; [lia|].
      split; [intros ->; destruct Cap as [|Cap]; [discriminate|]; apply K1'; lia|].
      split; [intros x y; rewrite Cc, (not_positive_cnt rr) by assumption; unfold cover; cbn [fold_right]; lia|].
      unfold total_area; cbn [fold_right]. rewrite (not_positive_area rr) in Ca by (apply Nr || assumption). lia.
  - destruct ((0 <? width rr) && (0 <? height rr)) eqn:Pr.
    + destruct (push_ok fr re rr Ok) as (fr2 & E2 & C2 & S2 & Ok2 & K2 & K2').
      { destruct Cap; [now left|right]. lia. }
      exists fr2, [rr]. split; [exact E2|]. split; [exact C2|].
      cbn [length]. split; [lia|]. split; [lia|]. split; [exact Ok2|].
      split; [repeat constructor; lia|]. split; [lia|].
      split; [intros ->; destruct Cap as [|Cap]; [discriminate|]; apply K2'; lia|].
      split; [intros x y; rewrite Cc, (not_positive_cnt b) by assumption; unfold cover; cbn [fold_right]; lia|].
      unfold total_area; cbn [fold_right]. rewrite (not_positive_area b) in Ca by (apply Nb || assumption). lia.
    + exists fr, []. split; [reflexivity|]. split; [rewrite app_nil_r; reflexivity|].
      cbn [length]. split; [lia|]. split; [lia|]. split; [exact Ok|].
      split; [constructor|]. split; [lia|]. split; [reflexivity|].
      split; [intros x y; rewrite Cc, (not_positive_cnt b), (not_positive_cnt rr) by assumption; unfold cover; cbn [fold_right]; lia|].
      unfold total_area; cbn [fold_right].
      rewrite (not_positive_area b), (not_positive_area rr) in Ca by (apply Nb || apply Nr || assumption). lia.
Qed.

(** ** Inserting *)
Definition fits (w h : Z) (flipped : bool) (f : rect) : Prop :=
  if flipped then h <= width f /\ w <= height f else w <= width f /\ h <= height f.

Definition has_memory (p : pack) (n : nat) : Prop :=
  p_realloc p = true \/
  ((size (p_used p) + n <= capacity (p_used p))%nat /\ (size (p_used p) + n + 1 <= capacity (p_free p))%nat).

Lemma insert_ok : forall W H p w h g f sc, ginv W H p -> 0 < w -> 0 < h ->
  nth_error (contents (p_free p)) (g_index g) = Some f -> fits w h (g_flipped g) f ->
  g_score g <> INVALID_SCORE -> has_memory p 1 ->
  exists p' r, guillotineInsert p w h g sc = Some (p', BPResult r (g_flipped g) true) /\ ginv W H p' /\
    has_dims w h (g_flipped g) r /\ contents (p_used p') = contents (p_used p) ++ [r] /\
    p_realloc p' = p_realloc p /\ p_width p' = p_width p /\ p_height p' = p_height p /\
    (capacity (p_used p) <= capacity (p_used p'))%nat /\ (capacity (p_free p) <= capacity (p_free p'))%nat.
Proof.
  intros W H p w h g f sc I Pw Ph En Ft Sc Mem.
  assert (Wf : within W H f) by (eapply ginv_within_free; [exact I|]; eapply nth_error_In; exact En).
  assert (Pf : positive f).
  { apply (proj1 (Forall_forall _ _) (gi_pf _ _ _ I)). eapply nth_error_In; exact En. }
  assert (Li : (g_index g < size (p_free p))%nat).
  { rewrite <- (contents_length _ (gi_free _ _ _ I)). apply nth_error_Some. congruence. }
  destruct I as [HW HH HM Of Ou Cov Fp Up Ar Tot Cnt]. pose proof (dims_bound W H HW HH HM) as [BW BH].
  unfold guillotineInsert, assert_.
  destruct (Z.eqb_spec (g_score g) INVALID_SCORE); [contradiction|]. cbn [negb].
  unfold binPackRectFromPosition.
  destruct (erase_ok (p_free p) (g_index g) Of Li) as (fr & f' & Er & Ef & Ed & Perm & Sz & Ofr & Cfr).
  assert (f' = f) by congruence. subst f'.
  rewrite Ed, Er.
  set (r := if g_flipped g then Rect (left f) (top f) h w else Rect (left f) (top f) w h).
  assert (R : left r = left f /\ top r = top f /\ 0 < width r <= width f /\ 0 < height r <= height f /\ has_dims w h (g_flipped g) r).
  { unfold r, fits, has_dims in *. destruct (g_flipped g); cbn [left top width height]; repeat split; lia. }
  destruct R as (R1 & R2 & R3 & R4 & R5). clearbody r.
  destruct (guillotineSplit_ok W H fr (p_realloc p) f r sc) as
    (fr' & extra & Es & Ce & Se & Le & Oe & Pe & Ke & Ke' & Cells & Areas); try assumption.
  { destruct Mem as [M|[M1 M2]]; [now left|right]. lia. }
  rewrite Es.
  destruct (push_ok (p_used p) (p_realloc p) r Ou) as (us & Eu & Cu & Su & Oku & Ku & _).
  { destruct Mem as [M|[M1 M2]]; [now left|right; lia]. }
  rewrite Eu.
  assert (Wr : within W H r) by (unfold within in *; lia).
  assert (Pr : positive r) by (split; lia).
  pose proof (area_bound W H r HW HH Pr Wr) as Ab.
  assert (Tf : total_area (contents (p_free p)) = area f + total_area (contents fr)).
  { rewrite (total_area_perm _ _ Perm). reflexivity. }
  assert (Pfr : Forall positive (contents fr)).
  { rewrite Forall_forall. intros z Hz. apply (proj1 (Forall_forall _ _) Fp).
    apply (Permutation_in _ (Permutation_sym Perm)). now right. }
  pose proof (total_area_nonneg _ Pfr). pose proof (total_area_nonneg _ Up). pose proof (total_area_nonneg _ Pe).
  unfold area in Areas.
  rewrite (i32_ok (width r * height r)) by (unfold INT_MIN; lia).
  rewrite (i32_ok (p_used_area p + width r * height r)) by (unfold INT_MIN, area in *; lia).
  eexists _, r. split; [reflexivity|]. cbn [p_used p_free p_realloc p_width p_height p_used_area].
  split.
  - constructor; try assumption; cbn [p_used p_free p_used_area].
    + intros x y. rewrite Cu, Ce, !cover_app. pose proof (Cov x y) as Q.
      rewrite (cover_perm _ _ Perm) in Q. unfold cover in Q at 2. cbn [fold_right] in Q.
      fold (cover (contents fr) x y) in Q. specialize (Cells x y).
      assert (Z1 : cover [r] x y = cnt r x y) by (unfold cover; cbn [fold_right]; lia). lia.
    + rewrite Ce. apply Forall_app. auto.
    + rewrite Cu. apply Forall_app. auto.
    + rewrite Cu, total_area_app. unfold total_area at 2. cbn [fold_right]. unfold area. lia.
    + rewrite Cu, Ce, !total_area_app. unfold total_area at 2. cbn [fold_right]. unfold area in *. lia.
    + lia.
  - repeat split; try assumption. lia.
Qed.

(** ** The choice of a free rect *)
(** Leftover measure of a placement, per rule (lower is better). *)
Definition leftover (c : free_choice) (w h : Z) (f : rect) : Z :=
  match c with
  | BestAreaFit => area f - w * h
  | BestShortSideFit => Z.min (width f - w) (height f - h)
  | BestLongSideFit => Z.max (width f - w) (height f - h)
  end.

Lemma score_ok : forall W H c w h f, 0 < W -> 0 < H -> W * H <= INT_MAX -> within W H f -> positive f ->
  0 < w <= width f -> 0 < h <= height f ->
  guillotineScore c w h f = Some (leftover c w h f) /\ 0 <= leftover c w h f < INVALID_SCORE.
Proof.
  intros W H c w h f HW HH HM Wf Pf Hw Hh. destruct (dims_bound W H HW HH HM) as [BW BH].
  pose proof (area_bound W H f HW HH Pf Wf) as Ab. unfold within in Wf.
  assert (Ar : 0 < w * h <= width f * height f) by nia.
  unfold INVALID_SCORE.
  destruct c; cbn [guillotineScore leftover]; unfold area.
  - rewrite (i32_ok (width f * height f)) by (unfold INT_MIN; lia).
    rewrite (i32_ok (w * h)) by (unfold INT_MIN; lia).
    rewrite i32_ok by (unfold INT_MIN; lia). split; [reflexivity|lia].
  - rewrite (i32_ok (width f - w)), (i32_ok (height f - h)) by (unfold INT_MIN; lia).
    unfold tmbp_abs. replace (width f - w <? 0) with false by lia. replace (height f - h <? 0) with false by lia.
    split; [|lia]. f_equal. destruct (Z.ltb_spec (width f - w) (height f - h)); lia.
  - rewrite (i32_ok (width f - w)), (i32_ok (height f - h)) by (unfold INT_MIN; lia).
    unfold tmbp_abs. replace (width f - w <? 0) with false by lia. replace (height f - h <? 0) with false by lia.
    split; [|lia]. f_equal. destruct (Z.ltb_spec (width f - w) (height f - h)); lia.
Qed.

(** What a choice among the free rects [all] must satisfy. *)
Definition chosen (c : free_choice) (w h : Z) (canFlip : bool) (all : list rect) (g : gresult) : Prop :=
  (g_flipped g = true -> canFlip = true) /\
  ((g_score g = INVALID_SCORE /\ forall f, In f all -> ~ has_room w h canFlip f) \/
   (exists f, nth_error all (g_index g) = Some f /\ fits w h (g_flipped g) f /\ g_score g < INVALID_SCORE /\
      ((g_score g = INT_MIN /\ has_dims w h (g_flipped g) f) \/
       (g_score g = (if g_flipped g then leftover c h w f else leftover c w h f) /\
        forall f', In f' all ->
          (fits w h false f' -> g_score g <= leftover c w h f') /\
          (~ fits w h false f' -> canFlip = true -> fits w h true f' -> g_score g <= leftover c h w f'))))).

Lemma chosen_skip : forall c w h cf pre f g, ~ has_room w h cf f -> chosen c w h cf pre g -> chosen c w h cf (pre ++ [f]) g.
Proof.
  intros c w h cf pre f g Nr [F [[S1 A1]|(f0 & N0 & Ft & S1 & Q)]]; (split; [exact F|]).
  - left. split; [assumption|]. intros z Hz. apply in_app_iff in Hz. destruct Hz as [Hz|[<-|[]]]; auto.
  - right. exists f0. split; [rewrite nth_error_app1; [assumption|apply nth_error_Some; congruence]|].
    split; [assumption|]. split; [assumption|]. destruct Q as [Q|[Q1 Q2]]; [now left|right].
    split; [assumption|]. intros f' Hf. apply in_app_iff in Hf. destruct Hf as [Hf|[<-|[]]]; [auto|].
    unfold has_room, fits in *. split; intros; exfalso; apply Nr; [left|right]; tauto.
Qed.

Lemma chosen_exact : forall c w h cf pre f fs fl, has_dims w h fl f -> (fl = true -> cf = true) ->
  chosen c w h cf (pre ++ f :: fs) (GResult (length pre) INT_MIN fl).
Proof.
  intros c w h cf pre f fs fl D F. split; [exact F|]. right. exists f. cbn [g_index g_score g_flipped].
  split; [rewrite nth_error_app2, Nat.sub_diag by lia; reflexivity|].
  split; [unfold fits, has_dims in *; destruct fl; lia|]. split; [reflexivity|]. left. auto.
Qed.

Lemma chosen_step : forall c w h cf pre f g fl s, chosen c w h cf pre g ->
  fits w h fl f -> (fl = true -> cf = true) -> s < INVALID_SCORE -> 0 <= s ->
  s = (if fl then leftover c h w f else leftover c w h f) -> (fl = true -> ~ fits w h false f) ->
  chosen c w h cf (pre ++ [f]) (if s <? g_score g then GResult (length pre) s fl else g).
Proof.
  intros c w h cf pre f g fl s [F Q] Ft Fl S1 S0 Es Nf.
  destruct (Z.ltb_spec s (g_score g)) as [L|L].
  - split; [exact Fl|]. right. exists f. cbn [g_index g_score g_flipped].
    split; [rewrite nth_error_app2, Nat.sub_diag by lia; reflexivity|].
    split; [assumption|]. split; [assumption|]. right. split; [assumption|].
    intros f' Hf. apply in_app_iff in Hf. destruct Hf as [Hf|[<-|[]]].
    + destruct Q as [[Q1 Q2]|(f0 & N0 & Ft0 & Q1 & [[Q2 _]|[Q2 Q3]])].
      * specialize (Q2 f' Hf). unfold has_room, fits in *. split; intros; exfalso; apply Q2; [left|right]; tauto.
      * unfold INT_MIN in Q2. lia.
      * destruct (Q3 f' Hf) as [Q4 Q5]. split; intros; [specialize (Q4 H)|specialize (Q5 H H0 H1)]; lia.
    + destruct fl; subst s; split; intros; try lia; exfalso; [apply Nf|]; auto.
  - destruct Q as [[Q1 Q2]|(f0 & N0 & Ft0 & Q1 & Q2)].
    + lia.
    + split; [exact F|]. right. exists f0.
      split; [rewrite nth_error_app1; [assumption|apply nth_error_Some; congruence]|].
      split; [assumption|]. split; [assumption|]. destruct Q2 as [Q2|[Q2 Q3]]; [now left|right].
      split; [assumption|]. intros f' Hf. apply in_app_iff in Hf. destruct Hf as [Hf|[<-|[]]]; [auto|].
      destruct fl; subst s; split; intros; try lia; exfalso; [apply Nf|]; auto.
Qed.

Lemma app_snoc : forall A (pre fs : list A) f, (pre ++ [f]) ++ fs = pre ++ f :: fs.
Proof. intros. rewrite <- app_assoc. reflexivity. Qed.
Lemma snoc_length : forall A (pre : list A) f, length (pre ++ [f]) = S (length pre).
Proof. intros. rewrite app_length. cbn. lia. Qed.

Section Choice.
  Variables (W H : Z) (c : free_choice) (w h : Z).
  Hypotheses (HW : 0 < W) (HH : 0 < H) (HM : W * H <= INT_MAX) (Pw : 0 < w) (Ph : 0 < h).
  Definition good_rect (f : rect) : Prop := within W H f /\ positive f.

  Lemma best_ok : forall fs pre g, Forall good_rect fs -> chosen c w h true pre g ->
    exists g', guillotineBest c w h fs (length pre) g = Some g' /\ chosen c w h true (pre ++ fs) g'.
  Proof using All.
    induction fs as [|f fs IH]; intros pre g F C; cbn [guillotineBest].
    - exists g. rewrite app_nil_r. auto.
    - inversion F as [|? ? [Wf Pf] F']; subst. rewrite <- app_snoc, <- (snoc_length _ pre f).
      destruct ((w =? width f) && (h =? height f)) eqn:E1.
      { exists (GResult (length pre) INT_MIN false). split; [reflexivity|]. rewrite app_snoc. apply chosen_exact; [|discriminate].
        unfold has_dims. lia. }
      destruct ((h =? width f) && (w =? height f)) eqn:E2.
      { exists (GResult (length pre) INT_MIN true). split; [reflexivity|]. rewrite app_snoc. apply chosen_exact; [|reflexivity].
        unfold has_dims. lia. }
      destruct ((w <=? width f) && (h <=? height f)) eqn:E3.
      { destruct (score_ok W H c w h f) as [Es Rs]; try assumption; try lia. rewrite Es. apply IH; [assumption|].
        apply chosen_step; try assumption; try lia; try discriminate. unfold fits. lia. }
      destruct ((h <=? width f) && (w <=? height f)) eqn:E4.
      { destruct (score_ok W H c h w f) as [Es Rs]; try assumption; try lia. rewrite Es. apply IH; [assumption|].
        apply chosen_step; try assumption; try lia; try reflexivity; unfold fits; lia. }
      apply IH; [assumption|]. apply chosen_skip; [|assumption]. unfold has_room. lia.
  Qed.

  Lemma best_noflip_ok : forall fs pre g, Forall good_rect fs -> chosen c w h false pre g ->
    exists g', guillotineBestNoFlip c w h fs (length pre) g = Some g' /\ chosen c w h false (pre ++ fs) g'.
  Proof using All.
    induction fs as [|f fs IH]; intros pre g F C; cbn [guillotineBestNoFlip].
    - exists g. rewrite app_nil_r. auto.
    - inversion F as [|? ? [Wf Pf] F']; subst. rewrite <- app_snoc, <- (snoc_length _ pre f).
      destruct ((w =? width f) && (h =? height f)) eqn:E1.
      { exists (GResult (length pre) INT_MIN false). split; [reflexivity|]. rewrite app_snoc. apply chosen_exact; [|discriminate].
        unfold has_dims. lia. }
      destruct ((w <=? width f) && (h <=? height f)) eqn:E3.
      { destruct (score_ok W H c w h f) as [Es Rs]; try assumption; try lia. rewrite Es. apply IH; [assumption|].
        apply chosen_step; try assumption; try lia; try discriminate. unfold fits. lia. }
      apply IH; [assumption|]. apply chosen_skip; [|assumption]. unfold has_room. intros [R|[R _]]; [lia|discriminate].
  Qed.
End Choice.

Lemma choice_ok : forall W H p c w h cf, ginv W H p -> 0 < w -> 0 < h ->
  exists g, guillotineChoice p w h c cf = Some g /\ chosen c w h cf (contents (p_free p)) g.
Proof.
  intros W H p c w h cf I Pw Ph.
  assert (G : Forall (good_rect W H) (contents (p_free p))).
  { rewrite Forall_forall. intros f Hf. split; [eapply ginv_within_free; eassumption|].
    apply (proj1 (Forall_forall _ _) (gi_pf _ _ _ I)). assumption. }
  assert (C0 : chosen c w h cf [] (GResult 0 INVALID_SCORE false)).
  { split; [discriminate|]. left. split; [reflexivity|]. intros f []. }
  unfold guillotineChoice. destruct cf.
  - apply (best_ok W H c w h (gi_W _ _ _ I) (gi_H _ _ _ I) (gi_max _ _ _ I) Pw Ph _ [] _ G C0).
  - apply (best_noflip_ok W H c w h (gi_W _ _ _ I) (gi_H _ _ _ I) (gi_max _ _ _ I) Pw Ph _ [] _ G C0).
Qed.

(** ** Insertion by heuristic *)
Lemma insert_choice_ok : forall W H p w h fc sc cf, ginv W H p -> 0 < w -> 0 < h -> has_memory p 1 ->
  exists p' res, guillotineInsertChoice p w h fc sc cf = Some (p', res) /\ ginv W H p' /\
    p_realloc p' = p_realloc p /\ p_width p' = p_width p /\ p_height p' = p_height p /\
    (capacity (p_used p) <= capacity (p_used p'))%nat /\ (capacity (p_free p) <= capacity (p_free p'))%nat /\
    ((br_placed res = false /\ p' = p /\ forall f, In f (contents (p_free p)) -> ~ has_room w h cf f) \/
     (br_placed res = true /\ (exists f, In f (contents (p_free p)) /\ has_room w h cf f) /\
      has_dims w h (br_flipped res) (br_rect res) /\ (br_flipped res = true -> cf = true) /\
      contents (p_used p') = contents (p_used p) ++ [br_rect res])).
Proof.
  intros W H p w h fc sc cf I Pw Ph Mem. unfold guillotineInsertChoice.
  destruct (choice_ok W H p fc w h cf I Pw Ph) as (g & -> & [F [[S1 A1]|(f & N & Ft & S1 & _)]]).
  - rewrite S1. rewrite Z.eqb_refl. cbn [negb]. exists p, not_placed.
    repeat split; try apply I; try lia. left. auto.
  - destruct (Z.eqb_spec (g_score g) INVALID_SCORE); [lia|]. cbn [negb].
    destruct (insert_ok W H p w h g f sc I Pw Ph N Ft n Mem) as (p' & r & -> & I' & D & U & R1 & R2 & R3 & K1 & K2).
    exists p', (BPResult r (g_flipped g) true). repeat split; try apply I'; try assumption.
    right. cbn [br_placed br_flipped br_rect]. split; [reflexivity|]. split; [|auto].
    exists f. split; [eapply nth_error_In; exact N|].
    unfold has_room, fits in *. destruct (g_flipped g); [right|left]; auto.
Qed.
