(** Merging, batch insertion and histories of the guillotine packer. *)
From Coq Require Import ZArith List Bool Lia Permutation ZifyBool ZifyNat.
From Verif Require Import Base BinPackModel BinPackSpec BinPackArray BinPackGuillotine.
Import ListNotations.
Local Open Scope Z_scope.

(** ** Merging *)
Ltac cells :=
  match goal with |- ?goal => 
    repeat match goal with |- context [covers_b ?a ?x ?y] => destruct (covers_b a x y) eqn:? end;
    unfold covers_b in *; cbn [left top width height] in *; lia
  end.

Lemma merge_pair_ok : forall W H a b, 0 < W -> 0 < H -> W * H <= INT_MAX ->
  good_rect W H a -> good_rect W H b ->
  exists m, merge_pair a b = Some m /\
    forall a', m = Some a' -> good_rect W H a' /\ (forall x y, cnt a' x y = cnt a x y + cnt b x y) /\
      area a' = area a + area b.
Proof.
  intros W H [al at_ aw ah] [bl bt bw bh] HW HH HM [Wa Pa] [Wb Pb].
  destruct (dims_bound W H HW HH HM) as [BW BH].
  unfold within, positive, merge_pair in *. cbn [left top width height] in *.
  destruct ((al =? bl) && (aw =? bw)) eqn:E1.
  - rewrite (i32_ok (bt + bh)) by (unfold INT_MIN; lia).
    destruct (Z.eqb_spec at_ (bt + bh)) as [E2|E2].
    + rewrite (i32_ok (at_ - bh)), (i32_ok (ah + bh)) by (unfold INT_MIN; lia).
      eexists. split; [reflexivity|]. intros a' [= <-].
      split; [unfold good_rect, within, positive; cbn [left top width height]; lia|].
      split; [intros x y; unfold cnt; cells|unfold area; cbn [width height]; nia].
    + rewrite (i32_ok (at_ + ah)) by (unfold INT_MIN; lia).
      destruct (Z.eqb_spec (at_ + ah) bt) as [E3|E3].
      * rewrite (i32_ok (ah + bh)) by (unfold INT_MIN; lia).
        eexists. split; [reflexivity|]. intros a' [= <-].
        split; [unfold good_rect, within, positive; cbn [left top width height]; lia|].
        split; [intros x y; unfold cnt; cells|unfold area; cbn [width height]; nia].
      * eexists. split; [reflexivity|]. discriminate.
  - destruct ((at_ =? bt) && (ah =? bh)) eqn:E4; [|eexists; split; [reflexivity|discriminate]].
    rewrite (i32_ok (bl + bw)) by (unfold INT_MIN; lia).
    destruct (Z.eqb_spec al (bl + bw)) as [E2|E2].
    + rewrite (i32_ok (al - bw)), (i32_ok (aw + bw)) by (unfold INT_MIN; lia).
      eexists. split; [reflexivity|]. intros a' [= <-].
      split; [unfold good_rect, within, positive; cbn [left top width height]; lia|].
      split; [intros x y; unfold cnt; cells|unfold area; cbn [width height]; nia].
    + rewrite (i32_ok (al + aw)) by (unfold INT_MIN; lia).
      destruct (Z.eqb_spec (al + aw) bl) as [E3|E3].
      * rewrite (i32_ok (aw + bw)) by (unfold INT_MIN; lia).
        eexists. split; [reflexivity|]. intros a' [= <-].
        split; [unfold good_rect, within, positive; cbn [left top width height]; lia|].
        split; [intros x y; unfold cnt; cells|unfold area; cbn [width height]; nia].
      * eexists. split; [reflexivity|]. discriminate.
Qed.

(** Same cells, same area, no more entries. *)
Record same_region (W H : Z) (fr fr' : arr) : Prop := SameRegion {
  sr_ok : arr_ok fr'; sr_cap : capacity fr' = capacity fr; sr_size : (size fr' <= size fr)%nat;
  sr_good : Forall (good_rect W H) (contents fr');
  sr_cover : forall x y, cover (contents fr') x y = cover (contents fr) x y;
  sr_area : total_area (contents fr') = total_area (contents fr) }.

Lemma same_region_refl : forall W H fr, arr_ok fr -> Forall (good_rect W H) (contents fr) -> same_region W H fr fr.
Proof. intros. constructor; auto. Qed.
Lemma same_region_trans : forall W H a b c, same_region W H a b -> same_region W H b c -> same_region W H a c.
Proof.
  intros W H a b c [A1 A2 A3 A4 A5 A6] [B1 B2 B3 B4 B5 B6]. constructor; try assumption; try congruence; try lia.
Qed.

Lemma cover_set : forall l i a a' x y, nth_error l i = Some a ->
  cover (firstn i l ++ a' :: skipn (S i) l) x y = cover l x y - cnt a x y + cnt a' x y.
Proof.
  intros l i a a' x y E. rewrite (nth_split_perm _ _ _ _ E) at 3. rewrite !cover_app.
  unfold cover at 2 4. cbn [fold_right]. fold (cover (skipn (S i) l) x y). lia.
Qed.
Lemma total_set : forall l i a a', nth_error l i = Some a ->
  total_area (firstn i l ++ a' :: skipn (S i) l) = total_area l - area a + area a'.
Proof.
  intros l i a a' E. rewrite (nth_split_perm _ _ _ _ E) at 3. rewrite !total_area_app.
  unfold total_area at 2 4. cbn [fold_right]. lia.
Qed.
Lemma Forall_set : forall A (P : A -> Prop) l i a, Forall P l -> P a -> Forall P (firstn i l ++ a :: skipn (S i) l).
Proof.
  intros A P l i a F Pa. apply Forall_app. split.
  - rewrite Forall_forall in *. intros z Hz. apply F. rewrite <- (firstn_skipn i l). apply in_app_iff. now left.
  - constructor; [assumption|]. rewrite Forall_forall in *. intros z Hz. apply F.
    rewrite <- (firstn_skipn (S i) l). apply in_app_iff. now right.
Qed.
Lemma nth_set_other : forall A (l : list A) i j a, i <> j -> (i < length l)%nat ->
  nth_error (firstn i l ++ a :: skipn (S i) l) j = nth_error l j.
Proof.
  induction l as [|z l IH]; intros i j a N L; [cbn in L; lia|].
  destruct i as [|i]; destruct j as [|j]; try reflexivity; try lia.
  cbn. apply IH; cbn in L; lia.
Qed.

Lemma merge_inner_ok : forall W H fuel fr i j, 0 < W -> 0 < H -> W * H <= INT_MAX ->
  arr_ok fr -> Forall (good_rect W H) (contents fr) -> (i < j)%nat -> (i < size fr)%nat ->
  (size fr - j < fuel)%nat ->
  exists fr', merge_inner fuel fr i j = Some fr' /\ same_region W H fr fr' /\ (i < size fr')%nat.
Proof.
  intros W H. induction fuel as [|fuel IH]; intros fr i j HW HH HM Ok G Lij Li Fu; [lia|].
  cbn [merge_inner]. destruct (Nat.ltb_spec j (size fr)) as [Lj|Lj].
  2:{ exists fr. split; [reflexivity|]. split; [now apply same_region_refl|assumption]. }
  assert (Len := contents_length _ Ok).
  destruct (nth_error (contents fr) i) as [a|] eqn:Ea; [|apply nth_error_None in Ea; lia].
  destruct (nth_error (contents fr) j) as [b|] eqn:Eb; [|apply nth_error_None in Eb; lia].
  assert (Ea' := Ea). assert (Eb' := Eb). rewrite nth_contents in Ea', Eb' by assumption.
  rewrite Ea', Eb'.
  assert (Ga : good_rect W H a) by (apply (proj1 (Forall_forall _ _) G); eapply nth_error_In; exact Ea).
  assert (Gb : good_rect W H b) by (apply (proj1 (Forall_forall _ _) G); eapply nth_error_In; exact Eb).
  destruct (merge_pair_ok W H a b HW HH HM Ga Gb) as (m & -> & Hm).
  destruct m as [a'|].
  2:{ apply IH; try assumption; lia. }
  destruct (Hm a' eq_refl) as (Ga' & Ca' & Aa'). clear Hm.
  destruct (write_ok _ (data fr) i a') as (d & Ed & Ed' & Ld).
  { unfold arr_ok, capacity in Ok. lia. }
  rewrite Ed.
  assert (Ok1 : arr_ok (Arr d (size fr))) by (unfold arr_ok, capacity in *; cbn [data size]; lia).
  destruct (erase_ok (Arr d (size fr)) j Ok1 Lj) as (fr1 & b' & E1 & Nb & _ & Pm & S1 & O1 & C1).
  rewrite E1. cbn [size] in S1.
  assert (Cd : contents (Arr d (size fr)) = firstn i (contents fr) ++ a' :: skipn (S i) (contents fr)).
  { unfold contents at 1. cbn [data size]. rewrite Ed'. apply firstn_set; [assumption|exact Ok]. }
  rewrite Cd in Nb, Pm. rewrite nth_set_other in Nb by lia.
  assert (b' = b) by congruence. subst b'.
  assert (G1 : Forall (good_rect W H) (contents fr1)).
  { rewrite Forall_forall. intros z Hz.
    pose proof (Forall_set _ _ _ i _ G Ga') as Q. rewrite Forall_forall in Q. apply Q.
    apply (Permutation_in _ (Permutation_sym Pm)). now right. }
  destruct (IH fr1 i j HW HH HM O1 G1 Lij) as (fr2 & E2 & SR & L2); [lia|lia|].
  exists fr2. split; [exact E2|]. split; [|assumption].
  apply same_region_trans with fr1; [|exact SR]. constructor; try assumption.
  - rewrite C1. unfold capacity. cbn [data]. exact Ld.
  - lia.
  - intros x y. pose proof (cover_perm _ _ Pm x y) as Q. rewrite (cover_set _ _ a) in Q by assumption.
    change (cover (b :: contents fr1) x y) with (cnt b x y + cover (contents fr1) x y) in Q.
    rewrite Ca' in Q. lia.
  - pose proof (total_area_perm _ _ Pm) as Q. rewrite (total_set _ _ a) in Q by assumption.
    change (total_area (b :: contents fr1)) with (area b + total_area (contents fr1)) in Q. lia.
Qed.

Lemma merge_outer_ok : forall W H fuel fr i, 0 < W -> 0 < H -> W * H <= INT_MAX ->
  arr_ok fr -> Forall (good_rect W H) (contents fr) -> (size fr - i < fuel)%nat ->
  exists fr', merge_outer fuel fr i = Some fr' /\ same_region W H fr fr'.
Proof.
  intros W H. induction fuel as [|fuel IH]; intros fr i HW HH HM Ok G Fu; [lia|].
  cbn [merge_outer]. destruct (Nat.ltb_spec i (size fr)) as [Li|Li].
  2:{ exists fr. split; [reflexivity|now apply same_region_refl]. }
  destruct (merge_inner_ok W H (S (size fr)) fr i (S i)) as (fr1 & E1 & SR1 & L1); try assumption; try lia.
  rewrite E1. destruct SR1 as [A1 A2 A3 A4 A5 A6].
  destruct (IH fr1 (S i)) as (fr2 & E2 & SR2); try assumption; try lia.
  exists fr2. split; [exact E2|]. eapply same_region_trans; [|exact SR2]. constructor; assumption.
Qed.

Lemma ginv_good : forall W H p, ginv W H p -> Forall (good_rect W H) (contents (p_free p)).
Proof.
  intros W H p I. rewrite Forall_forall. intros f Hf. split; [eapply ginv_within_free; eassumption|].
  apply (proj1 (Forall_forall _ _) (gi_pf _ _ _ I)). assumption.
Qed.

Lemma merge_ok : forall W H p, ginv W H p ->
  exists p', guillotineMergeFreeRects p = Some p' /\ ginv W H p' /\ p_used p' = p_used p /\
    p_realloc p' = p_realloc p /\ p_width p' = p_width p /\ p_height p' = p_height p /\
    capacity (p_free p') = capacity (p_free p) /\ (size (p_free p') <= size (p_free p))%nat.
Proof.
  intros W H p I. unfold guillotineMergeFreeRects.
  destruct (merge_outer_ok W H (S (size (p_free p))) (p_free p) 0 (gi_W _ _ _ I) (gi_H _ _ _ I) (gi_max _ _ _ I)
    (gi_free _ _ _ I) (ginv_good _ _ _ I)) as (fr & E & [A1 A2 A3 A4 A5 A6]); [lia|].
  rewrite E. eexists. split; [reflexivity|]. cbn [p_used p_free p_realloc p_width p_height].
  split; [|repeat split; assumption].
  destruct I as [HW HH HM Of Ou Cov Fp Up Ar Tot Cnt].
  constructor; cbn [p_used p_free p_used_area]; try assumption.
  - intros x y. rewrite A5. apply Cov.
  - rewrite Forall_forall in *. intros z Hz. apply A4. assumption.
  - lia.
  - lia.
Qed.

(** ** Batches *)
Definition dim_pos (d : batch_dim) : Prop := let '(w, h, _) := d in 0 < w /\ 0 < h.

Lemma nth_error_prefix : forall A (pre : list A) x post, nth_error (pre ++ x :: post) (length pre) = Some x.
Proof. intros. rewrite nth_error_app2, Nat.sub_diag by lia. reflexivity. Qed.

Definition batch_good (p : pack) (fc : free_choice) (cf : bool) (seen : list batch_dim) (best : gresult) (bi : nat) : Prop :=
  (g_score best = INVALID_SCORE /\ forall w h u f, In (w, h, u) seen -> In f (contents (p_free p)) -> ~ has_room w h cf f) \/
  (g_score best < INVALID_SCORE /\ exists w h u, nth_error seen bi = Some (w, h, u) /\
    chosen fc w h cf (contents (p_free p)) best).

Lemma batch_best_ok : forall W H p fc cf ds pre best bi, ginv W H p -> Forall dim_pos ds ->
  batch_good p fc cf pre best bi ->
  exists best' bi', batch_best p fc cf ds (length pre) best bi = Some (best', bi') /\
    batch_good p fc cf (pre ++ ds) best' bi'.
Proof.
  intros W H p fc cf. induction ds as [|[[w h] u] ds IH]; intros pre best bi I F G; cbn [batch_best].
  - exists best, bi. rewrite app_nil_r. auto.
  - inversion F as [|? ? Pd F']; subst. cbn in Pd. destruct Pd as [Pw Ph].
    destruct (choice_ok W H p fc w h cf I Pw Ph) as (g & -> & Cg).
    rewrite <- app_snoc, <- (snoc_length _ pre (w, h, u)).
    assert (Sg : g_score g = INVALID_SCORE \/ g_score g < INVALID_SCORE).
    { destruct Cg as [_ [[S1 _]|(f & _ & _ & S1 & _)]]; auto. }
    destruct (Z.ltb_spec (g_score g) (g_score best)) as [L|L].
    + assert (Ls : g_score g < INVALID_SCORE).
      { destruct Sg as [S1|S1]; [|assumption]. destruct G as [[S2 _]|[S2 _]]; lia. }
      assert (G' : forall post, batch_good p fc cf (pre ++ (w, h, u) :: post) g (length pre)).
      { intros post. right. split; [assumption|]. exists w, h, u. split; [apply nth_error_prefix|assumption]. }
      destruct (g_score g =? INT_MIN).
      * exists g, (length pre). split; [reflexivity|]. rewrite app_snoc. apply G'.
      * apply IH; [assumption|assumption|]. apply G'.
    + apply IH; [assumption|assumption|].
      destruct G as [[S2 A2]|[S2 (w0 & h0 & u0 & N0 & C0)]].
      * left. split; [assumption|]. intros w1 h1 u1 f Hin Hf. apply in_app_iff in Hin.
        destruct Hin as [Hin|[E|[]]]; [eapply A2; eassumption|]. injection E as -> -> ->.
        destruct Cg as [_ [[_ A]|(f0 & _ & _ & S1 & _)]]; [apply A; assumption|lia].
      * right. split; [assumption|]. exists w0, h0, u0. split; [|assumption].
        rewrite nth_error_app1; [assumption|]. apply nth_error_Some. congruence.
Qed.

Lemma write_app : forall A (a : list A) x b y, write (a ++ x :: b) (length a) y = Some (a ++ y :: b).
Proof. induction a as [|z a IH]; intros x b y; cbn [write app length]; [reflexivity|]. rewrite IH. reflexivity. Qed.

Lemma batch_swap_ok : forall (ds : list batch_dim) i n, (i <= n)%nat -> (n < length ds)%nat ->
  exists ds', batch_swap ds i n = Some ds' /\ Permutation ds ds' /\ length ds' = length ds /\
    nth_error ds' n = nth_error ds i /\ skipn (S n) ds' = skipn (S n) ds /\
    Permutation (firstn (S n) ds) (firstn (S n) ds').
Proof.
  intros ds i n Hi Hn. unfold batch_swap. destruct (Nat.eqb_spec i n) as [->|Ne].
  - exists ds. repeat split; auto.
  - destruct (nth_error ds n) as [y|] eqn:En; [|apply nth_error_None in En; lia].
    destruct (nth_error_split _ _ En) as (ab & c & -> & Lab).
    assert (Li : (i < length ab)%nat) by lia.
    destruct (nth_error ab i) as [x|] eqn:Ei; [|apply nth_error_None in Ei; lia].
    destruct (nth_error_split _ _ Ei) as (a & b & -> & La).
    subst i. rewrite <- app_assoc. cbn [app]. rewrite nth_error_prefix, write_app.
    assert (Q : write (a ++ y :: b ++ y :: c) n x = Some (a ++ y :: b ++ x :: c)).
    { replace n with (length (a ++ y :: b)) by (rewrite !app_length in *; cbn [length] in *; lia).
      change (a ++ y :: b ++ y :: c) with (a ++ (y :: b) ++ y :: c).
      rewrite app_assoc, write_app, <- app_assoc. reflexivity. }
    rewrite Q. exists (a ++ y :: b ++ x :: c). split; [reflexivity|].
    assert (P : forall c, Permutation (a ++ x :: b ++ y :: c) (a ++ y :: b ++ x :: c)).
    { intros c0. apply Permutation_app_head.
      transitivity (x :: y :: b ++ c0); [apply perm_skip; symmetry; apply Permutation_middle|].
      transitivity (y :: x :: b ++ c0); [apply perm_swap|apply perm_skip, Permutation_middle]. }
    assert (Ln : n = length (a ++ x :: b)) by (rewrite !app_length in *; cbn [length] in *; lia).
    assert (Ln' : n = length (a ++ y :: b)) by (rewrite !app_length in *; cbn [length] in *; lia).
    split; [apply P|]. split; [rewrite !app_length; cbn [length]; rewrite !app_length; reflexivity|].
    split.
    + change (a ++ y :: b ++ x :: c) with (a ++ (y :: b) ++ x :: c). rewrite app_assoc, Ln'.
      apply nth_error_prefix.
    + change (a ++ y :: b ++ x :: c) with (a ++ (y :: b) ++ x :: c).
      change (a ++ x :: b ++ y :: c) with (a ++ (x :: b) ++ y :: c). rewrite !app_assoc.
      assert (T1 : forall (l : list batch_dim) z r, skipn (S (length l)) (l ++ z :: r) = r).
      { induction l as [|? l IHl]; intros; [reflexivity|]. cbn [length app]. rewrite skipn_cons. apply IHl. }
      assert (T2 : forall (l : list batch_dim) z r, firstn (S (length l)) (l ++ z :: r) = l ++ [z]).
      { induction l as [|? l IHl]; intros; [reflexivity|]. cbn [length app]. rewrite firstn_cons, IHl. reflexivity. }
      split.
      * rewrite Ln' at 1. rewrite Ln. rewrite !T1. reflexivity.
      * rewrite Ln at 1. rewrite Ln'. rewrite !T2. rewrite <- !app_assoc. apply (P []).
Qed.

(** A result belongs to a request. *)
Definition answers (r : bpresult * nat) (d : batch_dim) : Prop :=
  let '(w, h, u) := d in snd r = u /\ br_placed (fst r) = true /\ has_dims w h (br_flipped (fst r)) (br_rect (fst r)).

Record batch_outcome (p : pack) (dims : list batch_dim) (n : nat) (cf : bool)
  (p' : pack) (dims' : list batch_dim) (rs : list (bpresult * nat)) (rest : nat) : Prop := BatchOutcome {
  bo_perm : Permutation dims dims';
  bo_tail : skipn n dims' = skipn n dims;
  bo_count : (rest + length rs = n)%nat;
  bo_answers : Forall2 answers rs (rev (firstn (length rs) (skipn rest dims')));
  bo_flip : Forall (fun r => br_flipped (fst r) = true -> cf = true) rs;
  bo_used : contents (p_used p') = contents (p_used p) ++ map (fun r => br_rect (fst r)) rs;
  bo_left : forall w h u f, In (w, h, u) (firstn rest dims') -> In f (contents (p_free p')) -> ~ has_room w h cf f }.

Lemma used_size : forall W H p, ginv W H p -> size (p_used p) = length (contents (p_used p)).
Proof. intros W H p I. symmetry. apply contents_length. apply I. Qed.

Lemma batch_ok : forall W H n p dims fc sc cf merge, ginv W H p -> (n <= length dims)%nat ->
  Forall dim_pos dims -> has_memory p n ->
  exists p' dims' rs rest, guillotineInsertBatch p dims n fc sc cf merge = Some (p', dims', rs, rest) /\
    ginv W H p' /\ p_realloc p' = p_realloc p /\ p_width p' = p_width p /\ p_height p' = p_height p /\
    (capacity (p_used p) <= capacity (p_used p'))%nat /\ (capacity (p_free p) <= capacity (p_free p'))%nat /\
    batch_outcome p dims n cf p' dims' rs rest.
Proof.
  intros W H. induction n as [|n IH]; intros p dims fc sc cf merge I Ln F Mem.
  - cbn [guillotineInsertBatch]. exists p, dims, [], 0%nat. split; [reflexivity|]. split; [exact I|].
    repeat split; try lia; cbn; auto. rewrite app_nil_r. reflexivity.
  - cbn [guillotineInsertBatch].
    assert (Fn : Forall dim_pos (firstn (S n) dims)).
    { rewrite Forall_forall in *. intros z Hz. apply F. rewrite <- (firstn_skipn (S n) dims). apply in_app_iff. now left. }
    destruct (batch_best_ok W H p fc cf (firstn (S n) dims) [] (GResult 0 INVALID_SCORE false) 0 I Fn) as (best & bi & Eb & G).
    { left. split; [reflexivity|]. intros w h u f []. }
    cbn [length app] in Eb, G. change (batch_best p fc cf (match dims with [] => [] | a :: l => a :: firstn n l end))
      with (batch_best p fc cf (firstn (S n) dims)). rewrite Eb.
    destruct G as [[S1 A1]|[S1 (w & h & u & Nb & Cb)]].
    { rewrite S1, Z.eqb_refl. exists p, dims, [], (S n). split; [reflexivity|]. split; [exact I|].
      split; [reflexivity|]. split; [reflexivity|]. split; [reflexivity|]. split; [lia|]. split; [lia|].
      constructor; try reflexivity; cbn [length firstn rev map].
      - lia.
      - constructor.
      - constructor.
      - rewrite app_nil_r. reflexivity.
      - exact A1. }
    destruct (Z.eqb_spec (g_score best) INVALID_SCORE) as [Q|Q]; [lia|].
    assert (Lbi : (bi < S n)%nat).
    { assert (bi < length (firstn (S n) dims))%nat by (apply nth_error_Some; congruence).
      rewrite firstn_length in H0. lia. }
    assert (Nd : nth_error dims bi = Some (w, h, u)).
    { rewrite <- Nb. rewrite <- (firstn_skipn (S n) dims) at 1. apply nth_error_app1.
      rewrite firstn_length. lia. }
    rewrite Nd.
    assert (Pd : 0 < w /\ 0 < h).
    { rewrite Forall_forall in F. apply (F (w, h, u)). eapply nth_error_In; exact Nd. }
    destruct Pd as [Pw Ph].
    destruct Cb as [Fb [[S2 _]|(f & Nf & Ft & _)]]; [lia|].
    assert (M1 : has_memory p 1) by (destruct Mem as [M|[M N']]; [now left|right; lia]).
    destruct (insert_ok W H p w h best f sc I Pw Ph Nf Ft Q M1) as
      (p1 & r & -> & I1 & D1 & U1 & R1 & W1 & H1 & K1 & K2).
    cbn [br_placed andb].
    assert (Mg : exists p2, (if merge then guillotineMergeFreeRects p1 else Some p1) = Some p2 /\ ginv W H p2 /\
      p_used p2 = p_used p1 /\ p_realloc p2 = p_realloc p1 /\ p_width p2 = p_width p1 /\ p_height p2 = p_height p1 /\
      capacity (p_free p2) = capacity (p_free p1)).
    { destruct merge.
      - destruct (merge_ok W H p1 I1) as (p2 & E2 & I2 & X1 & X2 & X3 & X4 & X5 & _). exists p2. auto 10.
      - exists p1. auto 10. }
    destruct Mg as (p2 & -> & I2 & X1 & X2 & X3 & X4 & X5).
    destruct (batch_swap_ok dims bi n) as (dims1 & -> & Pm & L1 & N1 & T1 & Pf); [lia|lia|].
    assert (F1 : Forall dim_pos dims1).
    { rewrite Forall_forall in *. intros z Hz. apply F. apply (Permutation_in _ (Permutation_sym Pm)). assumption. }
    assert (M2 : has_memory p2 n).
    { destruct Mem as [M|[M N']]; [left; congruence|right].
      pose proof (used_size _ _ _ I) as Z1. pose proof (used_size _ _ _ I2) as Z2.
      rewrite X1, U1, app_length in Z2. cbn [length] in Z2. rewrite X1 in *. lia. }
    destruct (IH p2 dims1 fc sc cf merge I2) as
      (p3 & dims3 & rs & rest & E3 & I3 & R3 & W3 & H3 & K3 & K4 & [B1 B2 B3 B4 B5 B6 B7]); [lia|assumption|assumption|].
    rewrite E3.
    exists p3, dims3, ((BPResult r (g_flipped best) true, u) :: rs), rest.
    split; [reflexivity|]. split; [exact I3|]. split; [congruence|]. split; [congruence|]. split; [congruence|].
    rewrite X1 in K3. rewrite X5 in K4.
    split; [lia|]. split; [lia|].
    constructor.
    + etransitivity; eassumption.
    + assert (Sk : forall (a b : list batch_dim), skipn n a = skipn n b -> skipn (S n) a = skipn (S n) b).
      { assert (T : forall m (l : list batch_dim), skipn (S m) l = tl (skipn m l)).
        { induction m as [|m IHm]; intros [|z l]; try reflexivity.
          rewrite skipn_cons, IHm. reflexivity. }
        intros a b E. rewrite !T, E. reflexivity. }
      rewrite <- T1. apply Sk. exact B2.
    + cbn [length]. lia.
    + cbn [length].
      assert (N3 : nth_error dims3 n = Some (w, h, u)).
      { rewrite <- Nd, <- N1. rewrite <- (firstn_skipn n dims3), <- (firstn_skipn n dims1), B2.
        assert (Q1 : forall (a b : list batch_dim), length a = n -> nth_error (a ++ b) n = nth_error b 0).
        { intros a b E. rewrite nth_error_app2 by lia. rewrite E, Nat.sub_diag. reflexivity. }
        pose proof (Permutation_length B1).
        rewrite !Q1 by (rewrite firstn_length; lia). reflexivity. }
      assert (Sg : firstn (S (length rs)) (skipn rest dims3) = firstn (length rs) (skipn rest dims3) ++ [(w, h, u)]).
      { apply firstn_snoc. rewrite <- N3. clear - B3.
        replace n with (rest + length rs)%nat by lia. generalize (length rs). clear.
        induction rest as [|rest IH] in dims3 |- *; intros k; [reflexivity|].
        destruct dims3; cbn; [destruct k; reflexivity|apply IH]. }
      rewrite Sg, rev_app_distr. cbn [rev app]. constructor; [|exact B4].
      cbn [answers fst snd br_placed br_flipped br_rect]. repeat split. exact D1.
    + constructor; [|exact B5]. cbn [fst br_flipped]. exact Fb.
    + rewrite B6, X1, U1, <- app_assoc. reflexivity.
    + exact B7.
Qed.

(** ** Histories *)
Inductive gop :=
  | OpInsert (w h : Z) (fc : free_choice) (sc : split_choice) (canFlip : bool)
  | OpBatch (dims : list batch_dim) (fc : free_choice) (sc : split_choice) (canFlip merge : bool)
  | OpMerge
  | OpClear
  | OpReset (w h : Z).

Definition gstep (p : pack) (o : gop) : option pack :=
  match o with
  | OpInsert w h fc sc cf => ' (p', _) <- guillotineInsertChoice p w h fc sc cf ;; Some p'
  | OpBatch dims fc sc cf m => ' (p', _, _, _) <- guillotineInsertBatch p dims (length dims) fc sc cf m ;; Some p'
  | OpMerge => guillotineMergeFreeRects p
  | OpClear => binPackClear p
  | OpReset w h => binPackReset p w h
  end.
Fixpoint grun (p : pack) (ops : list gop) : option pack :=
  match ops with
  | [] => Some p
  | o :: ops' => p' <- gstep p o ;; grun p' ops'
  end.

(** Bins an operation may place. *)
Definition bins (o : gop) : nat :=
  match o with OpInsert _ _ _ _ _ => 1 | OpBatch dims _ _ _ _ => length dims | _ => 0 end.
Definition total_bins (ops : list gop) : nat := fold_right (fun o acc => (bins o + acc)%nat) 0%nat ops.

(** Histories considered: positive dimensions, areas in the range of tmbp_int, and
    binPackClear only while the bin still has the size the pack was created with. *)
Fixpoint ok_history (W0 H0 W H : Z) (ops : list gop) : Prop :=
  match ops with
  | [] => True
  | OpInsert w h _ _ _ :: r => 0 < w /\ 0 < h /\ ok_history W0 H0 W H r
  | OpBatch dims _ _ _ _ :: r => Forall dim_pos dims /\ ok_history W0 H0 W H r
  | OpMerge :: r => ok_history W0 H0 W H r
  | OpClear :: r => W = W0 /\ H = H0 /\ ok_history W0 H0 W H r
  | OpReset w h :: r => 0 < w /\ 0 < h /\ w * h <= INT_MAX /\ ok_history W0 H0 w h r
  end.

(** Size of the bin after a history. *)
Fixpoint final_bin (W H : Z) (ops : list gop) : Z * Z :=
  match ops with
  | [] => (W, H)
  | OpReset w h :: r => final_bin w h r
  | _ :: r => final_bin W H r
  end.

Lemma reset_ok : forall p w h, 0 < w -> 0 < h -> w * h <= INT_MAX -> (1 <= capacity (p_free p))%nat ->
  exists p', binPackReset p w h = Some p' /\ ginv w h p' /\ p_realloc p' = p_realloc p /\
    p_width p' = p_width p /\ p_height p' = p_height p /\ size (p_used p') = 0%nat /\
    capacity (p_used p') = capacity (p_used p) /\ capacity (p_free p') = capacity (p_free p).
Proof.
  intros p w h Hw Hh Hm Cap. unfold binPackReset. unfold capacity in *.
  destruct (data (p_free p)) as [|d0 d] eqn:Ed; [cbn in Cap; lia|].
  eexists. split; [reflexivity|]. cbn [p_realloc p_width p_height p_used p_free size data].
  split; [|repeat split; cbn; lia].
  constructor; cbn [p_used p_free p_used_area]; try assumption.
  all: try (unfold arr_ok, capacity; cbn [data size length]; lia).
  - intros x y. unfold contents, cover. cbn [data size firstn fold_right]. lia.
  - unfold contents. cbn. repeat constructor; assumption.
  - constructor.
  - reflexivity.
  - unfold contents, total_area, area. cbn. lia.
Qed.

Lemma history_ok : forall k ops p W H, ginv W H p -> ok_history (p_width p) (p_height p) W H ops ->
  has_memory p (total_bins ops + k) -> (1 <= capacity (p_free p))%nat ->
  exists p', grun p ops = Some p' /\ ginv (fst (final_bin W H ops)) (snd (final_bin W H ops)) p' /\ has_memory p' k /\
    p_width p' = p_width p /\ p_height p' = p_height p /\ (1 <= capacity (p_free p'))%nat.
Proof.
  intros k. induction ops as [|o ops IH]; intros p W H I Ok Mem Cap; cbn [grun total_bins fold_right] in *.
  - exists p. auto 10.
  - assert (Step : forall p' W' H', ginv W' H' p' -> ok_history (p_width p) (p_height p) W' H' ops ->
      p_realloc p' = p_realloc p -> p_width p' = p_width p -> p_height p' = p_height p ->
      (p_realloc p = false -> (size (p_used p') <= size (p_used p) + bins o)%nat) ->
      (capacity (p_used p) <= capacity (p_used p'))%nat -> (capacity (p_free p) <= capacity (p_free p'))%nat ->
      exists p2, grun p' ops = Some p2 /\ ginv (fst (final_bin W' H' ops)) (snd (final_bin W' H' ops)) p2 /\ has_memory p2 k /\
        p_width p2 = p_width p /\ p_height p2 = p_height p /\ (1 <= capacity (p_free p2))%nat).
    { intros p' W' H' I' Ok' R Ew Eh Sz K1 K2.
      destruct (IH p' W' H') as (p2 & E2 & I2 & M2 & X1 & X2 & X3); [assumption|congruence| |lia|].
      - destruct Mem as [M|M]; [left; congruence|].
        destruct (p_realloc p) eqn:Er; [left; congruence|]. right. specialize (Sz eq_refl). unfold total_bins in *. lia.
      - exists p2. rewrite X1, X2. auto 10. }
    destruct o as [w h fc sc cf|dims fc sc cf m| | |w h]; cbn [gstep bins ok_history final_bin] in *.
    + destruct Ok as (Pw & Ph & Ok).
      destruct (insert_choice_ok W H p w h fc sc cf I Pw Ph) as (p' & res & -> & I' & R & Ew & Eh & K1 & K2 & Q).
      { destruct Mem as [M|M]; [now left|right; lia]. }
      apply (Step p'); try assumption. intros _.
      pose proof (used_size _ _ _ I). pose proof (used_size _ _ _ I').
      destruct Q as [(_ & -> & _)|(_ & _ & _ & _ & U)]; [lia|]. rewrite U, app_length in *. cbn [length] in *. lia.
    + destruct Ok as (Pd & Ok).
      destruct (batch_ok W H (length dims) p dims fc sc cf m I) as
        (p' & dims' & rs & rest & -> & I' & R & Ew & Eh & K1 & K2 & [B1 B2 B3 B4 B5 B6 B7]); [lia|assumption| |].
      { destruct Mem as [M|M]; [now left|right; lia]. }
      apply (Step p'); try assumption. intros _.
      pose proof (used_size _ _ _ I). pose proof (used_size _ _ _ I').
      rewrite B6, app_length, map_length in *. lia.
    + destruct (merge_ok W H p I) as (p' & -> & I' & U & R & Ew & Eh & K1 & K2).
      apply (Step p'); try assumption; [intros _; rewrite U; lia|rewrite U; lia|lia].
    + destruct Ok as (-> & -> & Ok). unfold binPackClear.
      destruct (reset_ok p (p_width p) (p_height p)) as (p' & -> & I' & R & Ew & Eh & S0 & K1 & K2);
        [apply I|apply I|apply I|assumption|].
      apply (Step p'); try assumption; lia.
    + destruct Ok as (Pw & Ph & Pm & Ok).
      destruct (reset_ok p w h) as (p' & -> & I' & R & Ew & Eh & S0 & K1 & K2); try assumption.
      apply (Step p'); try assumption; lia.
Qed.

(** ** Creation *)
Lemma init_ok : forall p W H, 0 < W -> 0 < H -> W * H <= INT_MAX ->
  p_realloc p = true \/ (1 <= capacity (p_free p))%nat ->
  exists p', binPackInit p W H = Some p' /\ ginv W H p' /\ p_realloc p' = p_realloc p /\
    p_width p' = W /\ p_height p' = H /\ size (p_used p') = 0%nat /\ capacity (p_used p') = capacity (p_used p) /\
    (1 <= capacity (p_free p'))%nat /\ (capacity (p_free p) <= capacity (p_free p'))%nat.
Proof.
  intros p W H HW HH HM Mem. unfold binPackInit.
  destruct (push_ok (Arr (data (p_free p)) 0) (p_realloc p) (Rect 0 0 W H)) as (a & -> & C & S1 & O & K & _).
  { unfold arr_ok, capacity. cbn. lia. }
  { cbn [size]. unfold capacity in *. cbn [data]. destruct Mem; [now left|right; lia]. }
  eexists. split; [reflexivity|]. cbn [p_realloc p_width p_height p_used p_free size].
  cbn [size] in S1. unfold arr_ok in O.
  split; [|unfold capacity in *; cbn [data] in *; repeat split; lia].
  unfold contents in C at 2. cbn [data size firstn app] in C.
  constructor; cbn [p_used p_free p_used_area]; try assumption.
  - unfold arr_ok, capacity. cbn. lia.
  - intros x y. rewrite C. unfold contents, cover. cbn [data size firstn fold_right]. lia.
  - rewrite C. repeat constructor; assumption.
  - constructor.
  - reflexivity.
  - rewrite C. unfold contents, total_area, area. cbn. lia.
  - cbn [size]. lia.
Qed.

(** Packs as the public functions create them. *)
Inductive created (W H : Z) (n : nat) : pack -> Prop :=
  | created_dynamic : forall f u p, binPackCreateEx W H f u = Some p -> created W H n p
  | created_static : forall f u p, (guillotineFreeRectsSize n <= length f)%nat -> (n <= length u)%nat -> (1 <= n)%nat ->
      binPackCreateStatic W H f u = Some p -> created W H n p.

Lemma created_ok : forall W H n p, 0 < W -> 0 < H -> W * H <= INT_MAX -> created W H n p ->
  ginv W H p /\ has_memory p n /\ p_width p = W /\ p_height p = H /\ (1 <= capacity (p_free p))%nat.
Proof.
  intros W H n p HW HH HM [f u p' E|f u p' Lf Lu Ln E].
  - unfold binPackCreateEx in E. 
    match type of E with binPackInit ?q _ _ = _ => 
      destruct (init_ok q W H HW HH HM) as (p1 & E1 & I & R & X1 & X2 & S0 & K1 & K2 & K3); [now left|] end.
    rewrite E1 in E. injection E as <-. cbn [p_realloc] in R.
    repeat split; try assumption; try apply I. now left.
  - unfold binPackCreateStatic, guillotineFreeRectsSize in *.
    match type of E with binPackInit ?q _ _ = _ => 
      destruct (init_ok q W H HW HH HM) as (p1 & E1 & I & R & X1 & X2 & S0 & K1 & K2 & K3) end.
    { right. unfold capacity. cbn [p_free data]. lia. }
    rewrite E1 in E. injection E as <-. unfold capacity in *. cbn [p_realloc p_free p_used data] in *.
    repeat split; try assumption; try apply I. right. unfold capacity. lia.
Qed.

Lemma create_total : forall W H n f u, 0 < W -> 0 < H -> W * H <= INT_MAX ->
  (exists p, binPackCreateEx W H f u = Some p) /\
  (forall fm um, (1 <= n)%nat -> (guillotineFreeRectsSize n <= length fm)%nat ->
     exists p, binPackCreateStatic W H fm um = Some p).
Proof.
  intros W H n f u HW HH HM. split.
  - unfold binPackCreateEx.
    match goal with |- context [binPackInit ?q _ _] =>
      destruct (init_ok q W H HW HH HM) as (p1 & E1 & _); [now left|] end. exists p1. exact E1.
  - intros fm um L1 L2. unfold binPackCreateStatic, guillotineFreeRectsSize in *.
    match goal with |- context [binPackInit ?q _ _] =>
      destruct (init_ok q W H HW HH HM) as (p1 & E1 & _) end.
    { right. unfold capacity. cbn [p_free data]. lia. }
    exists p1. exact E1.
Qed.
