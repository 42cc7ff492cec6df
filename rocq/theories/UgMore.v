(** Stored blocks, element types, and what does not depend on the pruning of stage two. *)
From Coq Require Import ZArith NArith String List Bool Lia Arith Permutation.
From Verif Require Import UgModel UgSpec UgLists UgType UgOne UgTriv UgTab UgLook UgRuns UgGen UgEmit UgGet.
Import ListNotations.
Local Open Scope Z_scope.

Lemma NoDup_map_filter {A C} (f : A -> C) (p : A -> bool) l : NoDup (map f l) -> NoDup (map f (filter p l)).
Proof.
  induction l as [|x l IH]; intros H; [constructor|]. cbn [map filter] in *. apply NoDup_cons_iff in H. destruct H as [H1 H2].
  destruct (p x); [|now apply IH]. cbn [map]. constructor; [|now apply IH]. intros I. apply H1. apply in_map_iff in I.
  destruct I as [y [Y1 Y2]]. apply filter_In in Y2. apply in_map_iff. exists y. tauto.
Qed.
Lemma prune_stored B P fl t tb : wf B t -> prune P fl t = Some tb ->
  exists ps, filter nontrivial (t_two tb) = filter nontrivial ps /\ NoDup (map pl_block ps) /\
    (forall p, In p ps -> List.length (pl_block p) = B /\ exists i, (i < List.length (one t))%nat /\
       forall j, (j < B)%nat -> nth_error (pl_block p) j = Some (cell_of (look t i j))).
Proof.
  intros W H. unfold prune in H. destruct (prune_duplicates t) as [[s1 bs]|] eqn:PD; [|discriminate]. cbn [obind] in H.
  destruct (prune_duplicates_spec B t s1 bs W PD) as (L1 & Cells & ND & Used & LenB & _).
  assert (Ex : forall blk, In blk bs -> List.length blk = B /\ exists i, (i < List.length (one t))%nat /\
             forall j, (j < B)%nat -> nth_error blk j = Some (cell_of (look t i j))).
  { intros blk I. split; [now apply LenB|]. apply In_nth_error in I. destruct I as [b Nb].
    assert (Ib := Used b ltac:(apply nth_error_Some; congruence)). apply In_nth_error in Ib. destruct Ib as [i Ni].
    assert (Li : (i < List.length (one t))%nat) by (rewrite <- L1; apply nth_error_Some; congruence).
    destruct (Cells i Li) as (b' & blk' & Q1 & Q2 & Q3 & Q4). exists i. split; [exact Li|]. assert (b' = b) by congruence. subst b'.
    assert (blk' = blk) by congruence. now subst blk'. }
  destruct (f_prune2 fl).
  - unfold prune_trivial in H. destruct (place_one 0 bs) as [ps1 start] eqn:PO.
    destruct (place_one_spec _ _ _ _ PO) as (A1 & _ & A3 & _). rewrite Nat.sub_0_r in A3.
    destruct (place_two_spec ps1 start) as (B1 & _ & B3 & B4). set (ps := place_two start ps1) in *.
    destruct (omap _ s1) as [s1'|]; [|discriminate]. cbn [obind] in H.
    destruct (if f_prune1 fl then _ else _) as [size|]; [|discriminate]. cbn [obind] in H. injection H as <-. cbn [t_two].
    assert (Lc : List.length (filter (fun p => negb (nontrivial p)) ps1) = List.length (filter (fun p => negb (nontrivial p)) ps)).
    { rewrite <- (map_length pl_index (filter _ ps)), B4. now rewrite seq_length. }
    assert (Re := rearrange_spec ps start ltac:(rewrite B3; exact A3) ltac:(rewrite B4, Lc; reflexivity)). rewrite Re.
    exists ps. split; [|split].
    + rewrite filter_app. clear. assert (X : forall l, filter nontrivial (filter nontrivial l) = filter nontrivial l).
      { induction l as [|p l IH]; cbn; [reflexivity|]. destruct (nontrivial p) eqn:E; cbn; rewrite ?E, ?IH; reflexivity. }
      assert (Y : forall l, filter nontrivial (filter (fun p => negb (nontrivial p)) l) = []).
      { induction l as [|p l IH]; cbn; [reflexivity|]. destruct (nontrivial p) eqn:E; cbn; rewrite ?E, ?IH; reflexivity. }
      now rewrite X, Y, app_nil_r.
    + rewrite B1, A1. exact ND.
    + intros p I. apply Ex. rewrite <- A1, <- B1. now apply in_map.
  - cbn [obind] in H. destruct (if f_prune1 fl then _ else _) as [size|]; [|discriminate]. cbn [obind] in H. injection H as <-. cbn [t_two].
    eexists. split; [reflexivity|]. rewrite map_map. cbn [pl_block]. rewrite map_id. split; [exact ND|].
    intros p I. apply in_map_iff in I. destruct I as [b [<- I]]. now apply Ex.
Qed.
Lemma generate_stored B P fl ds pr : (0 < B)%nat -> generate B P fl ds = Some pr ->
  exists blocks, p_two pr = concat blocks /\ NoDup blocks /\ forall blk, In blk blocks -> List.length blk = B.
Proof.
  intros HB H. unfold generate in H. destruct (add_all B fl (ucd_init B) ds) as [u|] eqn:A; [|discriminate]. cbn [obind] in H.
  destruct (prune P fl (r_staged u)) as [tb|] eqn:Pr; [|discriminate]. cbn [obind] in H.
  assert (Iv := inv_all B fl ds HB [] _ _ (inv_init B fl) A). cbn [app] in Iv.
  destruct (emit_tables _ _ _ _ _ H) as (_ & _ & _ & _ & E4 & _).
  destruct (prune_stored B P fl _ tb (iv_wf _ _ _ _ Iv) Pr) as (ps & Q1 & Q2 & Q3).
  exists (map (fun p => zs (pl_block p)) (filter nontrivial ps)). split; [|split].
  - rewrite E4. unfold two_cells. rewrite Q1. unfold zs. clear. induction (filter nontrivial ps) as [|p l IH]; cbn; [reflexivity|].
    now rewrite map_app, IH.
  - rewrite <- (map_map pl_block zs). apply FinFun.Injective_map_NoDup; [|now apply NoDup_map_filter].
    intros a. induction a as [|x a IH]; intros [|y b] E; try discriminate; [reflexivity|]. cbn in E. injection E as E1 E2.
    f_equal; [lia|now apply IH].
  - intros blk I. apply in_map_iff in I. destruct I as [p [<- I]]. apply filter_In in I. unfold zs. rewrite map_length. now apply Q3.
Qed.

Lemma least vs t : obind (value_to_size (minmax (zs vs))) get_type = Some t ->
  c_signed t = false /\ (forall v, In v (zs vs) -> 0 <= v < 2 ^ c_size t) /\
  (forall n, In n [8; 16; 32] -> (forall v, In v (zs vs) -> v < 2 ^ n) -> c_size t <= n).
Proof.
  destruct (value_to_size (minmax (zs vs))) as [t'|] eqn:E; [|discriminate]. cbn [obind]. unfold get_type.
  destruct (0 <? c_size t') eqn:S; [|discriminate]. intros H. injection H as ->. apply Z.ltb_lt in S.
  assert (Nn : forall v, In v (zs vs) -> 0 <= v). { intros v I. apply in_map_iff in I. destruct I as [x [<- _]]. lia. }
  assert (U := value_unsigned _ _ E Nn). split; [exact U|]. split.
  - intros v I. destruct (value_to_size_fits _ _ v E S) as [F _]; [now right|]. unfold fits in F. rewrite U in F.
    rewrite andb_true_iff, !Z.leb_le in F. lia.
  - intros n In_n A. apply (value_to_size_least _ _ _ E S In_n). intros v I. unfold fits. rewrite U. cbn [c_signed c_size].
    rewrite andb_true_iff, !Z.leb_le. specialize (A v I). specialize (Nn v I). lia.
Qed.
Lemma generate_types B P fl ds pr : (0 < B)%nat -> generate B P fl ds = Some pr ->
  (f_prune1 fl = false -> c_signed (p_one_type pr) = false /\ (forall v, In v (p_one pr) -> 0 <= v < 2 ^ c_size (p_one_type pr)) /\
     (forall n, In n [8; 16; 32] -> (forall v, In v (p_one pr) -> v < 2 ^ n) -> c_size (p_one_type pr) <= n)) /\
  (f_prune2 fl = false -> c_signed (p_two_type pr) = false /\ (forall v, In v (p_two pr) -> 0 <= v < 2 ^ c_size (p_two_type pr)) /\
     (forall n, In n [8; 16; 32] -> (forall v, In v (p_two pr) -> v < 2 ^ n) -> c_size (p_two_type pr) <= n)).
Proof.
  intros HB H. unfold generate in H. destruct (add_all B fl (ucd_init B) ds) as [u|] eqn:A; [|discriminate]. cbn [obind] in H.
  destruct (prune P fl (r_staged u)) as [tb|] eqn:Pr; [|discriminate]. cbn [obind] in H.
  destruct (emit_tables _ _ _ _ _ H) as (E1 & _ & _ & _ & E4 & _).
  unfold emit in H. fold (one_cells fl tb) in H.
  destruct (obind (value_to_size (minmax (zs (one_cells fl tb)))) get_type) as [t1|] eqn:T1; [|discriminate]. cbn [obind] in H.
  destruct (obind (value_to_size (minmax (zs (t_one tb)))) get_type) as [t2|] eqn:T2; [|discriminate]. cbn [obind] in H.
  destruct (obind (value_to_size (minmax (zs (flat_map pl_block (t_two tb))))) get_type) as [t3|] eqn:T3; [|discriminate]. cbn [obind] in H.
  destruct (two_code B fl tb) as [w|] eqn:W; [|discriminate]. cbn [obind] in H.
  destruct (omap array_size _); [|discriminate]. cbn [obind] in H.
  destruct (guard _); [|discriminate]. cbn [obind] in H.
  destruct (omap _ (struct_members fl u)) as [types|]; [|discriminate]. cbn [obind] in H.
  destruct (omap _ (r_entries u)) as [entries|]; [|discriminate]. cbn [obind] in H. injection H as H.
  assert (X1 : p_one_type pr = t2) by now rewrite <- H. assert (X2 : p_two_type pr = t3) by now rewrite <- H. clear H.
  rewrite E1, E4, X1, X2. split; intros F.
  - unfold one_cells. rewrite F. now apply least.
  - assert (two_cells tb = flat_map pl_block (t_two tb)) as ->; [|now apply least].
    unfold two_cells. f_equal. unfold prune in Pr. destruct (prune_duplicates (r_staged u)) as [[s1 bs]|]; [|discriminate]. cbn [obind] in Pr.
    rewrite F in Pr. cbn [obind] in Pr. destruct (if f_prune1 fl then _ else _); [|discriminate]. cbn [obind] in Pr. injection Pr as <-. cbn [t_two].
    clear. induction bs as [|b l IH]; cbn; [reflexivity|now rewrite IH].
Qed.

Lemma datum_permutation ds ds' cp : Permutation ds ds' -> NoDup (map d_cp ds) -> datum ds' cp = datum ds cp.
Proof.
  intros Pm ND. assert (ND' : NoDup (map d_cp ds')) by (eapply Permutation_NoDup; [apply Permutation_map; exact Pm|exact ND]).
  assert (Un : forall a b, In a ds -> In b ds -> d_cp a = d_cp b -> a = b).
  { clear -ND. induction ds as [|x l IH]; intros a b Ia Ib E; [destruct Ia|]. cbn in ND. apply NoDup_cons_iff in ND. destruct ND as [N1 N2].
    destruct Ia as [->|Ia], Ib as [->|Ib]; try reflexivity.
    - exfalso. apply N1. rewrite E. now apply in_map.
    - exfalso. apply N1. rewrite <- E. now apply in_map.
    - now apply IH. }
  destruct (datum_case ds cp) as [I|[I E]], (datum_case ds' cp) as [I'|[I' E']].
  - apply Un; [eapply Permutation_in; [apply Permutation_sym|]; eauto|exact I|now rewrite !datum_cp].
  - exfalso. apply I'. rewrite <- (datum_cp ds cp). apply in_map. eapply Permutation_in; eauto.
  - exfalso. apply I. rewrite <- (datum_cp ds' cp). apply in_map. eapply Permutation_in; [apply Permutation_sym|]; eauto.
  - congruence.
Qed.
Lemma reached_permutation B fl ds ds' cp : Permutation ds ds' -> reached B fl ds cp -> reached B fl ds' cp.
Proof.
  intros Pm. assert (Pi : forall d, In d ds -> In d ds') by (intros d; now apply Permutation_in).
  assert (Pj : forall d, In d ds' -> In d ds) by (intros d; apply Permutation_in; now apply Permutation_sym).
  intros [(d & D1 & D2)|(F & b & (d & D1 & D2) & Q)]; [left; exists d; auto|right]. split; [exact F|]. exists b. split; [exists d; auto|auto].
Qed.
Lemma generate_distinct B P fl ds pr : (0 < B)%nat -> generate B P fl ds = Some pr ->
  NoDup (map d_cp ds) /\ forall d, In d ds -> (d_cp d <= 1114111)%N.
Proof.
  intros HB H. unfold generate in H. destruct (add_all B fl (ucd_init B) ds) as [u|] eqn:A; [|discriminate].
  assert (Iv := inv_all B fl ds HB [] _ _ (inv_init B fl) A). cbn [app] in Iv. split; [exact (iv_distinct _ _ _ _ Iv)|].
  intros d I. now destruct (iv_data _ _ _ _ Iv d I).
Qed.

Lemma emit_runs_keep B fl u tb tb' pr pr' : emit B fl u tb = Some pr -> emit B (keep_two fl) u tb' = Some pr' ->
  p_runs pr = p_runs pr' /\ p_upper_offset pr = p_upper_offset pr' /\ p_lower_offset pr = p_lower_offset pr' /\
  p_title_offset pr = p_title_offset pr' /\ p_fold_offset pr = p_fold_offset pr'.
Proof.
  assert (X : forall fl tb pr, emit B fl u tb = Some pr -> exists sizes,
    omap array_size [r_upper u; r_title u; r_lower u; r_fold u; r_canonical u; r_compat u] = Some sizes /\
    p_runs pr = map (cast {| c_signed := false; c_size := max_size sizes |})
      ((if f_full fl || f_full_toggle fl then flat_runs (r_upper u) ++ flat_runs (r_lower u) ++ flat_runs (r_title u) else []) ++
       (if f_full_fold fl then flat_runs (r_fold u) else []) ++ (if f_canonical fl then flat_runs (r_canonical u) else []) ++
       (if f_compat fl then flat_runs (r_compat u) else [])) /\
    p_upper_offset pr = 0 /\ p_lower_offset pr = count_codepoints (r_upper u) /\
    p_title_offset pr = count_codepoints (r_upper u) + count_codepoints (r_lower u) /\
    p_fold_offset pr = count_codepoints (r_upper u) + count_codepoints (r_lower u) + count_codepoints (r_title u)).
  { clear. intros fl tb pr H. unfold emit in H. do 3 (destruct (obind (value_to_size _) get_type); [|discriminate]; cbn [obind] in H).
    destruct (two_code B fl tb) as [w|]; [|discriminate]. cbn [obind] in H.
    destruct (omap array_size _) as [sizes|] eqn:Sz; [|discriminate]. cbn [obind] in H.
    destruct (guard _); [|discriminate]. cbn [obind] in H.
    destruct (omap _ (struct_members fl u)) as [types|]; [|discriminate]. cbn [obind] in H.
    destruct (omap _ (r_entries u)) as [entries|]; [|discriminate]. cbn [obind] in H. injection H as <-. exists sizes. repeat split; reflexivity. }
  intros H H'. apply X in H, H'. destruct H as (s & S & H1 & H2 & H3 & H4 & H5), H' as (s' & S' & H1' & H2' & H3' & H4' & H5').
  assert (s = s') by congruence. subst s'. cbn [keep_two f_full f_full_toggle f_full_fold f_canonical f_compat] in H1'.
  repeat split; congruence.
Qed.
Lemma generate_runs_keep B P fl ds pr pr' : generate B P fl ds = Some pr -> generate B P (keep_two fl) ds = Some pr' ->
  p_runs pr = p_runs pr' /\ p_upper_offset pr = p_upper_offset pr' /\ p_lower_offset pr = p_lower_offset pr' /\
  p_title_offset pr = p_title_offset pr' /\ p_fold_offset pr = p_fold_offset pr'.
Proof.
  intros H H'. unfold generate in H, H'. rewrite add_all_keep in H'. destruct (add_all B fl (ucd_init B) ds) as [u|]; [|discriminate]. cbn [obind] in H, H'.
  destruct (prune P fl (r_staged u)) as [tb|]; [|discriminate]. destruct (prune P (keep_two fl) (r_staged u)) as [tb'|]; [|discriminate].
  cbn [obind] in H, H'. eapply emit_runs_keep; eauto.
Qed.

(** Every cell of stage one names a block and every block is named; every cell of stage two names an entry. *)
Lemma generate_used B P fl ds pr : (0 < B)%nat -> generate B P fl ds = Some pr -> f_prune1 fl = false -> f_prune2 fl = false ->
  exists n, List.length (p_two pr) = (n * B)%nat /\ (forall v, In v (p_one pr) -> 0 <= v < Z.of_nat n) /\
    (forall b, (b < n)%nat -> In (Z.of_nat b) (p_one pr)) /\ (forall v, In v (p_two pr) -> 0 <= v < Z.of_nat (List.length (p_entries pr))).
Proof.
  intros HB H F1 F2. unfold generate in H. destruct (add_all B fl (ucd_init B) ds) as [u|] eqn:A; [|discriminate]. cbn [obind] in H.
  destruct (prune P fl (r_staged u)) as [tb|] eqn:Pr; [|discriminate]. cbn [obind] in H.
  assert (Iv := inv_all B fl ds HB [] _ _ (inv_init B fl) A). cbn [app] in Iv.
  destruct (emit_tables _ _ _ _ _ H) as (E1 & _ & _ & _ & E4 & _).
  destruct (emit_entries _ _ _ _ _ H) as (ty & _ & En). apply omap_length in En. clear H A.
  unfold prune in Pr. destruct (prune_duplicates (r_staged u)) as [[s1 bs]|] eqn:D; [|discriminate]. cbn [obind] in Pr.
  rewrite F1, F2 in Pr. cbn [obind] in Pr. injection Pr as <-.
  destruct (prune_duplicates_spec B _ _ _ (iv_wf _ _ _ _ Iv) D) as (L & Cs & _ & Us & Ln & _). clear D.
  unfold one_cells in E1. rewrite F1 in E1. cbn [t_one] in E1.
  assert (T : p_two pr = zs (concat bs)).
  { rewrite E4. unfold two_cells. cbn [t_two]. f_equal. clear. induction bs as [|b l IH]; cbn; [reflexivity|now rewrite IH]. }
  assert (At : forall b, In b s1 -> exists i, (i < List.length (one (r_staged u)))%nat /\ nth_error s1 i = Some b).
  { intros b I. apply In_nth_error in I. destruct I as [i I]. exists i. split; [|exact I]. rewrite <- L. apply nth_error_Some. congruence. }
  exists (List.length bs). split; [|split; [|split]].
  - rewrite T. unfold zs. rewrite map_length. clear - Ln. induction bs as [|b l IH]; [reflexivity|]. cbn [concat List.length].
    rewrite app_length, IH by (intros x I; apply Ln; now right). rewrite (Ln b) by now left. lia.
  - intros v I. rewrite E1 in I. apply in_map_iff in I. destruct I as [b [<- I]]. destruct (At b I) as (i & I1 & I2).
    destruct (Cs i I1) as (b' & blk & X1 & X2 & _). assert (b' = b) by congruence. subst b'.
    assert (b < List.length bs)%nat by (apply nth_error_Some; congruence). lia.
  - intros b Lb. rewrite E1. apply in_map. now apply Us.
  - intros v I. rewrite T in I. apply in_map_iff in I. destruct I as [c [<- I]]. apply in_concat in I. destruct I as [blk [I1 I2]].
    assert (Lk := Ln blk I1). apply In_nth_error in I1, I2. destruct I1 as [b I1], I2 as [j I2].
    assert (Lb : (b < List.length bs)%nat) by (apply nth_error_Some; congruence).
    assert (Lj : (j < B)%nat) by (rewrite <- Lk; apply nth_error_Some; congruence).
    destruct (At b (Us b Lb)) as (i & X1 & X2). destruct (Cs i X1) as (b' & blk' & Y1 & Y2 & _ & Y3).
    assert (b' = b) by congruence. subst b'. assert (blk' = blk) by congruence. subst blk'.
    assert (Ec : c = cell_of (look (r_staged u) i j)) by (specialize (Y3 j Lj); congruence).
    assert (c < List.length (r_entries u))%nat; [|rewrite En; lia].
    destruct (look (r_staged u) i j) as [k|] eqn:Lo; cbn [cell_of] in Ec; subst c.
    + destruct (iv_none _ _ _ _ Iv i j k Lo) as (d & D1 & D2 & D3). destruct (iv_data _ _ _ _ Iv d D1) as (_ & _ & k' & e & K1 & K2 & _).
      rewrite <- D2, <- D3, Lo in K1. injection K1 as <-. apply nth_error_Some. congruence.
    + apply nth_error_Some. rewrite (iv_zero _ _ _ _ Iv). discriminate.
Qed.
