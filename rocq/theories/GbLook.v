(** The property that the tool looks up in its own tables is that of the data. *)
From Coq Require Import ZArith NArith List Bool Lia Arith.
From Verif Require Import UgModel UgSpec UgLists UgType UgOne UgTriv UgTab UgLook UgRuns UgGen UgEmit UgGet GbModel.
Import ListNotations.

Lemma prune_place B P fl t tb : wf B t -> prune P fl t = Some tb -> length (t_one tb) = length (one t) /\
  forall i, i < length (one t) -> exists b p, nth_error (t_one tb) i = Some b /\ nth_error (t_two tb) b = Some p /\
    forall j, j < B -> nth_error (pl_block p) j = Some (cell_of (look t i j)).
Proof.
  intros W H. unfold prune in H. destruct (prune_duplicates t) as [[s1 bs]|] eqn:PD; [|discriminate]. cbn [obind] in H.
  destruct (prune_duplicates_spec B t s1 bs W PD) as (L1 & Cells & _). destruct (f_prune2 fl) eqn:P2.
  - unfold prune_trivial in H. destruct (place_one 0 bs) as [ps1 start] eqn:PO.
    destruct (place_one_spec _ _ _ _ PO) as (A1 & A2 & A3 & A4). rewrite Nat.sub_0_r in A3.
    destruct (place_two_spec ps1 start) as (B1 & B2 & B3 & B4). set (ps := place_two start ps1) in *.
    destruct (omap (fun i => let! p := nth_error ps i in Some (pl_index p)) s1) as [s1'|] eqn:OM; [|discriminate]. cbn [obind] in H.
    destruct (if f_prune1 fl then shrink s1' start (P - 1) else Some 0%nat) as [size|]; [|discriminate]. cbn [obind] in H. injection H as <-.
    set (a := filter nontrivial ps) in *. set (c := filter (fun p => negb (nontrivial p)) ps) in *.
    assert (Lc : List.length (filter (fun p => negb (nontrivial p)) ps1) = List.length c).
    { rewrite <- (map_length pl_index c). rewrite B4. now rewrite seq_length. }
    assert (Ha : map pl_index a = seq 0 start) by (rewrite B3; exact A3).
    assert (Hc : map pl_index c = seq start (List.length c)) by (rewrite <- Lc; exact B4).
    assert (Re := rearrange_spec ps start Ha Hc). fold a c in Re. cbn [t_one t_two]. rewrite Re.
    assert (La : List.length a = start). { rewrite <- (map_length pl_index a), Ha. apply seq_length. }
    assert (Ia : forall k p, nth_error a k = Some p -> pl_index p = k).
    { intros k p N. rewrite (nodup_nth_index a 0) with (k := k); [lia| |exact N]. now rewrite La. }
    assert (Ic : forall k p, nth_error c k = Some p -> pl_index p = (start + k)%nat) by (apply nodup_nth_index; exact Hc).
    split; [rewrite (omap_length _ _ _ OM); exact L1|].
    intros i Li. destruct (Cells i Li) as (b & blk & Q1 & Q2 & _ & Q4).
    assert (Np : exists p, nth_error ps b = Some p /\ pl_block p = blk).
    { rewrite <- A1, <- B1, nth_error_map in Q2. destruct (nth_error ps b) as [p|]; [|discriminate]. cbn in Q2. injection Q2 as <-. now exists p. }
    destruct Np as (p & N1 & N2). exists (pl_index p), p. split; [|split].
    + destruct (omap_nth _ _ _ _ _ OM Q1) as (y & Y1 & Y2). rewrite N1 in Y2. cbn [obind] in Y2. injection Y2 as Y2. first [now rewrite Y2|congruence].
    + assert (I : In p ps) by (eapply nth_error_In; eauto). destruct (nontrivial p) eqn:Nt.
      * assert (Ip : In p a) by (apply filter_In; now split). apply In_nth_error in Ip. destruct Ip as [k K]. rewrite (Ia k p K).
        rewrite nth_error_app1; [exact K|]. apply nth_error_Some. congruence.
      * assert (Ip : In p c) by (apply filter_In; split; [exact I|now rewrite Nt]). apply In_nth_error in Ip. destruct Ip as [k K].
        rewrite (Ic k p K). rewrite nth_error_app2 by lia. now replace (start + k - length a) with k by lia.
    + intros j J. rewrite N2. now apply Q4.
  - cbn [obind] in H. destruct (if f_prune1 fl then _ else _) as [size|]; [|discriminate]. cbn [obind] in H. injection H as <-.
    cbn [t_one t_two]. split; [exact L1|]. intros i Li. destruct (Cells i Li) as (b & blk & Q1 & Q2 & _ & Q4).
    exists b. eexists. split; [exact Q1|]. split; [rewrite nth_error_map, Q2; reflexivity|exact Q4].
Qed.

Lemma property_spec B P fl ds pr cp : 0 < B -> generate B P fl ds = Some pr -> f_grapheme fl = true ->
  property_of B P fl ds cp = Some (grapheme_num (d_gb (datum ds cp))).
Proof.
  intros HB H F. unfold generate in H. unfold property_of. destruct (add_all B fl (ucd_init B) ds) as [u|] eqn:A; [|discriminate].
  cbn [obind] in *. destruct (prune P fl (r_staged u)) as [tb|] eqn:Pr; [|discriminate]. cbn [obind] in *. clear H.
  assert (Iv := inv_all B fl ds HB [] _ _ (inv_init B fl) A). cbn [app] in Iv. clear A.
  destruct (prune_place B P fl _ tb (iv_wf _ _ _ _ Iv) Pr) as [L Pl]. clear Pr. unfold lookup.
  set (i := N.to_nat (cp / N.of_nat B)). set (j := N.to_nat (cp mod N.of_nat B)).
  assert (J : j < B). { unfold j. assert (cp mod N.of_nat B < N.of_nat B)%N by (apply N.mod_lt; lia). lia. }
  assert (Same : forall d, i = at_i B (d_cp d) -> j = at_j B (d_cp d) -> d_cp d = cp).
  { intros d D1 D2. unfold i, j, at_i, at_j in *. apply N2Nat.inj in D1, D2.
    rewrite (N.div_mod cp (N.of_nat B)), (N.div_mod (d_cp d) (N.of_nat B)) by lia. congruence. }
  assert (None_case : (forall d, In d ds -> d_cp d <> cp) -> grapheme_num (d_gb (datum ds cp)) = 0%Z).
  { intros N. destruct (datum_case ds cp) as [I|[_ ->]]; [|reflexivity]. exfalso.
    apply (N _ I). unfold datum in *. destruct (find _ ds) as [d|] eqn:Fd; [apply find_some in Fd; now apply N.eqb_eq|reflexivity]. }
  destruct (nth_error (t_one tb) i) as [b|] eqn:E.
  - assert (Li : i < length (one (r_staged u))) by (rewrite <- L; apply nth_error_Some; congruence).
    destruct (Pl i Li) as (b' & p & P1 & P2 & P3). assert (b' = b) by congruence. subst b'. rewrite P2. cbn [obind]. rewrite (P3 j J). cbn [obind].
    destruct (look (r_staged u) i j) as [k|] eqn:Lo; cbn [cell_of].
    + destruct (iv_none _ _ _ _ Iv i j k Lo) as (d & D1 & D2 & D3). destruct (iv_data _ _ _ _ Iv d D1) as (_ & _ & k' & e & K1 & K2 & K3).
      rewrite <- D2, <- D3, Lo in K1. injection K1 as <-. rewrite K2. cbn [obind]. rewrite (eo_gb _ _ _ _ K3), F. f_equal. f_equal. f_equal.
      symmetry. assert (Ec := Same d D2 D3). destruct (datum_case ds cp) as [I|[N _]].
      * assert (Dc : d_cp (datum ds cp) = cp).
        { unfold datum. destruct (find _ ds) as [x|] eqn:Fd; [apply find_some in Fd; now apply N.eqb_eq|reflexivity]. }
        assert (ND := iv_distinct _ _ _ _ Iv). clear - ND I D1 Ec Dc. revert I Dc. generalize (datum ds cp) as x. intros x I Dc.
        induction ds as [|y l IH]; [contradiction|]. cbn in ND. apply NoDup_cons_iff in ND. destruct ND as [N1 N2].
        destruct I as [->|I], D1 as [->|D]; [reflexivity| | |now apply IH].
        -- exfalso. apply N1. rewrite Dc, <- Ec. now apply in_map.
        -- exfalso. apply N1. rewrite Ec, <- Dc. now apply in_map.
      * exfalso. apply N. rewrite <- Ec. now apply in_map.
    + rewrite (iv_zero _ _ _ _ Iv). cbn [obind]. rewrite None_case; [reflexivity|]. intros d D Ec.
      destruct (iv_data _ _ _ _ Iv d D) as (_ & _ & k' & e & K1 & _). rewrite Ec in K1. unfold at_i, at_j in K1. fold i j in K1. congruence.
  - cbn [grapheme_num]. rewrite None_case; [reflexivity|]. intros d D Ec. destruct (iv_data _ _ _ _ Iv d D) as (_ & X & _).
    rewrite Ec in X. unfold at_i in X. fold i in X. rewrite <- L in X. apply nth_error_None in E. lia.
Qed.
