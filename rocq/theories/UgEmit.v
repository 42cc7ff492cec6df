(** Lookup in the generated program. *)
From Coq Require Import ZArith NArith List Bool Lia Arith.
From Verif Require Import UgModel UgLists UgType UgOne UgTriv UgTab UgLook UgRuns UgGen.
Import ListNotations.
Local Open Scope Z_scope.

Lemma emit_tables B fl u tb pr : emit B fl u tb = Some pr ->
  p_one pr = zs (one_cells fl tb) /\ p_one_code pr = one_function fl tb /\
  (forall v, In v (t_one tb) -> cast (p_one_type pr) (Z.of_nat v) = Z.of_nat v) /\
  cast (p_one_type pr) 0 = 0 /\
  p_two pr = zs (two_cells tb) /\ two_code B fl tb = Some (p_two_code pr) /\
  (forall v, In v (flat_map pl_block (t_two tb)) -> cast (p_two_type pr) (Z.of_nat v) = Z.of_nat v) /\
  cast (p_two_type pr) 0 = 0.
Proof.
  intros H. unfold emit in H. fold (one_cells fl tb) in H.
  destruct (obind (value_to_size (minmax (zs (one_cells fl tb)))) get_type) as [t1|] eqn:T1; [|discriminate]. cbn [obind] in H.
  destruct (obind (value_to_size (minmax (zs (t_one tb)))) get_type) as [t2|] eqn:T2; [|discriminate]. cbn [obind] in H.
  destruct (obind (value_to_size (minmax (zs (flat_map pl_block (t_two tb))))) get_type) as [t3|] eqn:T3; [|discriminate]. cbn [obind] in H.
  destruct (two_code B fl tb) as [w|] eqn:W; [|discriminate]. cbn [obind] in H.
  destruct (omap array_size _); [|discriminate]. cbn [obind] in H.
  destruct (guard _); [|discriminate]. cbn [obind] in H.
  destruct (omap _ (struct_members fl u)) as [types|]; [|discriminate]. cbn [obind] in H.
  destruct (omap _ (r_entries u)) as [entries|]; [|discriminate]. cbn [obind] in H. injection H as <-. cbn.
  assert (Sub : forall v, In v (two_cells tb) -> In v (flat_map pl_block (t_two tb))).
  { intros v I. unfold two_cells in I. apply in_flat_map in I. destruct I as [p [I1 I2]]. apply filter_In in I1. apply in_flat_map. exists p. tauto. }
  split; [|split; [reflexivity|split; [|split; [|split; [|split; [reflexivity|split]]]]]].
  - apply map_cast. intros v I. apply (value_to_size_cast _ _ _ T1). now right.
  - intros v I. apply (value_to_size_cast _ _ _ T2). right. now apply in_map.
  - apply (value_to_size_cast _ _ _ T2). now left.
  - change (flat_map pl_block (filter _ (t_two tb))) with (two_cells tb). apply map_cast. intros v I. apply (value_to_size_cast _ _ _ T3). right.
    unfold zs in *. apply in_map_iff in I. destruct I as [x [<- I]]. apply in_map. now apply Sub.
  - intros v I. apply (value_to_size_cast _ _ _ T3). right. now apply in_map.
  - apply (value_to_size_cast _ _ _ T3). now left.
Qed.

(** The entry that is returned, in a block of stage one. *)
Lemma emit_lookup B P fl u tb pr cp asserts : (0 < B)%nat -> wf B (r_staged u) ->
  prune P fl (r_staged u) = Some tb -> emit B fl u tb = Some pr ->
  (asserts = true -> (cp <= 1114111)%N) -> (at_i B cp < List.length (one (r_staged u)))%nat ->
  exists v, get_internal B asserts pr cp = nth_error (p_entries pr) v /\
    (exists j, (j < B)%nat /\ v = cell_of (look (r_staged u) (at_i B cp) j)) /\
    (f_prune2 fl = false \/ ~ awkward (map (fun j => cell_of (look (r_staged u) (at_i B cp) j)) (seq 0 B)) ->
     v = cell_of (look (r_staged u) (at_i B cp) (at_j B cp))).
Proof.
  intros HB W Hp He Ha Li. destruct (emit_tables _ _ _ _ _ He) as (E1 & E2 & E3 & _ & E4 & E5 & E6 & _).
  destruct (prune_lookup B P fl _ tb _ HB W Hp E5) as (L1 & S1 & S2 & _ & Cells & _).
  destruct (Cells _ Li) as (b & blk & Q1 & Q2 & Q3 & Q4 & Q5 & Q6).
  assert (Sz : (t_one_size tb <= List.length (t_one tb))%nat).
  { destruct (f_prune1 fl); [|rewrite S2 by reflexivity; lia]. destruct (S1 eq_refl) as [->|]; [|assumption]. lia. }
  destruct (Q6 asserts (at_j B cp) (at_j_lt B cp HB)) as (v & R1 & R2 & R3). exists v.
  assert (Blk : blk = map (fun j => cell_of (look (r_staged u) (at_i B cp) j)) (seq 0 B)).
  { apply nth_error_ext. intros j. rewrite nth_error_map. destruct (Nat.lt_ge_cases j B) as [J|J].
    - rewrite Q5 by exact J. rewrite (nth_error_nth' _ 0%nat) by (now rewrite seq_length). rewrite seq_nth by exact J. reflexivity.
    - rewrite (proj2 (nth_error_None _ _)) by lia. rewrite (proj2 (nth_error_None _ _)) by (now rewrite seq_length). reflexivity. }
  split; [|split].
  - unfold get_internal.
    assert (G : guard (negb asserts || (cp <=? 1114111)%N) = Some tt).
    { destruct asserts; [|reflexivity]. cbn [negb orb]. rewrite (proj2 (N.leb_le _ _) (Ha eq_refl)). reflexivity. }
    rewrite G. cbn [obind]. fold (at_i B cp) (at_j B cp). rewrite E2.
    rewrite (one_function_in fl tb _ _ b Sz E1 Q1). cbn [obind]. rewrite E3 by (eapply nth_error_In; eauto). rewrite Nat2Z.id.
    rewrite E4, R1. cbn [obind]. rewrite E6, Nat2Z.id; [reflexivity|]. apply in_flat_map.
    apply in_map_iff in Q3. destruct Q3 as [p [<- Ip]]. exists p. now split.
  - apply In_nth_error in R2. destruct R2 as [j N].
    assert (J : (j < B)%nat) by (rewrite <- Q4; apply nth_error_Some; congruence). exists j. split; [exact J|].
    rewrite Q5 in N by exact J. congruence.
  - rewrite <- Blk. exact R3.
Qed.
(** Beyond stage one, when invalid code points are handled and some block has no data. *)
Lemma emit_beyond B P fl u tb pr cp asserts i0 : (0 < B)%nat -> wf B (r_staged u) ->
  prune P fl (r_staged u) = Some tb -> emit B fl u tb = Some pr ->
  (asserts = true -> (cp <= 1114111)%N) -> (List.length (one (r_staged u)) <= at_i B cp)%nat ->
  f_invalid fl = true -> (i0 < List.length (one (r_staged u)))%nat ->
  (forall j, (j < B)%nat -> cell_of (look (r_staged u) i0 j) = 0%nat) ->
  get_internal B asserts pr cp = nth_error (p_entries pr) 0.
Proof.
  intros HB W Hp He Ha Lo Fi Li Z0. destruct (emit_tables _ _ _ _ _ He) as (E1 & E2 & E3 & _ & E4 & E5 & E6 & _).
  destruct (prune_lookup B P fl _ tb _ HB W Hp E5) as (L1 & S1 & S2 & _ & Cells & Zs).
  destruct (Cells _ Li) as (b & blk & Q1 & Q2 & Q3 & Q4 & Q5 & Q6). specialize (Zs _ Li Z0). rewrite Zs in Q1. injection Q1 as <-.
  assert (Sz : (t_one_size tb <= List.length (t_one tb))%nat).
  { destruct (f_prune1 fl); [|rewrite S2 by reflexivity; lia]. destruct (S1 eq_refl) as [->|]; [|assumption]. lia. }
  destruct (Q6 asserts (at_j B cp) (at_j_lt B cp HB)) as (v & R1 & R2 & _).
  assert (v = 0%nat).
  { apply In_nth_error in R2. destruct R2 as [j N]. assert (J : (j < B)%nat) by (rewrite <- Q4; apply nth_error_Some; congruence).
    rewrite Q5 in N by exact J. rewrite Z0 in N by exact J. congruence. }
  subst v. unfold get_internal.
  assert (G : guard (negb asserts || (cp <=? 1114111)%N) = Some tt).
  { destruct asserts; [|reflexivity]. cbn [negb orb]. rewrite (proj2 (N.leb_le _ _) (Ha eq_refl)). reflexivity. }
  rewrite G. cbn [obind]. fold (at_i B cp) (at_j B cp). rewrite E2.
  rewrite (one_function_out fl tb _ _ Sz Fi) by lia. cbn [obind]. rewrite E3 by (eapply nth_error_In; eauto). rewrite Nat2Z.id.
  rewrite E4, R1. cbn [obind]. rewrite E6; [reflexivity|]. apply in_flat_map.
  apply in_map_iff in Q3. destruct Q3 as [p [<- Ip]]. exists p. now split.
Qed.

(** ** Whole generation *)

(** The entries are the ones of the data, of edata_zero for code points without data. *)
Lemma generate_data B P fl ds pr d : (0 < B)%nat -> generate B P fl ds = Some pr -> f_prune2 fl = false -> In d ds ->
  exists u tb k e, inv B fl ds u /\ emit B fl u tb = Some pr /\ nth_error (r_entries u) k = Some e /\ entry_of fl u d e /\
    forall asserts, get_internal B asserts pr (d_cp d) = nth_error (p_entries pr) k.
Proof.
  intros HB H P2 I. unfold generate in H. destruct (add_all B fl (ucd_init B) ds) as [u|] eqn:A; [|discriminate]. cbn [obind] in H.
  destruct (prune P fl (r_staged u)) as [tb|] eqn:Pr; [|discriminate]. cbn [obind] in H.
  assert (Iv := inv_all B fl ds HB [] _ _ (inv_init B fl) A). cbn [app] in Iv.
  destruct (iv_data _ _ _ _ Iv d I) as (D1 & D2 & k & e & D3 & D4 & D5).
  exists u, tb, k, e. repeat (split; [assumption|]). intros asserts.
  destruct (emit_lookup B P fl u tb pr (d_cp d) asserts HB (iv_wf _ _ _ _ Iv) Pr H (fun _ => D1) D2) as (v & V1 & _ & V2).
  rewrite V1, (V2 (or_introl P2)), D3. reflexivity.
Qed.
Lemma generate_none B P fl ds pr cp : (0 < B)%nat -> generate B P fl ds = Some pr -> f_prune2 fl = false -> ~ In cp (map d_cp ds) ->
  (exists d, In d ds /\ (cp / N.of_nat B <= d_cp d / N.of_nat B)%N) \/
  (f_invalid fl = true /\ exists b, (exists d, In d ds /\ (b <= d_cp d / N.of_nat B)%N) /\ forall d, In d ds -> (d_cp d / N.of_nat B <> b)%N) ->
  exists u tb, inv B fl ds u /\ emit B fl u tb = Some pr /\ nth_error (r_entries u) 0 = Some edata_zero /\
    forall asserts, (asserts = true -> (cp <= 1114111)%N) -> get_internal B asserts pr cp = nth_error (p_entries pr) 0.
Proof.
  intros HB H P2 Nc Or. unfold generate in H. destruct (add_all B fl (ucd_init B) ds) as [u|] eqn:A; [|discriminate]. cbn [obind] in H.
  destruct (prune P fl (r_staged u)) as [tb|] eqn:Pr; [|discriminate]. cbn [obind] in H.
  assert (Iv := inv_all B fl ds HB [] _ _ (inv_init B fl) A). cbn [app] in Iv.
  exists u, tb. split; [exact Iv|]. split; [exact H|]. split; [exact (iv_zero _ _ _ _ Iv)|]. intros asserts Ha.
  assert (Lk : look (r_staged u) (at_i B cp) (at_j B cp) = None).
  { destruct (look _ _ _) as [k|] eqn:L; [|reflexivity]. exfalso. destruct (iv_none _ _ _ _ Iv _ _ _ L) as (d & D1 & D2 & D3).
    apply Nc. rewrite (at_inj B _ _ HB D2 D3). now apply in_map. }
  assert (Len : forall b, (exists d, In d ds /\ (b <= d_cp d / N.of_nat B)%N) -> (N.to_nat b < List.length (one (r_staged u)))%nat).
  { intros b (d & D1 & D2). destruct (iv_data _ _ _ _ Iv d D1) as (_ & D3 & _). unfold at_i in D3. lia. }
  destruct (Nat.lt_ge_cases (at_i B cp) (List.length (one (r_staged u)))) as [L|L].
  - destruct (emit_lookup B P fl u tb pr cp asserts HB (iv_wf _ _ _ _ Iv) Pr H Ha L) as (v & V1 & _ & V2).
    rewrite V1, (V2 (or_introl P2)), Lk. reflexivity.
  - destruct Or as [Ex|(Fi & b & Ex & Nb)].
    + apply Len in Ex. unfold at_i in L. lia.
    + eapply (emit_beyond B P fl u tb pr cp asserts (N.to_nat b)); eauto using iv_wf.
      intros j J. destruct (look (r_staged u) (N.to_nat b) j) as [k|] eqn:Q; [|reflexivity]. exfalso.
      destruct (iv_none _ _ _ _ Iv _ _ _ Q) as (d & D1 & D2 & D3). apply (Nb d D1). unfold at_i in D2. lia.
Qed.

(** Removing trivial blocks changes no result, except in blocks of the form x y x ... x y. *)
Definition keep_two (fl : flags) : flags :=
  {| f_case_info := f_case_info fl; f_category := f_category fl; f_grapheme := f_grapheme fl; f_width := f_width fl;
     f_canonical := f_canonical fl; f_compat := f_compat fl; f_full := f_full fl; f_full_fold := f_full_fold fl;
     f_full_toggle := f_full_toggle fl; f_simple := f_simple fl; f_simple_fold := f_simple_fold fl;
     f_simple_toggle := f_simple_toggle fl; f_prune1 := f_prune1 fl; f_prune2 := false; f_invalid := f_invalid fl;
     f_assert := f_assert fl |}.
Lemma add_all_keep B fl ds : forall u, add_all B (keep_two fl) u ds = add_all B fl u ds.
Proof.
  induction ds as [|d ds IH]; intros u; cbn [add_all]; [reflexivity|].
  change (add_data B (keep_two fl) u d) with (add_data B fl u d). destruct (add_data B fl u d); [apply IH|reflexivity].
Qed.
Lemma emit_entries B fl u tb pr : emit B fl u tb = Some pr ->
  exists types, omap (fun m => let! s := member_size u m in let! ty := get_type s in Some (m, ty)) (struct_members fl u) = Some types /\
    omap (fun e => aggregate types (init_values fl u e)) (r_entries u) = Some (p_entries pr).
Proof.
  intros H. unfold emit in H. do 3 (destruct (obind (value_to_size _) get_type); [|discriminate]; cbn [obind] in H).
  destruct (two_code B fl tb) as [w|] eqn:W; [|discriminate]. cbn [obind] in H.
  destruct (omap array_size _); [|discriminate]. cbn [obind] in H.
  destruct (guard _); [|discriminate]. cbn [obind] in H.
  destruct (omap _ (struct_members fl u)) as [types|]; [|discriminate]. cbn [obind] in H.
  destruct (omap _ (r_entries u)) as [entries|] eqn:E; [|discriminate]. cbn [obind] in H. injection H as <-. cbn. exists types. now split.
Qed.
Lemma emit_entries_keep B fl u tb tb' pr pr' : emit B fl u tb = Some pr -> emit B (keep_two fl) u tb' = Some pr' -> p_entries pr = p_entries pr'.
Proof.
  intros H H'. apply emit_entries in H, H'. destruct H as (ty & H1 & H2), H' as (ty' & H1' & H2').
  change (struct_members (keep_two fl) u) with (struct_members fl u) in H1'. assert (ty = ty') by congruence. subst ty'.
  change (fun e => aggregate ty (init_values (keep_two fl) u e)) with (fun e => aggregate ty (init_values fl u e)) in H2'. congruence.
Qed.
Definition shaped {A} (b : list A) : Prop := exists x y n, x <> y /\ (2 <= n)%nat /\ b = x :: y :: repeat x n ++ [y].
Lemma map_repeat {A C} (f : A -> C) x n : map f (repeat x n) = repeat (f x) n.
Proof. induction n; cbn; [reflexivity|now rewrite IHn]. Qed.

Lemma generate_keep B P fl ds pr pr' cp : (0 < B)%nat -> generate B P fl ds = Some pr -> generate B P (keep_two fl) ds = Some pr' ->
  (cp <= 1114111)%N -> (exists d, In d ds /\ (cp / N.of_nat B <= d_cp d / N.of_nat B)%N) ->
  ~ shaped (map (fun j => get_internal B false pr' (cp / N.of_nat B * N.of_nat B + N.of_nat j)%N) (seq 0 B)) ->
  forall asserts, get_internal B asserts pr cp = get_internal B asserts pr' cp.
Proof.
  intros HB H H' Hc Ex NS asserts. unfold generate in H, H'. rewrite add_all_keep in H'.
  destruct (add_all B fl (ucd_init B) ds) as [u|] eqn:A; [|discriminate]. cbn [obind] in H, H'.
  destruct (prune P fl (r_staged u)) as [tb|] eqn:Pr; [|discriminate]. cbn [obind] in H.
  destruct (prune P (keep_two fl) (r_staged u)) as [tb'|] eqn:Pr'; [|discriminate]. cbn [obind] in H'.
  assert (Iv := inv_all B fl ds HB [] _ _ (inv_init B fl) A). cbn [app] in Iv. assert (W := iv_wf _ _ _ _ Iv).
  assert (Len : (at_i B cp < List.length (one (r_staged u)))%nat).
  { destruct Ex as (d & D1 & D2). destruct (iv_data _ _ _ _ Iv d D1) as (_ & D3 & _). unfold at_i in *. lia. }
  assert (Ee := emit_entries_keep B fl u tb tb' pr pr' H H').
  destruct (emit_lookup B P fl u tb pr cp asserts HB W Pr H (fun _ => Hc) Len) as (v & V1 & (j0 & J0 & V3) & V2).
  destruct (emit_lookup B P (keep_two fl) u tb' pr' cp asserts HB W Pr' H' (fun _ => Hc) Len) as (v' & V1' & _ & V2').
  specialize (V2' (or_introl eq_refl)). subst v'. rewrite V1, V1', Ee.
  set (idx := fun j => cell_of (look (r_staged u) (at_i B cp) j)) in *.
  assert (Vals : map (fun j => get_internal B false pr' (cp / N.of_nat B * N.of_nat B + N.of_nat j)%N) (seq 0 B) =
                 map (nth_error (p_entries pr')) (map idx (seq 0 B))).
  { rewrite map_map. apply map_ext_in. intros j Ij. apply in_seq in Ij.
    assert (Nj : (N.of_nat j < N.of_nat B)%N) by lia. set (cj := (cp / N.of_nat B * N.of_nat B + N.of_nat j)%N).
    assert (D : (cj / N.of_nat B = cp / N.of_nat B)%N). { symmetry. apply N.div_unique with (N.of_nat j); [exact Nj|unfold cj; lia]. }
    assert (M : (cj mod N.of_nat B = N.of_nat j)%N). { symmetry. apply N.mod_unique with (cp / N.of_nat B)%N; [exact Nj|unfold cj; lia]. }
    assert (Ei : at_i B cj = at_i B cp) by (unfold at_i; now rewrite D).
    assert (Ej : at_j B cj = j) by (unfold at_j; rewrite M; lia).
    destruct (emit_lookup B P (keep_two fl) u tb' pr' cj false HB W Pr' H' (fun F => ltac:(discriminate F)) ltac:(now rewrite Ei)) as (v'' & X1 & _ & X2).
    specialize (X2 (or_introl eq_refl)). rewrite X1, X2, Ei, Ej. reflexivity. }
  rewrite Vals in NS.
  destruct (f_prune2 fl) eqn:P2; [|now rewrite (V2 (or_introl eq_refl))].
  assert (Dec : ~ awkward (map idx (seq 0 B)) \/ exists x y, nth_error (p_entries pr') x = nth_error (p_entries pr') y /\
            forall z, In z (map idx (seq 0 B)) -> z = x \/ z = y).
  { set (l := map idx (seq 0 B)) in *.
    destruct l as [|x [|y l']] eqn:El; [left; intros (a & b & n & _ & _ & Q); discriminate|left; intros (a & b & n & _ & _ & Q); discriminate|].
    assert (DD : nth_error (p_entries pr') x = nth_error (p_entries pr') y \/ nth_error (p_entries pr') x <> nth_error (p_entries pr') y).
    { assert (X1 : forall a b : list (member * Z), {a = b} + {a <> b}) by (repeat decide equality).
      assert (X0 : forall a b : option (list (member * Z)), {a = b} + {a <> b}) by decide equality. destruct (X0 (nth_error (p_entries pr') x) (nth_error (p_entries pr') y)); auto. }
    assert (AD : awkward (x :: y :: l') \/ ~ awkward (x :: y :: l')).
    { destruct (list_eq_dec Nat.eq_dec (x :: y :: l') (x :: y :: repeat x (List.length l' - 1) ++ [y])) as [E|E].
      - destruct (Nat.eq_dec x y) as [->|Nxy]; [right; intros (a & b & n & Q1 & Q2 & Q3); injection Q3 as -> -> _; congruence|].
        destruct (Nat.le_gt_cases 2 (List.length l' - 1)) as [L|L]; [left; exists x, y, (List.length l' - 1)%nat; repeat split; assumption|].
        right. intros (a & b & n & Q1 & Q2 & Q3). injection Q3 as _ _ Q3. rewrite Q3, app_length, repeat_length in L. cbn in L. lia.
      - right. intros (a & b & n & Q1 & Q2 & Q3). apply E. injection Q3 as -> -> Q3. rewrite Q3, app_length, repeat_length. cbn [List.length].
        replace (n + 1 - 1)%nat with n by lia. reflexivity. }
    destruct AD as [AD|AD]; [|now left]. destruct DD as [DD|DD].
    - right. exists x, y. split; [exact DD|]. intros z Iz. destruct AD as (a & b & n & Q1 & Q2 & Q3). injection Q3 as <- <- Q3. subst l'.
      destruct Iz as [<-|[<-|Iz]]; [now left|now right|]. apply in_app_or in Iz. destruct Iz as [Iz|[<-|[]]]; [left; exact (repeat_spec _ _ _ Iz)|now right].
    - exfalso. apply NS. destruct AD as (a & b & n & Q1 & Q2 & Q3). injection Q3 as <- <- Q3. subst l'.
      exists (nth_error (p_entries pr') x), (nth_error (p_entries pr') y), n. split; [exact DD|]. split; [exact Q2|].
      cbn [map]. rewrite map_app, map_repeat. reflexivity. }
  destruct Dec as [NA|(x & y & Exy & All)].
  - now rewrite (V2 (or_intror NA)).
  - assert (In1 : In v (map idx (seq 0 B))) by (apply in_map_iff; exists j0; split; [now symmetry|apply in_seq; lia]).
    assert (In2 : In (idx (at_j B cp)) (map idx (seq 0 B))).
    { apply in_map_iff. exists (at_j B cp). split; [reflexivity|]. apply in_seq. assert (J := at_j_lt B cp HB). lia. }
    destruct (All _ In1) as [->| ->]; destruct (All _ In2) as [E| E]; change (cell_of (look (r_staged u) (at_i B cp) (at_j B cp))) with (idx (at_j B cp)); rewrite E; congruence.
Qed.
