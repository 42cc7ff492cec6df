(** Runs of code points and members of entries. *)
From Coq Require Import ZArith NArith List Bool Lia Arith.
From Verif Require Import UgModel UgLists UgType.
Import ListNotations.
Local Open Scope Z_scope.

(** ** Runs *)

(** The run with code points [cps] starts at cell [idx]. *)
Definition run_at (runs : list (list Z)) (idx : Z) (cps : list Z) : Prop :=
  exists pre post, runs = pre ++ cps :: post /\ idx = run_cells pre.
Lemma run_cells_app a b : run_cells (a ++ b) = run_cells a + run_cells b.
Proof. unfold run_cells. induction a as [|x a IH]; cbn [app fold_right]; [reflexivity|]. rewrite IH. lia. Qed.
Lemma run_cells_nonneg a : 0 <= run_cells a.
Proof. induction a as [|x a IH]; cbn [run_cells fold_right]; [lia|]. unfold run_cells in IH. lia. Qed.
Lemma run_at_app runs more idx cps : run_at runs idx cps -> run_at (runs ++ more) idx cps.
Proof. intros (a & b & -> & ->). exists a, (b ++ more). rewrite <- app_assoc. now split. Qed.
Lemma run_at_range runs idx cps : run_at runs idx cps -> 0 <= idx < run_cells runs.
Proof.
  intros (a & b & -> & ->). rewrite run_cells_app. cbn [run_cells fold_right]. assert (A := run_cells_nonneg a). assert (Bn := run_cells_nonneg b).
  unfold run_cells in Bn at 1. lia.
Qed.

Lemma find_run_spec runs : forall cps off f o, find_run runs cps off = (f, o) ->
  (f = true -> exists a b, runs = a ++ cps :: b /\ o = off + run_cells a) /\
  (f = false -> o = off + run_cells runs).
Proof.
  induction runs as [|r runs IH]; intros cps off f o H; cbn [find_run] in H.
  - injection H as <- <-. split; [discriminate|]. intros _. cbn. lia.
  - destruct (zlist_eqb r cps) eqn:E.
    + injection H as <- <-. split; [|discriminate]. intros _. apply zlist_eqb_eq in E. subst r. exists [], runs. split; [reflexivity|cbn; lia].
    + destruct (IH _ _ _ _ H) as [I1 I2]. split.
      * intros F. destruct (I1 F) as (a & b & -> & ->). exists (r :: a), b. split; [reflexivity|]. cbn [run_cells fold_right].
        unfold run_cells at 1. lia.
      * intros F. rewrite (I2 F). cbn [run_cells fold_right]. unfold run_cells at 1. lia.
Qed.
Definition led (runs : list (list Z)) : Prop := exists more, runs = [] :: more.
Lemma led_app runs more : led runs -> led (runs ++ more).
Proof. intros [m ->]. now exists (m ++ more). Qed.
Lemma add_unique_run_spec runs cps runs' i : led runs -> add_unique_run runs cps = (runs', i) ->
  run_at runs' i cps /\ exists more, runs' = runs ++ more /\ (forall r, In r more -> r = cps).
Proof.
  intros L H. unfold add_unique_run in H. destruct cps as [|c cps].
  - injection H as <- <-. split; [|exists []; now rewrite app_nil_r]. destruct L as [m ->]. exists [], m. split; reflexivity.
  - destruct (find_run runs (c :: cps) 0) as [f o] eqn:F. apply find_run_spec in F. destruct F as [F1 F2]. destruct f; injection H as <- <-.
    + split; [|exists []; split; [now rewrite app_nil_r|intros ? []]]. destruct (F1 eq_refl) as (a & b & -> & ->). exists a, b. split; [reflexivity|lia].
    + split.
      * exists runs, []. split; [reflexivity|]. rewrite F2 by reflexivity. lia.
      * exists [c :: cps]. split; [reflexivity|]. intros r [<-|[]]. reflexivity.
Qed.

Definition cells (runs : list (list Z)) : list Z := flat_map (fun r => r ++ [0]) runs.
Lemma cells_length runs : Z.of_nat (List.length (cells runs)) = run_cells runs.
Proof.
  induction runs as [|r runs IH]; [reflexivity|]. unfold cells in *. cbn [flat_map run_cells fold_right]. rewrite !app_length. cbn [List.length].
  unfold run_cells in IH. lia.
Qed.
Lemma read_run_cps cps rest : Forall (fun v => v <> 0) cps -> read_run (cps ++ 0 :: rest) = Some cps.
Proof.
  induction 1 as [|v l V F IH]; cbn [app read_run]; [reflexivity|]. rewrite (proj2 (Z.eqb_neq _ _) V). cbn. now rewrite IH.
Qed.
Lemma skipn_app_at {A} (a b : list A) n : n = List.length a -> skipn n (a ++ b) = b.
Proof. intros ->. rewrite skipn_app, skipn_all, Nat.sub_diag. reflexivity. Qed.
(** Reading at the position of a run, within arrays that are put one after the other. *)
Lemma read_run_at before runs after idx cps off : run_at runs idx cps -> Forall (fun v => v <> 0) cps ->
  off = Z.of_nat (List.length before) ->
  read_run (skipn (Z.to_nat (off + idx)) (before ++ cells runs ++ after)) = Some cps.
Proof.
  intros (a & b & -> & ->) F ->. unfold cells. rewrite flat_map_app. cbn [flat_map].
  rewrite <- !app_assoc. rewrite (app_assoc before). rewrite skipn_app_at.
  - cbn [app]. now apply read_run_cps.
  - rewrite app_length. rewrite <- cells_length. unfold cells. lia.
Qed.
Lemma flat_runs_cells runs : (1 < List.length runs)%nat -> flat_runs runs = cells runs.
Proof. intros L. unfold flat_runs. now rewrite (proj2 (Nat.ltb_lt _ _) L). Qed.
Lemma count_length runs : Z.of_nat (List.length (flat_runs runs)) = count_codepoints runs.
Proof. unfold flat_runs, count_codepoints. destruct (1 <? List.length runs)%nat; [apply cells_length|reflexivity]. Qed.

(** ** Entries *)

Lemma find_entry_spec es : forall e i f k, find_entry es e i = (f, k) ->
  (f = true -> (i <= k)%nat /\ nth_error es (k - i) = Some e) /\ (f = false -> k = (i + List.length es)%nat /\ ~ In e es).
Proof.
  induction es as [|x es IH]; intros e i f k H; cbn [find_entry] in H.
  - injection H as <- <-. split; [discriminate|]. intros _. cbn. split; [lia|tauto].
  - destruct (edata_eqb x e) eqn:E.
    + injection H as <- <-. split; [|discriminate]. intros _. apply edata_eqb_eq in E. subst x. rewrite Nat.sub_diag. split; [lia|reflexivity].
    + destruct (IH _ _ _ _ H) as [I1 I2]. split.
      * intros F. destruct (I1 F) as [A1 A2]. split; [lia|]. replace (k - i)%nat with (S (k - S i)) by lia. exact A2.
      * intros F. destruct (I2 F) as [A1 A2]. cbn [List.length]. split; [lia|]. intros [X|X]; [|tauto].
        subst x. assert (edata_eqb e e = true) by now apply edata_eqb_eq. congruence.
Qed.
Lemma add_unique_entry_spec es e es' k : add_unique_entry es e = (es', k) ->
  nth_error es' k = Some e /\ (es' = es \/ (es' = es ++ [e] /\ ~ In e es)).
Proof.
  unfold add_unique_entry. destruct (find_entry es e 0) as [f o] eqn:F. apply find_entry_spec in F. destruct F as [F1 F2].
  intros H. destruct f; injection H as <- <-.
  - destruct (F1 eq_refl) as [_ N]. rewrite Nat.sub_0_r in N. split; [exact N|now left].
  - destruct (F2 eq_refl) as [-> N]. split; [|right; now split]. rewrite nth_error_app2 by lia. replace (0 + List.length es - List.length es)%nat with 0%nat by lia. reflexivity.
Qed.

(** ** Members *)

Definition mvalue (u : ucd) (e : edata) (m : member) : Z :=
  match m with
  | Bits0 => e_flags e | Bits1 => e_gb e
  | FullUpper => e_full_upper e | FullTitle => e_full_title e | FullLower => e_full_lower e | FullFold => e_full_fold e
  | FullToggle => if e_full_toggle e <? 0 then - e_full_toggle e + count_codepoints (r_upper u) else e_full_toggle e
  | Canonical => e_canonical e | Compat => e_compat e
  | SimpleUpper => e_simple_upper e | SimpleTitle => e_simple_title e | SimpleLower => e_simple_lower e
  | SimpleFold => e_simple_fold e | SimpleToggle => e_simple_toggle e
  | SimpleCanonical => e_simple_canonical e | SimpleCompat => e_simple_compat e
  end.
Lemma init_members fl u e : (f_width fl = true -> f_grapheme fl = true) -> init_values fl u e = map (mvalue u e) (struct_members fl u).
Proof.
  intros Wd. unfold init_values, struct_members. rewrite !map_app.
  assert (G : (f_grapheme fl || f_width fl) = f_grapheme fl).
  { destruct (f_grapheme fl); [reflexivity|]. destruct (f_width fl); [now specialize (Wd eq_refl)|reflexivity]. }
  rewrite G. clear.
  repeat match goal with |- context [if ?b then _ else _] => lazymatch b with e_full_toggle e <? 0 => fail | _ => destruct b end end; reflexivity.
Qed.
Lemma aggregate_map v types : aggregate types (map v (map fst types)) = Some (map (fun x => (fst x, cast (snd x) (v (fst x)))) types).
Proof. induction types as [|[m t] l IH]; cbn; [reflexivity|]. now rewrite IH. Qed.
Lemma member_num_inj a b : member_num a = member_num b -> a = b.
Proof. destruct a, b; cbn; intros H; congruence. Qed.
Lemma omap_fst {A C} (f : A -> option C) l r : omap (fun m => let! t := f m in Some (m, t)) l = Some r -> map fst r = l.
Proof.
  revert r. induction l as [|x l IH]; intros r H; cbn [omap] in H; [injection H as <-; reflexivity|].
  destruct (f x); [|discriminate]. cbn [obind] in H. destruct (omap _ l) eqn:O; [|discriminate]. cbn [obind] in H. injection H as <-.
  cbn. now rewrite (IH _ eq_refl).
Qed.

(** The members that are as wide as their values need. *)
Definition by_values (m : member) : bool := match m with Bits0 | Bits1 | FullToggle => false | _ => true end.
Lemma by_values_in u m e : by_values m = true -> In e (r_entries u) -> In (mvalue u e m) (member_values u m).
Proof. destruct m; cbn; intros H I; try discriminate; now apply in_map. Qed.

Lemma member_read B fl u t pr k e m : (f_width fl = true -> f_grapheme fl = true) ->
  emit B fl u t = Some pr -> nth_error (r_entries u) k = Some e -> In m (struct_members fl u) ->
  (by_values m = false -> match m with FullToggle => 0 <= mvalue u e m <= run_cells (r_upper u) + run_cells (r_lower u) | _ => 0 <= mvalue u e m < 256 end) ->
  exists s, nth_error (p_entries pr) k = Some s /\ read s m = Some (mvalue u e m).
Proof.
  intros Wd H N I R. unfold emit in H.
  do 3 (destruct (obind (value_to_size _) get_type); [|discriminate]; cbn [obind] in H).
  destruct (two_code B fl t); [|discriminate]. cbn [obind] in H.
  destruct (omap array_size _); [|discriminate]. cbn [obind] in H.
  destruct (guard _); [|discriminate]. cbn [obind] in H.
  destruct (omap _ (struct_members fl u)) as [types|] eqn:T; [|discriminate]. cbn [obind] in H.
  destruct (omap _ (r_entries u)) as [entries|] eqn:E; [|discriminate]. cbn [obind] in H. injection H as <-. cbn [p_entries].
  destruct (omap_nth _ _ _ _ _ E N) as [s [S1 S2]]. exists s. split; [exact S1|].
  rewrite (init_members fl u e Wd) in S2.
  set (ty := fun m => let! x := member_size u m in get_type x).
  assert (T' : omap (fun m => let! t := ty m in Some (m, t)) (struct_members fl u) = Some types).
  { rewrite <- T. clear. induction (struct_members fl u) as [|x l IH]; [reflexivity|]. cbn [omap]. rewrite IH. unfold ty.
    destruct (member_size u x) as [z|]; [|reflexivity]. cbn [obind]. destruct (get_type z); reflexivity. }
  assert (Fs := omap_fst _ _ _ T'). rewrite <- Fs, aggregate_map in S2. injection S2 as <-.
  unfold read. destruct (find _ _) as [[m' v]|] eqn:F.
  - apply find_some in F. destruct F as [F1 F2]. cbn [fst] in F2. apply Nat.eqb_eq, member_num_inj in F2. subst m'.
    cbn [obind snd]. apply in_map_iff in F1. destruct F1 as [[m' t'] [F1 F3]]. cbn [fst snd] in F1. injection F1 as -> <-. f_equal.
    destruct (omap_in _ _ _ _ T' F3) as [x [_ X]]. destruct (ty x) as [tx|] eqn:Tx; [|discriminate]. cbn [obind] in X. injection X as -> ->.
    unfold ty in Tx. assert (Ie : In e (r_entries u)) by (eapply nth_error_In; eauto).
    destruct (by_values m) eqn:BV.
    + assert (Tv : obind (value_to_size (minmax (member_values u m))) get_type = Some t') by (destruct m; try discriminate; exact Tx).
      apply (value_to_size_cast _ _ _ Tv). right. now apply by_values_in.
    + specialize (R eq_refl). destruct m; try discriminate.
      1,2: cbn in Tx; injection Tx as <-; apply cast_fits; [now left|]; unfold fits; cbn [c_signed c_size]; cbn in R; rewrite andb_true_iff, !Z.leb_le; cbn; lia.
      unfold member_size in Tx. destruct (value_to_size _) as [ts|] eqn:V in Tx; [|discriminate]. cbn [obind] in Tx.
      unfold get_type in Tx. destruct (0 <? c_size ts) eqn:Sz; [|discriminate]. injection Tx as ->. apply Z.ltb_lt in Sz.
      destruct (value_to_size_fits _ _ (run_cells (r_upper u) + run_cells (r_lower u)) V Sz) as [Q1 Q2]; [right; now left|].
      destruct (value_to_size_fits _ _ 0 V Sz) as [Q3 _]; [now left|].
      apply cast_fits; [exact Q2|]. unfold fits in *. destruct (c_signed t'); rewrite andb_true_iff, !Z.leb_le in *; lia.
  - exfalso. rewrite <- Fs in I. apply in_map_iff in I. destruct I as [[m' t'] [I1 I2]]. cbn in I1. subst m'.
    assert (I3 : In (m, cast t' (mvalue u e m)) (map (fun x => (fst x, cast (snd x) (mvalue u e (fst x)))) types)) by (apply in_map_iff; exists (m, t'); now split).
    apply (find_none _ _ F) in I3. cbn in I3. rewrite Nat.eqb_refl in I3. discriminate.
Qed.
