(** The functions of the generated program give the data. *)
From Coq Require Import ZArith NArith String List Bool Lia Arith.
From Verif Require Import UgModel UgSpec UgLists UgType UgOne UgTriv UgTab UgLook UgRuns UgGen UgEmit.
Import ListNotations.
Local Open Scope Z_scope.

Lemma entry_of_unassigned B fl ds u cp : inv B fl ds u -> entry_of fl u (unassigned cp) edata_zero.
Proof.
  intros I. constructor; cbn; try (now destruct (f_grapheme fl)); try (now destruct (f_simple fl)); try (now destruct (f_simple_fold fl)).
  - unfold to_flags. destruct (f_category fl), (f_case_info fl); reflexivity.
  - destruct (f_simple_toggle fl); reflexivity.
  - destruct (f_canonical fl); reflexivity.
  - destruct (f_compat fl); reflexivity.
  - unfold full_of. cbn. destruct (f_full fl); apply led_at, (iv_upper _ _ _ _ I).
  - unfold full_of. cbn. destruct (f_full fl); apply led_at, (iv_title _ _ _ _ I).
  - unfold full_of. cbn. destruct (f_full fl); apply led_at, (iv_lower _ _ _ _ I).
  - unfold full_of. cbn. destruct (f_full_fold fl); apply led_at, (iv_fold _ _ _ _ I).
  - unfold toggle_at. cbn. rewrite !andb_false_r. reflexivity.
Qed.
Lemma datum_cp ds cp : d_cp (datum ds cp) = cp.
Proof. unfold datum. destruct (find _ ds) as [d|] eqn:F; [|reflexivity]. apply find_some in F. now apply N.eqb_eq. Qed.
Lemma datum_case ds cp : In (datum ds cp) ds \/ (~ In cp (map d_cp ds) /\ datum ds cp = unassigned cp).
Proof.
  unfold datum. destruct (find _ ds) as [d|] eqn:F; [left; apply find_some in F; tauto|]. right. split; [|reflexivity].
  intros I. apply in_map_iff in I. destruct I as [d [D1 D2]]. apply (find_none _ _ F) in D2. rewrite D1, N.eqb_refl in D2. discriminate.
Qed.

Lemma generate_datum B P fl ds pr cp : (0 < B)%nat -> generate B P fl ds = Some pr -> f_prune2 fl = false -> reached B fl ds cp ->
  exists u tb k e, inv B fl ds u /\ emit B fl u tb = Some pr /\ nth_error (r_entries u) k = Some e /\ entry_of fl u (datum ds cp) e /\
    forall asserts, (asserts = true -> (cp <= 1114111)%N) -> get_internal B asserts pr cp = nth_error (p_entries pr) k.
Proof.
  intros HB H P2 R. destruct (datum_case ds cp) as [I|[N ->]].
  - destruct (generate_data B P fl ds pr _ HB H P2 I) as (u & tb & k & e & Q1 & Q2 & Q3 & Q4 & Q5).
    exists u, tb, k, e. repeat (split; [assumption|]). intros asserts _. rewrite datum_cp in Q5. apply Q5.
  - destruct (generate_none B P fl ds pr cp HB H P2 N R) as (u & tb & Q1 & Q2 & Q3 & Q4).
    exists u, tb, 0%nat, edata_zero. repeat (split; [assumption|]). split; [now apply (entry_of_unassigned B fl ds)|exact Q4].
Qed.

(** The value of a member. *)
Lemma generate_member B P fl ds pr cp m : (0 < B)%nat -> generate B P fl ds = Some pr -> f_prune2 fl = false ->
  (f_width fl = true -> f_grapheme fl = true) -> reached B fl ds cp -> (forall u, inv B fl ds u -> In m (struct_members fl u)) ->
  exists u tb e, inv B fl ds u /\ emit B fl u tb = Some pr /\ In e (r_entries u) /\ entry_of fl u (datum ds cp) e /\
    ((by_values m = false -> match m with FullToggle => 0 <= mvalue u e m <= run_cells (r_upper u) + run_cells (r_lower u) | _ => 0 <= mvalue u e m < 256 end) ->
     forall asserts, (asserts = true -> (cp <= 1114111)%N) ->
     exists s, get_internal B asserts pr cp = Some s /\ read s m = Some (mvalue u e m)).
Proof.
  intros HB H P2 Wd R Im. destruct (generate_datum B P fl ds pr cp HB H P2 R) as (u & tb & k & e & Q1 & Q2 & Q3 & Q4 & Q5).
  exists u, tb, e. split; [exact Q1|]. split; [exact Q2|]. split; [eapply nth_error_In; eauto|]. split; [exact Q4|].
  intros Rg asserts Ha. destruct (member_read B fl u tb pr k e m Wd Q2 Q3 (Im u Q1) Rg) as (s & S1 & S2).
  exists s. split; [rewrite (Q5 asserts Ha); exact S1|exact S2].
Qed.
Ltac in_members := intros; unfold struct_members; repeat (rewrite in_app_iff);
  repeat match goal with E : ?x = true |- _ => rewrite !E end; rewrite ?orb_true_r; cbn; tauto.

Lemma to_flags_range fcat fcase c w : 0 <= to_flags fcat fcase c w < 256.
Proof. destruct fcat, fcase, c, w; cbn; lia. Qed.
Lemma grapheme_range g : 0 <= grapheme_num g < 16.
Proof. destruct g; cbn; lia. Qed.

(** ** Bits *)
Lemma bits0_get B P fl ds pr cp asserts : (0 < B)%nat -> generate B P fl ds = Some pr -> f_prune2 fl = false ->
  (f_width fl = true -> f_grapheme fl = true) -> reached B fl ds cp -> (asserts = true -> (cp <= 1114111)%N) ->
  f_category fl || f_case_info fl = true ->
  exists s, get_internal B asserts pr cp = Some s /\
    read s Bits0 = Some (to_flags (f_category fl) (f_case_info fl) (d_cat (datum ds cp)) (d_white (datum ds cp))).
Proof.
  intros HB H P2 Wd R Ha F.
  destruct (generate_member B P fl ds pr cp Bits0 HB H P2 Wd R) as (u & tb & e & _ & _ & _ & E & G).
  { in_members. }
  cbn [mvalue] in G. rewrite (eo_flags _ _ _ _ E) in G. apply G; [intros _; apply to_flags_range|exact Ha].
Qed.
Lemma bits1_get B P fl ds pr cp asserts : (0 < B)%nat -> generate B P fl ds = Some pr -> f_prune2 fl = false ->
  f_grapheme fl = true -> reached B fl ds cp -> (asserts = true -> (cp <= 1114111)%N) ->
  exists s, get_internal B asserts pr cp = Some s /\ read s Bits1 = Some (grapheme_num (d_gb (datum ds cp))).
Proof.
  intros HB H P2 F R Ha.
  destruct (generate_member B P fl ds pr cp Bits1 HB H P2 (fun _ => F) R) as (u & tb & e & _ & _ & _ & E & G).
  { in_members. }
  cbn [mvalue] in G. rewrite (eo_gb _ _ _ _ E), F in G. apply G; [intros _; assert (X := grapheme_range (d_gb (datum ds cp))); lia|exact Ha].
Qed.

(** ** Simple mappings *)
Lemma shift_back cp o : (forall v, o = Some v -> 0 <= v < 2 ^ 32) -> (cp <= 4294967295)%N -> (Z.of_N cp + shift_to cp o) mod 2 ^ 32 = mapped cp o.
Proof.
  intros R C. unfold shift_to, mapped. destruct o as [v|].
  - specialize (R v eq_refl). replace (Z.of_N cp + (v - Z.of_N cp)) with v by lia. apply Z.mod_small. exact R.
  - rewrite Z.add_0_r. apply Z.mod_small. lia.
Qed.
Lemma simple_get B P fl ds pr cp asserts m v : (0 < B)%nat -> generate B P fl ds = Some pr -> f_prune2 fl = false ->
  (f_width fl = true -> f_grapheme fl = true) -> reached B fl ds cp -> (asserts = true -> (cp <= 1114111)%N) ->
  (forall u, inv B fl ds u -> In m (struct_members fl u)) -> by_values m = true -> (cp <= 4294967295)%N ->
  (forall v', v = Some v' -> 0 <= v' < 2 ^ 32) ->
  (forall u e, entry_of fl u (datum ds cp) e -> mvalue u e m = shift_to (d_cp (datum ds cp)) v) ->
  get_simple m B asserts pr cp = Some (mapped cp v).
Proof.
  intros HB H P2 Wd R Ha Im Bv Lc Rv Mv. destruct (generate_member B P fl ds pr cp m HB H P2 Wd R Im) as (u & tb & e & _ & _ & _ & E & G).
  destruct (G ltac:(congruence) asserts Ha) as (s & S1 & S2). unfold get_simple. rewrite S1. cbn [obind]. rewrite S2. cbn [obind]. f_equal.
  rewrite (Mv u e E), datum_cp. now apply shift_back.
Qed.

(** ** Runs *)
Lemma omap_in_ex {A C} (f : A -> option C) l r x : omap f l = Some r -> In x l -> exists y, In y r /\ f x = Some y.
Proof.
  intros H I. apply In_nth_error in I. destruct I as [i I]. destruct (omap_nth _ _ _ _ _ H I) as [y [Y1 Y2]].
  exists y. split; [eapply nth_error_In; eauto|exact Y2].
Qed.
Lemma max_size_ge ts : forall m t, (In t ts -> c_size t <= fold_left (fun m t => Z.max m (c_size t)) ts m) /\ m <= fold_left (fun m t => Z.max m (c_size t)) ts m.
Proof.
  induction ts as [|x ts IH]; intros m t; cbn [fold_left]; [split; [intros []|lia]|].
  destruct (IH (Z.max m (c_size x)) t) as [I1 I2]. split; [|lia]. intros [->|I]; [lia|auto].
Qed.
Lemma max_size_is ts : forall m, fold_left (fun m t => Z.max m (c_size t)) ts m = m \/ exists t, In t ts /\ fold_left (fun m t => Z.max m (c_size t)) ts m = c_size t.
Proof.
  induction ts as [|x ts IH]; intros m; cbn [fold_left]; [now left|].
  destruct (IH (Z.max m (c_size x))) as [E|[t [T1 T2]]]; [|right; exists t; split; [now right|exact T2]].
  rewrite E. destruct (Z.max_spec m (c_size x)) as [[_ M]|[_ M]]; rewrite M; [right; exists x; split; [now left|reflexivity]|now left].
Qed.
Lemma size_in vs t : value_to_size (minmax vs) = Some t -> c_size t = 0 \/ In (c_size t) [8; 16; 32].
Proof.
  destruct (minmax vs) as [lo hi]. unfold value_to_size. destruct (lo =? hi); [intros H; injection H as <-; now left|].
  destruct (find _ type_choices) as [c|] eqn:F; [|discriminate]. cbn [obind]. intros H. injection H as <-. cbn [c_size].
  apply find_some in F. destruct F as [F _]. unfold type_choices in F. right. destruct F as [<-|[<-|[<-|[<-|[<-|[<-|[]]]]]]]; cbn; tauto.
Qed.
Lemma value_zero vs t : value_to_size (minmax vs) = Some t -> c_size t = 0 -> forall v, In v vs -> v = 0.
Proof.
  destruct (minmax vs) as [lo hi] eqn:M. apply minmax_spec in M. destruct M as (M0 & M & _). unfold value_to_size. destruct (lo =? hi) eqn:E.
  - intros _ _ v I. apply Z.eqb_eq in E. specialize (M v I). lia.
  - destruct (find _ type_choices) as [c|] eqn:F; [|discriminate]. cbn [obind]. intros H S. injection H as <-. cbn [c_size] in S.
    apply find_some in F. destruct F as [F _]. unfold type_choices in F. destruct F as [<-|[<-|[<-|[<-|[<-|[<-|[]]]]]]]; cbn in S; discriminate.
Qed.
Lemma value_unsigned vs t : value_to_size (minmax vs) = Some t -> (forall v, In v vs -> 0 <= v) -> c_signed t = false.
Proof.
  destruct (minmax vs) as [lo hi] eqn:M. apply minmax_spec in M. destruct M as (M0 & _ & M & _). unfold value_to_size. intros H A.
  assert (lo = 0) by (destruct M as [M|M]; [exact M|apply A in M; lia]). subst lo.
  destruct (0 =? hi); [injection H as <-; reflexivity|]. destruct (find _ type_choices); [|discriminate]. cbn [obind] in H. injection H as <-. reflexivity.
Qed.
Lemma value_nonzero vs t : value_to_size (minmax vs) = Some t -> 0 < c_size t -> exists v, In v vs /\ v <> 0.
Proof.
  destruct (minmax vs) as [lo hi] eqn:M. apply minmax_spec in M. destruct M as (M0 & _ & M1 & M2). unfold value_to_size. destruct (lo =? hi) eqn:E.
  - intros H S. injection H as <-. cbn in S. lia.
  - intros _ _. apply Z.eqb_neq in E. destruct M1 as [->|M1].
    + destruct M2 as [->|M2]; [congruence|]. exists hi. split; [exact M2|lia].
    + destruct (Z.eq_dec lo 0) as [->|N]; [destruct M2 as [->|M2]; [congruence|exists hi; split; [exact M2|lia]]|]. now exists lo.
Qed.

Definition all_runs (fl : flags) (u : ucd) : list Z :=
  (if f_full fl || f_full_toggle fl then flat_runs (r_upper u) ++ flat_runs (r_lower u) ++ flat_runs (r_title u) else []) ++
  (if f_full_fold fl then flat_runs (r_fold u) else []).
Lemma made_positive ds f runs : (forall d, In d ds -> forall v, In v (full_of f d) -> 0 < v) -> made ds f runs ->
  forall v, In v (concat runs) -> 0 < v.
Proof.
  intros H M v I. apply in_concat in I. destruct I as [r [I1 I2]]. destruct (M r I1) as [->|[d [D1 ->]]]; [destruct I2|eauto].
Qed.
Lemma in_flat_runs runs v : In v (flat_runs runs) -> v = 0 \/ In v (concat runs).
Proof.
  unfold flat_runs. destruct (1 <? List.length runs)%nat; [|intros []]. intros I. apply in_flat_map in I. destruct I as [r [I1 I2]].
  apply in_app_or in I2. destruct I2 as [I2|[<-|[]]]; [|now left]. right. apply in_concat. now exists r.
Qed.
Lemma emit_runs B fl ds u tb pr : inv B fl ds u -> (forall d, In d ds -> proper_full d) -> emit B fl u tb = Some pr ->
  p_runs pr = all_runs fl u /\ p_upper_offset pr = 0 /\ p_lower_offset pr = count_codepoints (r_upper u) /\
  p_title_offset pr = count_codepoints (r_upper u) + count_codepoints (r_lower u) /\
  p_fold_offset pr = count_codepoints (r_upper u) + count_codepoints (r_lower u) + count_codepoints (r_title u) /\
  (f_full fl || f_full_fold fl || f_full_toggle fl = true -> exists runs, In runs [r_upper u; r_title u; r_lower u; r_fold u] /\ (1 < List.length runs)%nat).
Proof.
  intros I Pf H. unfold emit in H. do 3 (destruct (obind (value_to_size _) get_type); [|discriminate]; cbn [obind] in H).
  destruct (two_code B fl tb) as [w|]; [|discriminate]. cbn [obind] in H.
  destruct (omap array_size _) as [sizes|] eqn:Sz; [|discriminate]. cbn [obind] in H.
  destruct (guard _) eqn:G; [|discriminate]. cbn [obind] in H. apply guard_some in G.
  destruct (omap _ (struct_members fl u)) as [types|]; [|discriminate]. cbn [obind] in H.
  destruct (omap _ (r_entries u)) as [entries|] eqn:E; [|discriminate]. cbn [obind] in H. injection H as <-. cbn.
  destruct (iv_canonical _ _ _ _ I) as [C1 C2]. rewrite C1, C2 in *. cbn [flat_runs List.length Nat.ltb Nat.leb].
  assert (Pos : forall runs, In runs [r_upper u; r_title u; r_lower u; r_fold u; [[]]; [[]]] -> forall v, In v (concat runs) -> 0 < v).
  { assert (Pd : forall f, (forall x, incl (f x) (fu_upper x ++ fu_lower x ++ fu_title x ++ fu_fold x)) -> forall d, In d ds -> forall v, In v (full_of f d) -> 0 < v).
    { intros f Fi d D v V. unfold full_of in V. destruct (d_full d) as [x|] eqn:X; [|destruct V]. apply (Pf d D x X). now apply Fi. }
    destruct I as [_ [_ I1] [_ I2] [_ I3] [_ I4] _ _ _ _ _ _ _ _ _].
    intros runs [<-|[<-|[<-|[<-|[<-|[<-|[]]]]]]] v V; [| | | |destruct V|destruct V].
    - revert v V. eapply made_positive; [|exact I1]. apply Pd. intros x y Y. rewrite !in_app_iff. tauto.
    - revert v V. eapply made_positive; [|exact I2]. apply Pd. intros x y Y. rewrite !in_app_iff. tauto.
    - revert v V. eapply made_positive; [|exact I3]. apply Pd. intros x y Y. rewrite !in_app_iff. tauto.
    - revert v V. eapply made_positive; [|exact I4]. apply Pd. intros x y Y. rewrite !in_app_iff. tauto. }
  assert (MS : max_size sizes = 0 \/ In (max_size sizes) [8; 16; 32]).
  { unfold max_size. destruct (max_size_is sizes 0) as [->|[t [T1 ->]]]; [now left|].
    destruct (omap_in _ _ _ _ Sz T1) as [x [_ X]]. apply (size_in _ _ X). }
  assert (Fit : forall runs v, In runs [r_upper u; r_title u; r_lower u; r_fold u; [[]]; [[]]] -> In v (flat_runs runs) ->
            cast {| c_signed := false; c_size := max_size sizes |} v = v).
  { intros runs v Ir Iv. apply in_flat_runs in Iv.
    assert (C0 : cast {| c_signed := false; c_size := max_size sizes |} 0 = 0).
    { unfold cast. cbn [c_signed c_size]. destruct MS as [->|[<-|[<-|[<-|[]]]]]; reflexivity. }
    destruct Iv as [->|Iv]; [exact C0|].
    assert (V0 := Pos _ Ir _ Iv). destruct (omap_in_ex _ _ _ _ Sz Ir) as [t [T1 T2]]. unfold array_size in T2.
    assert (T3 := value_unsigned _ _ T2 (fun x X => Z.lt_le_incl _ _ (Pos _ Ir x X))).
    destruct (Z.eq_dec (c_size t) 0) as [Tz|Tz]; [rewrite (value_zero _ _ T2 Tz v Iv) in V0; lia|].
    destruct (size_in _ _ T2) as [X|X]; [congruence|].
    assert (Xp : 0 < c_size t) by (destruct X as [<-|[<-|[<-|[]]]]; lia).
    destruct (value_to_size_fits _ _ v T2) as [F _]; [destruct X as [<-|[<-|[<-|[]]]]; lia|now right|].
    assert (Ge : c_size t <= max_size sizes) by (apply (proj1 (max_size_ge sizes 0 t) T1)).
    destruct MS as [M0|MS]; [rewrite M0 in Ge; lia|]. apply cast_fits; [exact MS|].
    unfold fits in *. cbn [c_signed c_size]. rewrite T3 in F. rewrite andb_true_iff, !Z.leb_le in *. split; [lia|].
    assert (2 ^ c_size t <= 2 ^ max_size sizes) by (apply Z.pow_le_mono_r; lia). lia. }
  split; [|repeat (split; [reflexivity|])].
  - rewrite app_nil_r || idtac. unfold all_runs.
    match goal with |- map _ ?l = ?r => assert (X : l = r) end.
    { destruct (f_canonical fl), (f_compat fl); rewrite ?app_nil_r; reflexivity. }
    rewrite X. apply map_cast. intros v V. apply in_app_or in V. destruct V as [V|V].
    + destruct (f_full fl || f_full_toggle fl); [|destruct V]. rewrite !in_app_iff in V. destruct V as [V|[V|V]]; (eapply Fit; [|exact V]); cbn; tauto.
    + destruct (f_full_fold fl); [|destruct V]. eapply Fit; [|exact V]. cbn; tauto.
  - intros F. assert (Mz : 0 < max_size sizes).
    { apply orb_true_iff in G. destruct G as [G|G]; [now apply Z.ltb_lt|]. rewrite F in G. discriminate. }
    unfold max_size in Mz. destruct (max_size_is sizes 0) as [E0|[t [T1 T2]]]; [rewrite E0 in Mz; lia|]. rewrite T2 in Mz.
    destruct (omap_in _ _ _ _ Sz T1) as [runs [R1 R2]]. unfold array_size in R2. destruct (value_nonzero _ _ R2 Mz) as [v [V1 V2]].
    assert (Len : led runs -> (1 < List.length runs)%nat).
    { intros [m ->]. destruct m; [destruct V1|cbn; lia]. }
    destruct I as [_ [I1 _] [I2 _] [I3 _] [I4 _] _ _ _ _ _ _ _ _ _].
    destruct R1 as [<-|[<-|[<-|[<-|[<-|[<-|[]]]]]]]; try (destruct V1; fail).
    + exists (r_upper u). split; [now left|now apply Len].
    + exists (r_title u). split; [right; now left|now apply Len].
    + exists (r_lower u). split; [right; right; now left|now apply Len].
    + exists (r_fold u). split; [do 3 right; now left|now apply Len].
Qed.

(** A member that has a type has a value other than 0. *)
Lemma member_nonzero B fl u tb pr m : emit B fl u tb = Some pr -> In m (struct_members fl u) -> by_values m = true ->
  exists e, In e (r_entries u) /\ mvalue u e m <> 0.
Proof.
  intros H Im Bv. apply emit_entries in H. destruct H as (types & H & _). destruct (omap_in_ex _ _ _ _ H Im) as [[m' t] [_ T]].
  destruct (member_size u m) as [sz|] eqn:Sz; [|discriminate]. cbn [obind] in T. unfold get_type in T. destruct (0 <? c_size sz) eqn:Z0; [|discriminate].
  apply Z.ltb_lt in Z0.
  assert (V : value_to_size (minmax (member_values u m)) = Some sz) by (destruct m; try discriminate; exact Sz).
  destruct (value_nonzero _ _ V Z0) as [v [V1 V2]].
  assert (exists e, In e (r_entries u) /\ mvalue u e m = v) as (e & E1 & E2).
  { destruct m; try discriminate; cbn [member_values] in V1; apply in_map_iff in V1; destruct V1 as [e [E1 E2]]; exists e; now split. }
  exists e. split; [exact E1|congruence].
Qed.
Lemma run_at_long runs i c : run_at runs i c -> i <> 0 -> (1 < List.length runs)%nat.
Proof. intros (a & b & -> & ->) N. destruct a; [cbn in N; congruence|]. rewrite app_length. cbn. lia. Qed.
