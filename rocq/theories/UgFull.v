(** Full case mappings. *)
From Coq Require Import ZArith NArith String List Bool Lia Arith.
From Verif Require Import UgModel UgSpec UgLists UgType UgOne UgTriv UgTab UgLook UgRuns UgGen UgEmit UgGet.
Import ListNotations.
Local Open Scope Z_scope.

Lemma proper_nonzero ds f cp : (forall d, In d ds -> proper_full d) -> (forall x, incl (f x) (fu_upper x ++ fu_lower x ++ fu_title x ++ fu_fold x)) ->
  Forall (fun v => v <> 0) (full_of f (datum ds cp)).
Proof.
  intros Pf Fi. unfold full_of. destruct (datum_case ds cp) as [I|[_ ->]]; [|constructor].
  destruct (d_full (datum ds cp)) as [x|] eqn:X; [|constructor]. apply Forall_forall. intros v V. apply Fi in V. apply (Pf _ I x X) in V. lia.
Qed.
Lemma incl_upper x : incl (fu_upper x) (fu_upper x ++ fu_lower x ++ fu_title x ++ fu_fold x).
Proof. intros y Y. rewrite !in_app_iff. tauto. Qed.
Lemma incl_lower x : incl (fu_lower x) (fu_upper x ++ fu_lower x ++ fu_title x ++ fu_fold x).
Proof. intros y Y. rewrite !in_app_iff. tauto. Qed.
Lemma incl_title x : incl (fu_title x) (fu_upper x ++ fu_lower x ++ fu_title x ++ fu_fold x).
Proof. intros y Y. rewrite !in_app_iff. tauto. Qed.
Lemma incl_fold x : incl (fu_fold x) (fu_upper x ++ fu_lower x ++ fu_title x ++ fu_fold x).
Proof. intros y Y. rewrite !in_app_iff. tauto. Qed.

(** The runs of a member, and where they are. *)
Definition runs_of (u : ucd) (m : member) : list (list Z) :=
  match m with FullUpper => r_upper u | FullTitle => r_title u | FullLower => r_lower u | _ => r_fold u end.
Definition field_of (m : member) : full_case -> list Z :=
  match m with FullUpper => fu_upper | FullTitle => fu_title | FullLower => fu_lower | _ => fu_fold end.
Definition asked (fl : flags) (m : member) : bool :=
  match m with FullUpper | FullTitle | FullLower => f_full fl | FullFold => f_full_fold fl | _ => false end.
Lemma entry_run fl u d e m : asked fl m = true -> entry_of fl u d e -> run_at (runs_of u m) (mvalue u e m) (full_of (field_of m) d).
Proof.
  intros A E. destruct m; try discriminate; cbn in A |- *.
  - assert (X := eo_fupper _ _ _ _ E). now rewrite A in X.
  - assert (X := eo_ftitle _ _ _ _ E). now rewrite A in X.
  - assert (X := eo_flower _ _ _ _ E). now rewrite A in X.
  - assert (X := eo_ffold _ _ _ _ E). now rewrite A in X.
Qed.
Lemma runs_long B fl ds u tb pr m : inv B fl ds u -> emit B fl u tb = Some pr -> asked fl m = true -> In m (struct_members fl u) ->
  (1 < List.length (runs_of u m))%nat.
Proof.
  intros I H A Im. assert (Bv : by_values m = true) by (destruct m; try discriminate; reflexivity).
  destruct (member_nonzero B fl u tb pr m H Im Bv) as [e [E1 E2]].
  destruct (iv_entries _ _ _ _ I e E1) as [->|[d [D1 D2]]]; [exfalso; apply E2; destruct m; reflexivity|].
  eapply run_at_long; [apply (entry_run fl u d e m A D2)|exact E2].
Qed.
Lemma asked_member fl u m : asked fl m = true -> In m (struct_members fl u).
Proof. destruct m; intros A; try discriminate; cbn in A; in_members. Qed.

Lemma full_get B P fl ds pr cp asserts m : (0 < B)%nat -> generate B P fl ds = Some pr -> f_prune2 fl = false ->
  (f_width fl = true -> f_grapheme fl = true) -> reached B fl ds cp -> (asserts = true -> (cp <= 1114111)%N) ->
  (forall d, In d ds -> proper_full d) -> asked fl m = true ->
  get_full m B asserts pr cp = Some (full_of (field_of m) (datum ds cp)).
Proof.
  intros HB H P2 Wd R Ha Pf A.
  destruct (generate_member B P fl ds pr cp m HB H P2 Wd R (fun u _ => asked_member fl u m A)) as (u & tb & e & I & Em & _ & E & G).
  assert (Bv : by_values m = true) by (destruct m; try discriminate; reflexivity).
  destruct (G ltac:(congruence) asserts Ha) as (s & S1 & S2). unfold get_full. rewrite S1. cbn [obind]. rewrite S2. cbn [obind].
  destruct (emit_runs B fl ds u tb pr I Pf Em) as (Er & O1 & O2 & O3 & O4 & _).
  assert (Lg := runs_long B fl ds u tb pr m I Em A (asked_member fl u m A)).
  assert (Ra := entry_run fl u _ e m A E). rewrite Er, O1, O2, O3, O4. unfold all_runs.
  assert (Ix : forall x, incl (field_of m x) (fu_upper x ++ fu_lower x ++ fu_title x ++ fu_fold x)).
  { intros x. destruct m; try discriminate; cbn; auto using incl_upper, incl_lower, incl_title, incl_fold. }
  assert (Nz := proper_nonzero ds (field_of m) cp Pf Ix).
  destruct m; try discriminate; cbn [asked] in A; rewrite A; cbn [orb runs_of field_of] in *.
  - rewrite <- app_assoc. rewrite (flat_runs_cells (r_upper u) Lg). exact (read_run_at [] _ _ _ _ 0 Ra Nz eq_refl).
  - rewrite (flat_runs_cells (r_title u) Lg). rewrite <- !app_assoc. rewrite (app_assoc (flat_runs (r_upper u))).
    apply read_run_at; [exact Ra|exact Nz|]. rewrite app_length, Nat2Z.inj_add, !count_length. reflexivity.
  - rewrite (flat_runs_cells (r_lower u) Lg). rewrite <- !app_assoc.
    apply read_run_at; [exact Ra|exact Nz|]. rewrite count_length. reflexivity.
  - rewrite (flat_runs_cells (r_fold u) Lg).
    rewrite <- (app_nil_r (cells (r_fold u))).
    apply read_run_at; [exact Ra|exact Nz|]. destruct (f_full fl || f_full_toggle fl) eqn:F.
    + rewrite !app_length, !Nat2Z.inj_add, !count_length. lia.
    + apply orb_false_iff in F. destruct F as [F1 F2]. destruct (iv_off _ _ _ _ I F1 F2) as (-> & -> & ->). reflexivity.
Qed.

Lemma flat_runs_head runs : led runs -> flat_runs runs = [] \/ exists r, flat_runs runs = 0 :: r.
Proof. intros [m ->]. unfold flat_runs. destruct (1 <? _)%nat; [right; cbn; eauto|now left]. Qed.
Lemma head_app a b : (a = [] \/ exists r, a = 0 :: r) -> (b = [] \/ exists r, b = 0 :: r) -> (a ++ b = [] \/ exists r, a ++ b = 0 :: r :> list Z).
Proof. intros [->|[r ->]] H; [exact H|right; cbn; eauto]. Qed.

Lemma toggle_get B P fl ds pr cp asserts : (0 < B)%nat -> generate B P fl ds = Some pr -> f_prune2 fl = false ->
  (f_width fl = true -> f_grapheme fl = true) -> reached B fl ds cp -> (asserts = true -> (cp <= 1114111)%N) ->
  (forall d, In d ds -> proper_full d) -> f_full_toggle fl = true ->
  get_full FullToggle B asserts pr cp =
    Some (if case_class (d_cat (datum ds cp)) =? 2 then full_of fu_upper (datum ds cp)
          else if case_class (d_cat (datum ds cp)) =? 1 then full_of fu_lower (datum ds cp) else []).
Proof.
  intros HB H P2 Wd R Ha Pf A.
  destruct (generate_member B P fl ds pr cp FullToggle HB H P2 Wd R) as (u & tb & e & I & Em & _ & E & G).
  { in_members. }
  destruct (emit_runs B fl ds u tb pr I Pf Em) as (Er & O1 & O2 & O3 & O4 & Ne).
  assert (T := eo_ftoggle _ _ _ _ E). unfold toggle_at in T. rewrite A in T. cbn [andb] in T.
  assert (Cnt : forall runs, 0 <= count_codepoints runs <= run_cells runs).
  { intros runs. unfold count_codepoints. assert (X := run_cells_nonneg runs). destruct (_ <? _)%nat; lia. }
  assert (Nu := proper_nonzero ds fu_upper cp Pf incl_upper). assert (Nl := proper_nonzero ds fu_lower cp Pf incl_lower).
  assert (H0 : exists r, p_runs pr = 0 :: r).
  { rewrite Er. unfold all_runs. rewrite A, orb_true_r.
    destruct (Ne ltac:(rewrite A; apply orb_true_r)) as [runs [R1 R2]].
    destruct I as [_ [I1 _] [I2 _] [I3 _] [I4 _] _ _ If _ _ _ _ _ _].
    assert (X : forall r, (r = [] \/ exists q, r = 0 :: q) -> r <> [] -> exists q, r = 0 :: q :> list Z) by (intros r [->|?]; [congruence|auto]).
    assert (Nn : forall r, (1 < List.length r)%nat -> led r -> flat_runs r <> []) by (intros r L [m ->]; rewrite flat_runs_cells by exact L; discriminate).
    apply X.
    - apply head_app; [apply head_app; [now apply flat_runs_head|apply head_app; now apply flat_runs_head]|].
      destruct (f_full_fold fl); [now apply flat_runs_head|now left].
    - intros Q. apply app_eq_nil in Q. destruct Q as [Q1 Q2]. apply app_eq_nil in Q1. destruct Q1 as [Q0 Q1]. apply app_eq_nil in Q1. destruct Q1 as [Q1 Q3].
      destruct R1 as [<-|[<-|[<-|[<-|[]]]]]; try (now apply (Nn _ R2)).
      destruct (f_full_fold fl); [now apply (Nn _ R2)|]. rewrite (If eq_refl) in R2. cbn in R2. lia. }
  assert (Fin : forall v c, mvalue u e FullToggle = v -> 0 <= v <= run_cells (r_upper u) + run_cells (r_lower u) ->
            read_run (skipn (Z.to_nat (0 + v)) (p_runs pr)) = Some c -> get_full FullToggle B asserts pr cp = Some c).
  { intros v c V Rg Rd. destruct (G ltac:(intros _; rewrite V; exact Rg) asserts Ha) as (s & S1 & S2).
    unfold get_full. rewrite S1. cbn [obind]. rewrite S2, V. exact Rd. }
  assert (Zero : e_full_toggle e = 0 -> get_full FullToggle B asserts pr cp = Some []).
  { intros Z0. apply (Fin 0); [cbn; now rewrite Z0|assert (X := run_cells_nonneg (r_upper u)); assert (Y := run_cells_nonneg (r_lower u)); lia|].
    destruct H0 as [r ->]. reflexivity. }
  assert (Empty : forall runs c, led runs -> run_at runs 0 c -> c = []).
  { intros runs c [m ->] (a & b & Q1 & Q2). destruct a as [|x a]; [cbn in Q1; congruence|]. cbn [run_cells fold_right] in Q2.
    assert (X := run_cells_nonneg a). unfold run_cells in X. lia. }
  destruct (case_class (d_cat (datum ds cp)) =? 2).
  - destruct T as [T1 T2]. destruct (Z.eq_dec (e_full_toggle e) 0) as [Z0|Z0].
    + rewrite (Zero Z0). rewrite Z0 in T2. now rewrite (Empty _ _ (proj1 (iv_upper _ _ _ _ I)) T2).
    + assert (Lg := run_at_long _ _ _ T2 Z0). assert (Rg := run_at_range _ _ _ T2). assert (Y := run_cells_nonneg (r_lower u)).
      apply (Fin (e_full_toggle e)); [cbn; rewrite (proj2 (Z.ltb_ge _ _)) by lia; reflexivity|lia|].
      rewrite Er. unfold all_runs. rewrite A, orb_true_r, <- app_assoc, (flat_runs_cells (r_upper u) Lg).
      exact (read_run_at [] _ _ _ _ 0 T2 Nu eq_refl).
  - destruct (case_class (d_cat (datum ds cp)) =? 1).
    + destruct T as [T1 T2]. destruct (Z.eq_dec (e_full_toggle e) 0) as [Z0|Z0].
      * rewrite (Zero Z0). rewrite Z0 in T2. now rewrite (Empty _ _ (proj1 (iv_lower _ _ _ _ I)) T2).
      * assert (Lg := run_at_long _ _ _ T2 ltac:(lia)). assert (Rg := run_at_range _ _ _ T2). assert (Y := Cnt (r_upper u)).
        apply (Fin (- e_full_toggle e + count_codepoints (r_upper u))); [cbn; rewrite (proj2 (Z.ltb_lt _ _)) by lia; reflexivity|lia|].
        rewrite Er. unfold all_runs. rewrite A, orb_true_r, <- !app_assoc, (flat_runs_cells (r_lower u) Lg).
        replace (0 + (- e_full_toggle e + count_codepoints (r_upper u))) with (count_codepoints (r_upper u) + - e_full_toggle e) by lia.
        apply read_run_at; [exact T2|exact Nl|]. now rewrite count_length.
    + now apply Zero.
Qed.
