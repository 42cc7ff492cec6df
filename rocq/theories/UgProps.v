(** Properties of the tables that tools/unicode_gen generates. *)
From Coq Require Import ZArith NArith String List Bool Lia Arith Permutation.
From Verif Require Import UgModel UgSpec UgLists UgType UgOne UgTriv UgTab UgLook UgRuns UgGen UgEmit UgGet UgFull UgMore.
Import ListNotations.
Local Open Scope Z_scope.

(** Data for the examples: a few letters, a digit, a space, CJK. *)
Definition opts (prune2 invalid width : bool) : flags :=
  {| f_case_info := true; f_category := true; f_grapheme := true; f_width := width; f_canonical := false; f_compat := false;
     f_full := true; f_full_fold := true; f_full_toggle := true; f_simple := true; f_simple_fold := true; f_simple_toggle := true;
     f_prune1 := true; f_prune2 := prune2; f_invalid := invalid; f_assert := true |}.
Definition letter (cp : N) (c : category) (s : option simple_case) (f : option full_case) : udata :=
  {| d_cp := cp; d_cat := c; d_white := false; d_gb := GExtend; d_wide := true; d_simple := s; d_full := f; d_tag := None |}.
Definition sample : list udata :=
  [ letter 1 Lu (Some {| s_upper := None; s_lower := Some 3; s_title := None; s_fold := Some 3 |})
                (Some {| fu_upper := [7; 8]; fu_lower := [3; 9]; fu_title := [5; 4]; fu_fold := [9; 300] |});
    letter 3 Ll (Some {| s_upper := Some 1; s_lower := None; s_title := Some 1; s_fold := None |})
                (Some {| fu_upper := [8; 70000]; fu_lower := []; fu_title := []; fu_fold := [] |});
    letter 2 Sm None None; letter 5 Lo None None; letter 17 Nd None None; letter 42 Zs None None ].
Definition sample_program : option program := generate 4 3 (opts false true true) sample.

(** ** C196: category, case, white space and grapheme break property *)
Lemma class_kind c : is_kind c (category_class c).
Proof. unfold is_kind. destruct c; cbn; eexists _, _; (split; reflexivity). Qed.
Lemma class_case c : is_case c (case_class c).
Proof. unfold is_case. destruct c; cbn; try tauto; right; right; right; repeat split; discriminate. Qed.

Theorem C196_class_partial B P fl ds pr cp asserts : (0 < B)%nat -> generate B P fl ds = Some pr ->
  f_prune2 fl = false -> (f_width fl = true -> f_grapheme fl = true) -> reached B fl ds cp -> (asserts = true -> (cp <= 1114111)%N) ->
  (f_category fl = true -> exists k, get_category B asserts pr cp = Some k /\ is_kind (d_cat (datum ds cp)) k) /\
  (f_category fl = true -> is_whitespace B asserts pr cp = Some (d_white (datum ds cp))) /\
  (f_case_info fl = true -> exists k, get_case_info B asserts pr cp = Some k /\ is_case (d_cat (datum ds cp)) k) /\
  (f_grapheme fl = true -> get_grapheme B asserts pr cp = Some (grapheme_num (d_gb (datum ds cp)))).
Proof.
  intros HB H P2 Wd R Ha.
  assert (G0 := fun F => bits0_get B P fl ds pr cp asserts HB H P2 Wd R Ha F).
  split; [|split; [|split]]; intros F.
  - destruct (G0 ltac:(now rewrite F)) as (s & S1 & S2). exists (category_class (d_cat (datum ds cp))). split; [|apply class_kind].
    unfold get_category, get_bits. rewrite S1. cbn [obind]. rewrite S2. cbn [obind]. f_equal. rewrite F.
    destruct (f_case_info fl), (d_cat (datum ds cp)), (d_white (datum ds cp)); reflexivity.
  - destruct (G0 ltac:(now rewrite F)) as (s & S1 & S2).
    unfold is_whitespace. rewrite S1. cbn [obind]. rewrite S2. cbn [obind]. f_equal. rewrite F.
    destruct (f_case_info fl), (d_cat (datum ds cp)), (d_white (datum ds cp)); reflexivity.
  - destruct (G0 ltac:(rewrite F; apply orb_true_r)) as (s & S1 & S2). exists (case_class (d_cat (datum ds cp))). split; [|apply class_case].
    unfold get_case_info, get_bits. rewrite S1. cbn [obind]. rewrite S2. cbn [obind]. f_equal. rewrite F.
    destruct (f_category fl), (d_cat (datum ds cp)), (d_white (datum ds cp)); reflexivity.
  - destruct (bits1_get B P fl ds pr cp asserts HB H P2 F R Ha) as (s & S1 & S2).
    unfold get_grapheme, get_bits. rewrite S1. cbn [obind]. rewrite S2. cbn [obind]. f_equal.
    destruct (d_gb (datum ds cp)); reflexivity.
Qed.
(** Blocks of 128 code points as in the tool: only U+0001, U+007F and U+0085 are letters, yet U+0003 is reported as one. *)
Definition refuting : list udata := [letter 1 Lo None None; letter 127 Lo None None; letter 133 Nd None None].
Definition opts_small (prune2 : bool) : flags :=
  {| f_case_info := true; f_category := true; f_grapheme := false; f_width := false; f_canonical := false; f_compat := false;
     f_full := false; f_full_fold := false; f_full_toggle := false; f_simple := false; f_simple_fold := false; f_simple_toggle := false;
     f_prune1 := false; f_prune2 := prune2; f_invalid := true; f_assert := true |}.
Theorem C196_refuted : exists pr k, generate 128 1025 (opts_small true) refuting = Some pr /\
  reached 128 (opts_small true) refuting 3 /\ get_category 128 true pr 3 = Some k /\ ~ is_kind (d_cat (datum refuting 3)) k.
Proof.
  destruct (generate 128 1025 (opts_small true) refuting) as [pr|] eqn:E; [|vm_compute in E; discriminate].
  exists pr, 1. split; [reflexivity|]. split; [left; exists (letter 127 Lo None None); split; [cbn; tauto|vm_compute; discriminate]|].
  assert (Q : (let! p := generate 128 1025 (opts_small true) refuting in get_category 128 true p 3) = Some 1) by (vm_compute; reflexivity).
  rewrite E in Q. cbn [obind] in Q. split; [exact Q|]. intros (a & r & A1 & A2). vm_compute in A1. injection A1 as <- <-. vm_compute in A2. discriminate.
Qed.
Example C196_example : exists pr, sample_program = Some pr /\ reached 4 (opts false true true) sample 3 /\
  get_category 4 true pr 3 = Some 1 /\ get_case_info 4 true pr 3 = Some 2 /\ get_category 4 true pr 17 = Some 3 /\
  get_category 4 true pr 0 = Some 0 /\ get_category 4 true pr 1114111 = Some 0 /\ reached 4 (opts false true true) sample 1114111.
Proof.
  destruct sample_program as [pr|] eqn:E; [|vm_compute in E; discriminate]. exists pr. split; [reflexivity|].
  assert (Q : (let! p := sample_program in Some (get_category 4 true p 3, get_case_info 4 true p 3, get_category 4 true p 17,
             get_category 4 true p 0, get_category 4 true p 1114111)) = Some (Some 1, Some 2, Some 3, Some 0, Some 0)) by (vm_compute; reflexivity).
  rewrite E in Q. cbn [obind] in Q. injection Q as Q1 Q2 Q3 Q4 Q5.
  split; [left; exists (letter 42 Zs None None); split; [cbn; tauto|vm_compute; discriminate]|]. repeat (split; [assumption|]).
  right. split; [reflexivity|]. exists 2%N. split; [exists (letter 42 Zs None None); split; [cbn; tauto|vm_compute; discriminate]|].
  intros d D. cbn in D. destruct D as [<-|[<-|[<-|[<-|[<-|[<-|[]]]]]]]; vm_compute; discriminate.
Qed.

(** ** C197: simple case mappings *)
Theorem C197_simple_partial B P fl ds pr cp asserts : (0 < B)%nat -> generate B P fl ds = Some pr ->
  f_prune2 fl = false -> (f_width fl = true -> f_grapheme fl = true) -> reached B fl ds cp -> (cp <= 1114111)%N ->
  proper_simple (datum ds cp) ->
  (f_simple fl = true -> get_simple SimpleUpper B asserts pr cp = Some (simple s_upper (datum ds cp)) /\
     get_simple SimpleLower B asserts pr cp = Some (simple s_lower (datum ds cp)) /\
     get_simple SimpleTitle B asserts pr cp = Some (simple s_title (datum ds cp))) /\
  (f_simple_fold fl = true -> get_simple SimpleFold B asserts pr cp = Some (simple s_fold (datum ds cp))) /\
  (f_simple_toggle fl = true -> get_simple SimpleToggle B asserts pr cp =
     Some (toggled (simple s_upper (datum ds cp)) (simple s_lower (datum ds cp)) (Z.of_N cp) (d_cat (datum ds cp)))).
Proof.
  intros HB H P2 Wd R Lc Ps.
  assert (Sp : forall f, In f [s_upper; s_lower; s_title; s_fold] -> forall v', simple_of f (datum ds cp) = Some v' -> 0 <= v' < 2 ^ 32).
  { intros f If v' V. unfold simple_of in V. destruct (d_simple (datum ds cp)) as [s|] eqn:S; [|discriminate].
    apply (Ps s S (f s) v'); [|exact V]. cbn in If |- *. destruct If as [<-|[<-|[<-|[<-|[]]]]]; tauto. }
  assert (Eq : forall f, simple f (datum ds cp) = mapped cp (simple_of f (datum ds cp))).
  { intros f. unfold simple, simple_of. now rewrite datum_cp. }
  assert (Lc' : (cp <= 4294967295)%N) by lia.
  assert (G := fun m v => simple_get B P fl ds pr cp asserts m v HB H P2 Wd R (fun _ => Lc)). rewrite !Eq.
  split; [|split]; intros F.
  - split; [|split]; (apply G; [in_members|reflexivity|exact Lc'|apply Sp; cbn; tauto|]); intros u e E; cbn [mvalue].
    + now rewrite (eo_upper _ _ _ _ E), F.
    + now rewrite (eo_lower _ _ _ _ E), F.
    + now rewrite (eo_title _ _ _ _ E), F.
  - apply G; [in_members|reflexivity|exact Lc'|apply Sp; cbn; tauto|]. intros u e E. cbn [mvalue]. now rewrite (eo_fold _ _ _ _ E), F.
  - set (v := if case_class (d_cat (datum ds cp)) =? 2 then simple_of s_upper (datum ds cp)
              else if case_class (d_cat (datum ds cp)) =? 1 then simple_of s_lower (datum ds cp) else None).
    replace (toggled (mapped cp (simple_of s_upper (datum ds cp))) (mapped cp (simple_of s_lower (datum ds cp))) (Z.of_N cp) (d_cat (datum ds cp)))
      with (mapped cp v) by (unfold v, toggled; destruct (d_cat (datum ds cp)); reflexivity).
    apply G; [in_members|reflexivity|exact Lc'| |].
    + unfold v. intros v'. destruct (_ =? 2); [apply Sp; cbn; tauto|]. destruct (_ =? 1); [apply Sp; cbn; tauto|discriminate].
    + intros u e E. cbn [mvalue]. rewrite (eo_toggle _ _ _ _ E), F. unfold v. destruct (_ =? 2); [reflexivity|]. destruct (_ =? 1); reflexivity.
Qed.
(** With widths but without grapheme break properties the upper case mapping is stored as another member: U+0003 maps to U+0002. *)
Definition opts_width : flags :=
  {| f_case_info := true; f_category := true; f_grapheme := false; f_width := true; f_canonical := false; f_compat := false;
     f_full := false; f_full_fold := false; f_full_toggle := false; f_simple := true; f_simple_fold := false; f_simple_toggle := false;
     f_prune1 := false; f_prune2 := false; f_invalid := true; f_assert := true |}.
Definition refuting_width : list udata :=
  [letter 1 Lu (Some {| s_upper := None; s_lower := Some 3; s_title := None; s_fold := None |}) None;
   letter 3 Ll (Some {| s_upper := Some 1; s_lower := Some 4; s_title := Some 2; s_fold := None |}) None; letter 133 Nd None None].
Theorem C197_refuted : exists pr, generate 128 1025 opts_width refuting_width = Some pr /\
  get_simple SimpleUpper 128 true pr 3 = Some 2 /\ simple s_upper (datum refuting_width 3) = 1 /\ proper_simple (datum refuting_width 3).
Proof.
  destruct (generate 128 1025 opts_width refuting_width) as [pr|] eqn:E; [|vm_compute in E; discriminate].
  exists pr. split; [reflexivity|].
  assert (Q : (let! p := generate 128 1025 opts_width refuting_width in get_simple SimpleUpper 128 true p 3) = Some 2) by (vm_compute; reflexivity).
  rewrite E in Q. cbn [obind] in Q. split; [exact Q|]. split; [reflexivity|].
  clear. intros s S o v I V. cbn in S. injection S as <-. cbn in I. destruct I as [<-|[<-|[<-|[<-|[]]]]]; try discriminate; injection V as <-; lia.
Qed.
Example C197_example : exists pr, sample_program = Some pr /\ get_simple SimpleUpper 4 true pr 3 = Some 1 /\
  get_simple SimpleLower 4 true pr 1 = Some 3 /\ get_simple SimpleToggle 4 true pr 3 = Some 1 /\ get_simple SimpleLower 4 true pr 17 = Some 17 /\
  proper_simple (datum sample 3).
Proof.
  destruct sample_program as [pr|] eqn:E; [|vm_compute in E; discriminate]. exists pr. split; [reflexivity|].
  assert (Q : (let! p := sample_program in Some (get_simple SimpleUpper 4 true p 3, get_simple SimpleLower 4 true p 1,
             get_simple SimpleToggle 4 true p 3, get_simple SimpleLower 4 true p 17)) = Some (Some 1, Some 3, Some 1, Some 17)) by (vm_compute; reflexivity).
  rewrite E in Q. cbn [obind] in Q. injection Q as Q1 Q2 Q3 Q4. repeat (split; [assumption|]).
  clear. intros s S o v I V. cbn in S. injection S as <-. cbn in I. destruct I as [<-|[<-|[<-|[<-|[]]]]]; try discriminate; injection V as <-; lia.
Qed.

(** ** C198: full case mappings *)
Theorem C198_full_partial B P fl ds pr cp asserts : (0 < B)%nat -> generate B P fl ds = Some pr ->
  f_prune2 fl = false -> (f_width fl = true -> f_grapheme fl = true) -> reached B fl ds cp -> (asserts = true -> (cp <= 1114111)%N) ->
  (forall d, In d ds -> proper_full d) ->
  (f_full fl = true -> get_full FullUpper B asserts pr cp = Some (full fu_upper (datum ds cp)) /\
     get_full FullLower B asserts pr cp = Some (full fu_lower (datum ds cp)) /\
     get_full FullTitle B asserts pr cp = Some (full fu_title (datum ds cp))) /\
  (f_full_fold fl = true -> get_full FullFold B asserts pr cp = Some (full fu_fold (datum ds cp))) /\
  (f_full_toggle fl = true -> get_full FullToggle B asserts pr cp =
     Some (toggled (full fu_upper (datum ds cp)) (full fu_lower (datum ds cp)) [] (d_cat (datum ds cp)))).
Proof.
  intros HB H P2 Wd R Ha Pf. assert (G := fun m => full_get B P fl ds pr cp asserts m HB H P2 Wd R Ha Pf).
  split; [|split]; intros F.
  - split; [|split]; now apply G.
  - now apply G.
  - rewrite (toggle_get B P fl ds pr cp asserts HB H P2 Wd R Ha Pf F). f_equal. unfold toggled.
    change (full fu_upper) with (full_of fu_upper). change (full fu_lower) with (full_of fu_lower). destruct (d_cat (datum ds cp)); reflexivity.
Qed.
Example C198_example : exists pr, sample_program = Some pr /\ get_full FullUpper 4 true pr 3 = Some [8; 70000] /\
  get_full FullLower 4 true pr 1 = Some [3; 9] /\ get_full FullFold 4 true pr 1 = Some [9; 300] /\ get_full FullToggle 4 true pr 1 = Some [3; 9] /\
  get_full FullTitle 4 true pr 3 = Some [] /\ (forall d, In d sample -> proper_full d).
Proof.
  destruct sample_program as [pr|] eqn:E; [|vm_compute in E; discriminate]. exists pr. split; [reflexivity|].
  assert (Q : (let! p := sample_program in Some (get_full FullUpper 4 true p 3, get_full FullLower 4 true p 1, get_full FullFold 4 true p 1,
             get_full FullToggle 4 true p 1, get_full FullTitle 4 true p 3)) = Some (Some [8; 70000], Some [3; 9], Some [9; 300], Some [3; 9], Some [])) by (vm_compute; reflexivity).
  rewrite E in Q. cbn [obind] in Q. injection Q as Q1 Q2 Q3 Q4 Q5. repeat (split; [assumption|]).
  clear. intros d D f F v V. cbn in D. destruct D as [<-|[<-|[<-|[<-|[<-|[<-|[]]]]]]]; cbn in F; try discriminate; injection F as <-; cbn in V; lia.
Qed.

(** ** C199: removing blocks of stage two that have few ranges *)
Theorem C199_prune_partial B P fl ds pr pr' cp : (0 < B)%nat ->
  generate B P fl ds = Some pr -> generate B P (keep_two fl) ds = Some pr' -> (cp <= 1114111)%N ->
  (exists d, In d ds /\ (cp / N.of_nat B <= d_cp d / N.of_nat B)%N) ->
  ~ alternating (map (fun j => get_internal B false pr' (cp / N.of_nat B * N.of_nat B + N.of_nat j)%N) (seq 0 B)) ->
  forall asserts, get_category B asserts pr cp = get_category B asserts pr' cp /\ get_case_info B asserts pr cp = get_case_info B asserts pr' cp /\
    is_whitespace B asserts pr cp = is_whitespace B asserts pr' cp /\ get_grapheme B asserts pr cp = get_grapheme B asserts pr' cp /\
    (forall m, get_simple m B asserts pr cp = get_simple m B asserts pr' cp) /\ (forall m, get_full m B asserts pr cp = get_full m B asserts pr' cp).
Proof.
  intros HB H H' Lc Ex NA asserts. assert (G := generate_keep B P fl ds pr pr' cp HB H H' Lc Ex NA asserts).
  destruct (generate_runs_keep B P fl ds pr pr' H H') as (R1 & R2 & R3 & R4 & R5).
  unfold get_category, get_case_info, get_grapheme, get_bits, is_whitespace, get_simple, get_full. rewrite G, R1, R2, R3, R4, R5.
  repeat split; reflexivity.
Qed.
(** With prune_stage_two: what C196, C197 and C198 say holds in blocks that are not of the form x y x ... x y. *)
Theorem C196_pruned_partial B P fl ds pr pr' cp asserts : (0 < B)%nat ->
  generate B P fl ds = Some pr -> generate B P (keep_two fl) ds = Some pr' -> (cp <= 1114111)%N ->
  (f_width fl = true -> f_grapheme fl = true) -> (exists d, In d ds /\ (cp / N.of_nat B <= d_cp d / N.of_nat B)%N) ->
  ~ alternating (map (fun j => get_internal B false pr' (cp / N.of_nat B * N.of_nat B + N.of_nat j)%N) (seq 0 B)) ->
  (f_category fl = true -> exists k, get_category B asserts pr cp = Some k /\ is_kind (d_cat (datum ds cp)) k) /\
  (f_category fl = true -> is_whitespace B asserts pr cp = Some (d_white (datum ds cp))) /\
  (f_case_info fl = true -> exists k, get_case_info B asserts pr cp = Some k /\ is_case (d_cat (datum ds cp)) k) /\
  (f_grapheme fl = true -> get_grapheme B asserts pr cp = Some (grapheme_num (d_gb (datum ds cp)))).
Proof.
  intros HB H H' Lc Wd Ex NA.
  destruct (C199_prune_partial B P fl ds pr pr' cp HB H H' Lc Ex NA asserts) as (K1 & K2 & K3 & K4 & K5 & K6).
  rewrite K1, K2, K3, K4. apply (C196_class_partial B P (keep_two fl) ds pr' cp asserts HB H'); [reflexivity|exact Wd|now left|auto].
Qed.
Theorem C197_pruned_partial B P fl ds pr pr' cp asserts : (0 < B)%nat ->
  generate B P fl ds = Some pr -> generate B P (keep_two fl) ds = Some pr' -> (cp <= 1114111)%N ->
  (f_width fl = true -> f_grapheme fl = true) -> (exists d, In d ds /\ (cp / N.of_nat B <= d_cp d / N.of_nat B)%N) ->
  ~ alternating (map (fun j => get_internal B false pr' (cp / N.of_nat B * N.of_nat B + N.of_nat j)%N) (seq 0 B)) ->
  proper_simple (datum ds cp) ->
  (f_simple fl = true -> get_simple SimpleUpper B asserts pr cp = Some (simple s_upper (datum ds cp)) /\
     get_simple SimpleLower B asserts pr cp = Some (simple s_lower (datum ds cp)) /\
     get_simple SimpleTitle B asserts pr cp = Some (simple s_title (datum ds cp))) /\
  (f_simple_fold fl = true -> get_simple SimpleFold B asserts pr cp = Some (simple s_fold (datum ds cp))) /\
  (f_simple_toggle fl = true -> get_simple SimpleToggle B asserts pr cp =
     Some (toggled (simple s_upper (datum ds cp)) (simple s_lower (datum ds cp)) (Z.of_N cp) (d_cat (datum ds cp)))).
Proof.
  intros HB H H' Lc Wd Ex NA Ps.
  destruct (C199_prune_partial B P fl ds pr pr' cp HB H H' Lc Ex NA asserts) as (K1 & K2 & K3 & K4 & K5 & K6).
  rewrite !K5. apply (C197_simple_partial B P (keep_two fl) ds pr' cp asserts HB H'); [reflexivity|exact Wd|now left|exact Lc|exact Ps].
Qed.
Theorem C198_pruned_partial B P fl ds pr pr' cp asserts : (0 < B)%nat ->
  generate B P fl ds = Some pr -> generate B P (keep_two fl) ds = Some pr' -> (cp <= 1114111)%N ->
  (f_width fl = true -> f_grapheme fl = true) -> (exists d, In d ds /\ (cp / N.of_nat B <= d_cp d / N.of_nat B)%N) ->
  ~ alternating (map (fun j => get_internal B false pr' (cp / N.of_nat B * N.of_nat B + N.of_nat j)%N) (seq 0 B)) ->
  (forall d, In d ds -> proper_full d) ->
  (f_full fl = true -> get_full FullUpper B asserts pr cp = Some (full fu_upper (datum ds cp)) /\
     get_full FullLower B asserts pr cp = Some (full fu_lower (datum ds cp)) /\
     get_full FullTitle B asserts pr cp = Some (full fu_title (datum ds cp))) /\
  (f_full_fold fl = true -> get_full FullFold B asserts pr cp = Some (full fu_fold (datum ds cp))) /\
  (f_full_toggle fl = true -> get_full FullToggle B asserts pr cp =
     Some (toggled (full fu_upper (datum ds cp)) (full fu_lower (datum ds cp)) [] (d_cat (datum ds cp)))).
Proof.
  intros HB H H' Lc Wd Ex NA Pf.
  destruct (C199_prune_partial B P fl ds pr pr' cp HB H H' Lc Ex NA asserts) as (K1 & K2 & K3 & K4 & K5 & K6).
  rewrite !K6. apply (C198_full_partial B P (keep_two fl) ds pr' cp asserts HB H'); [reflexivity|exact Wd|now left|auto|exact Pf].
Qed.
Theorem C199_refuted : exists pr pr', generate 128 1025 (opts_small true) refuting = Some pr /\
  generate 128 1025 (keep_two (opts_small true)) refuting = Some pr' /\ get_category 128 true pr 3 <> get_category 128 true pr' 3.
Proof.
  destruct (generate 128 1025 (opts_small true) refuting) as [pr|] eqn:E; [|vm_compute in E; discriminate].
  destruct (generate 128 1025 (keep_two (opts_small true)) refuting) as [pr'|] eqn:E'; [|vm_compute in E'; discriminate].
  exists pr, pr'. split; [reflexivity|]. split; [reflexivity|].
  assert (Q : (let! p := generate 128 1025 (opts_small true) refuting in let! p' := generate 128 1025 (keep_two (opts_small true)) refuting in
             Some (get_category 128 true p 3, get_category 128 true p' 3)) = Some (Some 1, Some 0)) by (vm_compute; reflexivity).
  rewrite E, E' in Q. cbn [obind] in Q. injection Q as -> ->. discriminate.
Qed.
Example C199_example : exists pr pr', generate 4 3 (opts true true true) sample = Some pr /\
  generate 4 3 (keep_two (opts true true true)) sample = Some pr' /\ (List.length (p_two pr) < List.length (p_two pr'))%nat /\
  get_category 4 true pr 17 = Some 3 /\
  ~ alternating (map (fun j => get_internal 4 false pr' (17 / N.of_nat 4 * N.of_nat 4 + N.of_nat j)%N) (seq 0 4)).
Proof.
  destruct (generate 4 3 (opts true true true) sample) as [pr|] eqn:E; [|vm_compute in E; discriminate].
  destruct (generate 4 3 (keep_two (opts true true true)) sample) as [pr'|] eqn:E'; [|vm_compute in E'; discriminate].
  exists pr, pr'. split; [reflexivity|]. split; [reflexivity|].
  assert (Q : (let! p := generate 4 3 (opts true true true) sample in let! p' := generate 4 3 (keep_two (opts true true true)) sample in
             Some ((List.length (p_two p) <? List.length (p_two p'))%nat, get_category 4 true p 17)) = Some (true, Some 3)) by (vm_compute; reflexivity).
  rewrite E, E' in Q. cbn [obind] in Q. injection Q as Q1 Q2. split; [now apply Nat.ltb_lt|]. split; [exact Q2|].
  generalize (fun j => get_internal 4 false pr' (17 / N.of_nat 4 * N.of_nat 4 + N.of_nat j)%N). clear. intros g.
  intros (x & y & n & _ & N & L). apply (f_equal (@List.length _)) in L. rewrite map_length in L. cbn [List.length seq] in L.
  rewrite app_length, repeat_length in L. cbn in L. lia.
Qed.

(** ** C200: code points without data *)
Theorem C200_unassigned_partial B P fl ds pr cp asserts : (0 < B)%nat -> generate B P fl ds = Some pr ->
  f_prune2 fl = false -> (f_width fl = true -> f_grapheme fl = true) -> reached B fl ds cp -> (cp <= 1114111)%N ->
  (forall d, In d ds -> d_cp d <> cp) -> (forall d, In d ds -> proper_full d) ->
  (f_category fl = true -> get_category B asserts pr cp = Some 0 /\ is_whitespace B asserts pr cp = Some false) /\
  (f_case_info fl = true -> get_case_info B asserts pr cp = Some 0) /\
  (f_simple fl = true -> forall m, In m [SimpleUpper; SimpleLower; SimpleTitle] -> get_simple m B asserts pr cp = Some (Z.of_N cp)) /\
  (f_full fl = true -> forall m, In m [FullUpper; FullLower; FullTitle] -> get_full m B asserts pr cp = Some []).
Proof.
  intros HB H P2 Wd R Lc Nd Pf.
  assert (D : datum ds cp = unassigned cp).
  { unfold datum. destruct (find _ ds) as [d|] eqn:F; [|reflexivity]. apply find_some in F. destruct F as [F1 F2]. apply N.eqb_eq in F2. now destruct (Nd d F1). }
  destruct (C196_class_partial B P fl ds pr cp asserts HB H P2 Wd R (fun _ => Lc)) as (A1 & A2 & A3 & _). rewrite D in *. cbn [unassigned d_cat d_white] in *.
  destruct (C197_simple_partial B P fl ds pr cp asserts HB H P2 Wd R Lc) as (B1 & _). { rewrite D. intros s S. discriminate. }
  destruct (C198_full_partial B P fl ds pr cp asserts HB H P2 Wd R (fun _ => Lc) Pf) as (C1 & _). rewrite D in B1, C1.
  assert (G0 := fun F => bits0_get B P fl ds pr cp asserts HB H P2 Wd R (fun _ => Lc) F). rewrite D in G0.
  split; [|split; [|split]].
  - intros F. split; [|now apply A2]. destruct (G0 ltac:(now rewrite F)) as (s & S1 & S2).
    unfold get_category, get_bits. rewrite S1. cbn [obind]. rewrite S2. cbn [obind]. destruct (f_category fl), (f_case_info fl); reflexivity.
  - intros F. destruct (G0 ltac:(rewrite F; apply orb_true_r)) as (s & S1 & S2).
    unfold get_case_info, get_bits. rewrite S1. cbn [obind]. rewrite S2. cbn [obind]. destruct (f_category fl), (f_case_info fl); reflexivity.
  - intros F m M. destruct (B1 F) as (X1 & X2 & X3). cbn in M. destruct M as [<-|[<-|[<-|[]]]]; assumption.
  - intros F m M. destruct (C1 F) as (X1 & X2 & X3). cbn in M. destruct M as [<-|[<-|[<-|[]]]]; assumption.
Qed.
(** When every block up to the last one has data for all its code points, code points beyond are reported as letters. *)
Definition crowded : list udata := map (fun i => letter (N.of_nat i) (if (i <? 128)%nat then Lo else Nd) None None) (seq 0 256).
Theorem C200_refuted : exists pr, generate 128 1025 (opts_small false) crowded = Some pr /\
  (forall d, In d crowded -> d_cp d <> 1114111%N) /\ get_category 128 true pr 1114111 = Some 1.
Proof.
  destruct (generate 128 1025 (opts_small false) crowded) as [pr|] eqn:E; [|vm_compute in E; discriminate]. exists pr. split; [reflexivity|].
  split; [clear; intros d D; unfold crowded in D; apply in_map_iff in D; destruct D as [i [<- I]]; apply in_seq in I; cbn [letter d_cp]; lia|].
  assert (Q : (let! p := generate 128 1025 (opts_small false) crowded in get_category 128 true p 1114111) = Some 1) by (vm_compute; reflexivity).
  rewrite E in Q. exact Q.
Qed.
Example C200_example : exists pr, sample_program = Some pr /\ (forall d, In d sample -> d_cp d <> 100%N) /\
  get_category 4 true pr 100 = Some 0 /\ get_simple SimpleUpper 4 true pr 100 = Some 100 /\ get_full FullUpper 4 true pr 100 = Some [].
Proof.
  destruct sample_program as [pr|] eqn:E; [|vm_compute in E; discriminate]. exists pr. split; [reflexivity|].
  split; [intros d D; cbn in D; destruct D as [<-|[<-|[<-|[<-|[<-|[<-|[]]]]]]]; discriminate|].
  assert (Q : (let! p := sample_program in Some (get_category 4 true p 100, get_simple SimpleUpper 4 true p 100,
             get_full FullUpper 4 true p 100)) = Some (Some 0, Some 100, Some [])) by (vm_compute; reflexivity).
  rewrite E in Q. cbn [obind] in Q. injection Q as Q1 Q2 Q3. now repeat split.
Qed.

(** ** C201: the order of the data *)
Theorem C201_order_partial B P fl ds ds' pr pr' cp asserts : (0 < B)%nat -> Permutation ds ds' ->
  generate B P fl ds = Some pr -> generate B P fl ds' = Some pr' ->
  f_prune2 fl = false -> (f_width fl = true -> f_grapheme fl = true) -> reached B fl ds cp -> (cp <= 1114111)%N ->
  (forall d, In d ds -> proper_full d /\ proper_simple d) ->
  (f_category fl = true -> get_category B asserts pr cp = get_category B asserts pr' cp /\ is_whitespace B asserts pr cp = is_whitespace B asserts pr' cp) /\
  (f_case_info fl = true -> get_case_info B asserts pr cp = get_case_info B asserts pr' cp) /\
  (f_grapheme fl = true -> get_grapheme B asserts pr cp = get_grapheme B asserts pr' cp) /\
  (f_simple fl = true -> forall m, In m [SimpleUpper; SimpleLower; SimpleTitle] -> get_simple m B asserts pr cp = get_simple m B asserts pr' cp) /\
  (f_simple_fold fl = true -> get_simple SimpleFold B asserts pr cp = get_simple SimpleFold B asserts pr' cp) /\
  (f_simple_toggle fl = true -> get_simple SimpleToggle B asserts pr cp = get_simple SimpleToggle B asserts pr' cp) /\
  (f_full fl = true -> forall m, In m [FullUpper; FullLower; FullTitle] -> get_full m B asserts pr cp = get_full m B asserts pr' cp) /\
  (f_full_fold fl = true -> get_full FullFold B asserts pr cp = get_full FullFold B asserts pr' cp) /\
  (f_full_toggle fl = true -> get_full FullToggle B asserts pr cp = get_full FullToggle B asserts pr' cp).
Proof.
  intros HB Pm H H' P2 Wd R Lc Pr.
  assert (ND := proj1 (generate_distinct B P fl ds pr HB H)). assert (D := datum_permutation ds ds' cp Pm ND).
  assert (R' := reached_permutation B fl ds ds' cp Pm R).
  assert (Pf : forall d, In d ds -> proper_full d) by (intros d I; now apply Pr).
  assert (Pf' : forall d, In d ds' -> proper_full d). { intros d I. apply Pr. eapply Permutation_in; [apply Permutation_sym; exact Pm|exact I]. }
  assert (Ps : proper_simple (datum ds cp)). { destruct (datum_case ds cp) as [I|[_ ->]]; [now apply Pr|intros s S; discriminate]. }
  destruct (C196_class_partial B P fl ds pr cp asserts HB H P2 Wd R (fun _ => Lc)) as (_ & A2 & _ & A4).
  destruct (C196_class_partial B P fl ds' pr' cp asserts HB H' P2 Wd R' (fun _ => Lc)) as (_ & A2' & _ & A4').
  destruct (C197_simple_partial B P fl ds pr cp asserts HB H P2 Wd R Lc Ps) as (B1 & B2 & B3).
  destruct (C197_simple_partial B P fl ds' pr' cp asserts HB H' P2 Wd R' Lc) as (B1' & B2' & B3'); [now rewrite D|].
  destruct (C198_full_partial B P fl ds pr cp asserts HB H P2 Wd R (fun _ => Lc) Pf) as (C1 & C2 & C3).
  destruct (C198_full_partial B P fl ds' pr' cp asserts HB H' P2 Wd R' (fun _ => Lc) Pf') as (C1' & C2' & C3').
  assert (G := fun F => bits0_get B P fl ds pr cp asserts HB H P2 Wd R (fun _ => Lc) F).
  assert (G' := fun F => bits0_get B P fl ds' pr' cp asserts HB H' P2 Wd R' (fun _ => Lc) F).
  rewrite D in *.
  assert (Bits : f_category fl || f_case_info fl = true -> forall s m, get_bits Bits0 s m B asserts pr cp = get_bits Bits0 s m B asserts pr' cp).
  { intros F s m. destruct (G F) as (x & X1 & X2), (G' F) as (y & Y1 & Y2). unfold get_bits. rewrite X1, Y1. cbn [obind]. now rewrite X2, Y2. }
  split; [|split; [|split; [|split; [|split; [|split; [|split; [|split]]]]]]].
  - intros F. split; [apply Bits; now rewrite F|now rewrite (A2 F), (A2' F)].
  - intros F. apply Bits. rewrite F. apply orb_true_r.
  - intros F. now rewrite (A4 F), (A4' F).
  - intros F m M. destruct (B1 F) as (X1 & X2 & X3), (B1' F) as (Y1 & Y2 & Y3). cbn in M. destruct M as [<-|[<-|[<-|[]]]]; congruence.
  - intros F. now rewrite (B2 F), (B2' F).
  - intros F. now rewrite (B3 F), (B3' F).
  - intros F m M. destruct (C1 F) as (X1 & X2 & X3), (C1' F) as (Y1 & Y2 & Y3). cbn in M. destruct M as [<-|[<-|[<-|[]]]]; congruence.
  - intros F. now rewrite (C2 F), (C2' F).
  - intros F. now rewrite (C3 F), (C3' F).
Qed.
Example C201_example : exists pr pr', sample_program = Some pr /\ generate 4 3 (opts false true true) (rev sample) = Some pr' /\
  Permutation sample (rev sample) /\ p_two pr <> p_two pr' /\ get_full FullUpper 4 true pr' 3 = Some [8; 70000].
Proof.
  destruct sample_program as [pr|] eqn:E; [|vm_compute in E; discriminate].
  destruct (generate 4 3 (opts false true true) (rev sample)) as [pr'|] eqn:E'; [|vm_compute in E'; discriminate].
  exists pr, pr'. split; [reflexivity|]. split; [reflexivity|]. split; [apply Permutation_rev|].
  assert (Q : (let! p := sample_program in let! p' := generate 4 3 (opts false true true) (rev sample) in
             Some (zlist_eqb (p_two p) (p_two p'), get_full FullUpper 4 true p' 3)) = Some (false, Some [8; 70000])) by (vm_compute; reflexivity).
  rewrite E, E' in Q. cbn [obind] in Q. injection Q as Q1 Q2. split; [|exact Q2].
  intros X. rewrite X in Q1. assert (zlist_eqb (p_two pr') (p_two pr') = true) by now apply zlist_eqb_eq. congruence.
Qed.

(** ** C202: widths *)
Theorem C202_width_partial B P fl ds pr cp asserts : (0 < B)%nat -> generate B P fl ds = Some pr ->
  f_prune2 fl = false -> f_grapheme fl = true -> reached B fl ds cp -> (asserts = true -> (cp <= 1114111)%N) ->
  get_width B asserts pr cp = Some 0.
Proof.
  intros HB H P2 F R Ha. destruct (bits1_get B P fl ds pr cp asserts HB H P2 F R Ha) as (s & S1 & S2).
  unfold get_width, get_bits. rewrite S1. cbn [obind]. rewrite S2. cbn [obind]. destruct (d_gb (datum ds cp)); reflexivity.
Qed.
(** A wide character (full or wide East Asian width, no special grapheme break property) should have width 2. *)
Definition wide : list udata :=
  [{| d_cp := 65; d_cat := Lu; d_white := false; d_gb := GOther; d_wide := false; d_simple := None; d_full := None; d_tag := None |};
   {| d_cp := 19968; d_cat := Lo; d_white := false; d_gb := GOther; d_wide := true; d_simple := None; d_full := None; d_tag := None |}].
Definition opts_bits : flags :=
  {| f_case_info := true; f_category := true; f_grapheme := true; f_width := true; f_canonical := false; f_compat := false;
     f_full := false; f_full_fold := false; f_full_toggle := false; f_simple := false; f_simple_fold := false; f_simple_toggle := false;
     f_prune1 := false; f_prune2 := false; f_invalid := true; f_assert := true |}.
Theorem C202_refuted : exists pr, generate 128 1025 opts_bits wide = Some pr /\ d_wide (datum wide 19968) = true /\
  width_of opts_bits (datum wide 19968) = 2 /\ get_width 128 true pr 19968 = Some 0 /\ get_width 128 true pr 65 = Some 0.
Proof.
  destruct (generate 128 1025 opts_bits wide) as [pr|] eqn:E; [|vm_compute in E; discriminate]. exists pr. split; [reflexivity|].
  split; [reflexivity|]. split; [reflexivity|].
  assert (Q : (let! p := generate 128 1025 opts_bits wide in Some (get_width 128 true p 19968, get_width 128 true p 65)) = Some (Some 0, Some 0)) by (vm_compute; reflexivity).
  rewrite E in Q. cbn [obind] in Q. injection Q as Q1 Q2. now split.
Qed.

(** ** C203: decompositions *)
Definition first_of (canonical : bool) (d : udata) : option Z :=
  match d_tag d with Some (c, v :: _) => if Bool.eqb c canonical then Some v else None | _ => None end.
Theorem C203_decomposition_partial B P fl ds pr cp asserts : (0 < B)%nat -> generate B P fl ds = Some pr ->
  f_prune2 fl = false -> (f_width fl = true -> f_grapheme fl = true) -> reached B fl ds cp -> (cp <= 1114111)%N ->
  (forall c v vs, d_tag (datum ds cp) = Some (c, v :: vs) -> 0 <= v < 2 ^ 32) ->
  (f_canonical fl = true -> get_simple SimpleCanonical B asserts pr cp = Some (mapped cp (first_of true (datum ds cp)))) /\
  (f_compat fl = true -> get_simple SimpleCompat B asserts pr cp = Some (mapped cp (first_of false (datum ds cp)))).
Proof.
  intros HB H P2 Wd R Lc Tg.
  assert (Rg : forall c v', first_of c (datum ds cp) = Some v' -> 0 <= v' < 2 ^ 32).
  { intros c v' V. unfold first_of in V. destruct (d_tag (datum ds cp)) as [[c' [|v vs]]|] eqn:T; try discriminate.
    destruct (Bool.eqb c' c); [|discriminate]. injection V as <-. eapply Tg. reflexivity. }
  assert (G := fun m v => simple_get B P fl ds pr cp asserts m v HB H P2 Wd R (fun _ => Lc)).
  split; intros F; (apply G; [in_members|reflexivity|lia|apply Rg|]); intros u e E; cbn [mvalue].
  - now rewrite (eo_canonical _ _ _ _ E), F.
  - now rewrite (eo_compat _ _ _ _ E), F.
Qed.
Definition accented (mark : Z) : list udata :=
  [{| d_cp := 101; d_cat := Ll; d_white := false; d_gb := GOther; d_wide := false; d_simple := None; d_full := None; d_tag := None |};
   {| d_cp := 233; d_cat := Ll; d_white := false; d_gb := GOther; d_wide := false; d_simple := None; d_full := None; d_tag := Some (true, [101; mark]) |}].
Definition opts_canonical : flags :=
  {| f_case_info := true; f_category := true; f_grapheme := false; f_width := false; f_canonical := true; f_compat := false;
     f_full := false; f_full_fold := false; f_full_toggle := false; f_simple := false; f_simple_fold := false; f_simple_toggle := false;
     f_prune1 := false; f_prune2 := false; f_invalid := true; f_assert := true |}.
(** The program is the same whether U+00E9 decomposes into e and an acute accent or e and a grave accent: the second code point of a
    canonical decomposition is lost. *)
Theorem C203_refuted : exists pr, generate 128 1025 opts_canonical (accented 769) = Some pr /\
  generate 128 1025 opts_canonical (accented 768) = Some pr /\ d_tag (datum (accented 769) 233) <> d_tag (datum (accented 768) 233).
Proof.
  destruct (generate 128 1025 opts_canonical (accented 769)) as [pr|] eqn:E; [|vm_compute in E; discriminate]. exists pr. split; [reflexivity|].
  split; [rewrite <- E; vm_compute; reflexivity|]. discriminate.
Qed.
Example C203_example : exists pr, generate 128 1025 opts_canonical (accented 769) = Some pr /\ get_simple SimpleCanonical 128 true pr 233 = Some 101 /\
  get_simple SimpleCanonical 128 true pr 101 = Some 101.
Proof.
  destruct (generate 128 1025 opts_canonical (accented 769)) as [pr|] eqn:E; [|vm_compute in E; discriminate]. exists pr. split; [reflexivity|].
  assert (Q : (let! p := generate 128 1025 opts_canonical (accented 769) in Some (get_simple SimpleCanonical 128 true p 233, get_simple SimpleCanonical 128 true p 101))
     = Some (Some 101, Some 101)) by (vm_compute; reflexivity).
  rewrite E in Q. cbn [obind] in Q. injection Q as Q1 Q2. now split.
Qed.

(** ** C204: element types. Missing: the tables when their stage is pruned, the members of the entries, the runs. *)
Theorem C204_types_partial B P fl ds pr : (0 < B)%nat -> generate B P fl ds = Some pr ->
  (f_prune1 fl = false -> c_signed (p_one_type pr) = false /\ (forall v, In v (p_one pr) -> 0 <= v < 2 ^ c_size (p_one_type pr)) /\
     (forall n, In n [8; 16; 32] -> (forall v, In v (p_one pr) -> v < 2 ^ n) -> c_size (p_one_type pr) <= n)) /\
  (f_prune2 fl = false -> c_signed (p_two_type pr) = false /\ (forall v, In v (p_two pr) -> 0 <= v < 2 ^ c_size (p_two_type pr)) /\
     (forall n, In n [8; 16; 32] -> (forall v, In v (p_two pr) -> v < 2 ^ n) -> c_size (p_two_type pr) <= n)).
Proof. apply generate_types. Qed.
Example C204_example : exists pr, sample_program = Some pr /\ c_size (p_two_type pr) = 8 /\ (5 < List.length (p_two pr))%nat /\ f_prune2 (opts false true true) = false.
Proof.
  destruct sample_program as [pr|] eqn:E; [|vm_compute in E; discriminate]. exists pr. split; [reflexivity|].
  assert (Q : (let! p := sample_program in Some (c_size (p_two_type p), (5 <? List.length (p_two p))%nat)) = Some (8, true)) by (vm_compute; reflexivity).
  rewrite E in Q. cbn [obind] in Q. injection Q as Q1 Q2. split; [exact Q1|]. split; [now apply Nat.ltb_lt|reflexivity].
Qed.

(** No value is lost in the types: without pruning every cell of the first table names a block of the second, each block is named,
    and every cell of the second names an entry. *)
Theorem C204_used_partial B P fl ds pr : (0 < B)%nat -> generate B P fl ds = Some pr -> f_prune1 fl = false -> f_prune2 fl = false ->
  exists n, List.length (p_two pr) = (n * B)%nat /\ (forall v, In v (p_one pr) -> 0 <= v < Z.of_nat n) /\
    (forall b, (b < n)%nat -> In (Z.of_nat b) (p_one pr)) /\ (forall v, In v (p_two pr) -> 0 <= v < Z.of_nat (List.length (p_entries pr))).
Proof. apply generate_used. Qed.
Example C204_example_used : exists pr, generate 4 3 (opts_small false) sample = Some pr /\ p_one pr = [1; 2; 0; 0; 3; 0; 0; 0; 0; 0; 4] /\
  List.length (p_two pr) = 20%nat /\ c_size (p_one_type pr) = 8.
Proof.
  destruct (generate 4 3 (opts_small false) sample) as [pr|] eqn:E; [|vm_compute in E; discriminate]. exists pr. split; [reflexivity|].
  assert (Q : (let! p := generate 4 3 (opts_small false) sample in Some (p_one p, List.length (p_two p), c_size (p_one_type p))) =
     Some ([1; 2; 0; 0; 3; 0; 0; 0; 0; 0; 4], 20%nat, 8)) by (vm_compute; reflexivity).
  rewrite E in Q. cbn [obind] in Q. injection Q as Q1 Q2 Q3. auto.
Qed.

(** ** C205: no block is stored twice *)
Theorem C205_distinct B P fl ds pr : (0 < B)%nat -> generate B P fl ds = Some pr ->
  exists blocks, p_two pr = concat blocks /\ NoDup blocks /\ forall blk, In blk blocks -> List.length blk = B.
Proof. apply generate_stored. Qed.
Example C205_example : exists pr, generate 4 3 (opts false true true) (sample ++ [letter 46 Zs None None; letter 50 Zs None None]) = Some pr /\
  List.length (p_two pr) = 20%nat.
Proof.
  destruct (generate 4 3 (opts false true true) (sample ++ [letter 46 Zs None None; letter 50 Zs None None])) as [pr|] eqn:E; [|vm_compute in E; discriminate].
  exists pr. split; [reflexivity|].
  assert (Q : (let! p := generate 4 3 (opts false true true) (sample ++ [letter 46 Zs None None; letter 50 Zs None None]) in Some (List.length (p_two p))) = Some 20%nat) by (vm_compute; reflexivity).
  rewrite E in Q. cbn [obind] in Q. now injection Q.
Qed.

(** ** C206: contradicting data *)
Theorem C206_rejects B P fl ds : (0 < B)%nat -> ~ NoDup (map d_cp ds) \/ (exists d, In d ds /\ (1114111 < d_cp d)%N) -> generate B P fl ds = None.
Proof.
  intros HB H. destruct (generate B P fl ds) as [pr|] eqn:E; [|reflexivity]. exfalso. destruct (generate_distinct B P fl ds pr HB E) as [N L].
  destruct H as [H|[d [D1 D2]]]; [now apply H|]. specialize (L d D1). lia.
Qed.
Example C206_example : ~ NoDup (map d_cp (sample ++ [letter 42 Nd None None])).
Proof.
  cbn. intros H. do 5 (apply NoDup_cons_iff in H; destruct H as [_ H]). apply NoDup_cons_iff in H. destruct H as [H _]. apply H. now left.
Qed.

Print Assumptions C196_class_partial.
Print Assumptions C196_refuted.
Print Assumptions C197_simple_partial.
Print Assumptions C197_refuted.
Print Assumptions C198_full_partial.
Print Assumptions C199_prune_partial.
Print Assumptions C199_refuted.
Print Assumptions C200_unassigned_partial.
Print Assumptions C200_refuted.
Print Assumptions C201_order_partial.
Print Assumptions C202_width_partial.
Print Assumptions C202_refuted.
Print Assumptions C203_decomposition_partial.
Print Assumptions C203_refuted.
Print Assumptions C204_types_partial.
Print Assumptions C205_distinct.
Print Assumptions C206_rejects.
Print Assumptions C196_pruned_partial.
Print Assumptions C197_pruned_partial.
Print Assumptions C198_pruned_partial.
Print Assumptions C204_used_partial.
