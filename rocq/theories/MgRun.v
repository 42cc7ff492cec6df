(** Whole passes, and rounds of them. *)
From Coq Require Import Arith NArith List Bool Lia.
From Verif Require Import Base MgModel MgSpec MgWord MgText MgLex MgMerge MgWalk.
Import ListNotations.
Local Open Scope N_scope.

(** ** Indentation *)
Lemma indent_tabs : forall k x a sp s, indent_loop (repeat 9 k ++ 10 :: x) s (Indent a sp) = Indent (k + a) sp.
Proof.
  induction k as [|k IH]; intros x a sp s; cbn [repeat app]; [destruct x; reflexivity|]. cbn [indent_loop]. destruct (repeat 9 k ++ 10 :: x) as [|y z] eqn:E; [destruct k; discriminate E|]. change (9 =? 9) with true. cbv beta iota. cbn [i_amount i_spaces]. rewrite <- E, IH. f_equal. lia.
Qed.
Lemma indent_space c t spaces r : indent_loop (32 :: c :: t) spaces r = if (spaces =? 3)%nat then indent_loop (c :: t) 0 (Indent (S (i_amount r)) true) else indent_loop (c :: t) (S spaces) (Indent (i_amount r) true).
Proof. reflexivity. Qed.
Lemma repeat_four k : repeat 32 (4 * S k) = 32 :: 32 :: 32 :: 32 :: repeat 32 (4 * k).
Proof. replace (4 * S k)%nat with (S (S (S (S (4 * k))))) by lia. reflexivity. Qed.
Lemma indent_fours : forall k x a sp, indent_loop (repeat 32 (4 * k) ++ 10 :: x) 0 (Indent a sp) = Indent (k + a) (match k with O => sp | _ => true end).
Proof.
  induction k as [|k IH]; intros x a sp; [cbn [Nat.mul repeat app]; destruct x; reflexivity|]. rewrite repeat_four. cbn [app].
  assert (exists y z, repeat 32 (4 * k) ++ 10 :: x = y :: z) as (y & z & E) by (destruct (repeat 32 (4 * k)); eexists _, _; reflexivity).
  rewrite !indent_space. cbn [Nat.eqb i_amount]. rewrite E, indent_space. cbn [Nat.eqb i_amount]. rewrite <- E, IH. replace (k + S a)%nat with (S k + a)%nat by lia. destruct k; reflexivity.
Qed.
Lemma rev_repeat (c : N) k : rev (repeat c k) = repeat c k.
Proof. induction k as [|k IH]; [reflexivity|]. cbn [repeat rev]. rewrite IH. clear. induction k as [|k IH]; [reflexivity|]. cbn [repeat app]. rewrite IH. reflexivity. Qed.
Lemma concat_tabs k : concat (repeat [9] k) = repeat 9 k. Proof. induction k as [|k IH]; [reflexivity|]. cbn [repeat concat app]. rewrite IH. reflexivity. Qed.
Lemma concat_fours k : concat (repeat [32; 32; 32; 32] k) = repeat 32 (4 * k). Proof. induction k as [|k IH]; [reflexivity|]. rewrite repeat_four. cbn [repeat concat app]. rewrite IH. reflexivity. Qed.
Lemma indented_nil l : indented [] l = l. Proof. induction l as [|c t IH]; [reflexivity|]. cbn [indented]. destruct (c =? 13); [rewrite IH|]; reflexivity. Qed.
Lemma indented_nils ls : map (indented []) ls = ls. Proof. induction ls as [|l ls IH]; [reflexivity|]. cbn [map]. rewrite indented_nil, IH. reflexivity. Qed.
Theorem indent_of_line x pre : indentation_text pre -> let i := get_indent (x ++ 10 :: pre) in indent_text i = pre.
Proof.
  intros [k [->| ->]] i; unfold i, get_indent; rewrite rev_app_distr; cbn [rev]; rewrite rev_repeat, <- app_assoc; cbn [app].
  - rewrite indent_tabs. unfold indent_text. cbn [i_amount i_spaces unit_of]. rewrite Nat.add_0_r. apply concat_tabs.
  - rewrite indent_fours. unfold indent_text, unit_of. cbn [i_amount i_spaces]. rewrite Nat.add_0_r. destruct k; [reflexivity|apply concat_fours].
Qed.
Lemma indent_text_nil i : i_amount i = 0%nat -> indent_text i = []. Proof. intros E. unfold indent_text. rewrite E. reflexivity. Qed.
Theorem indent_moves i l ls : is_line l -> Forall is_line ls -> indent_range (joined (l :: ls)) i = Some (joined (l :: map (indented (indent_text i)) ls)).
Proof. intros L F. rewrite indent_range_lines by assumption. destruct (Nat.eqb_spec (i_amount i) 0) as [E|_]; [|reflexivity]. rewrite (indent_text_nil i E), indented_nils. reflexivity. Qed.
Lemma indent_text_ok i : indentation_text (indent_text i).
Proof. exists (i_amount i). unfold indent_text, unit_of. destruct (i_spaces i); [right; apply concat_fours|left; apply concat_tabs]. Qed.
Lemma lines_of : forall t, exists l ls, t = joined (l :: ls) /\ is_line l /\ Forall is_line ls.
Proof.
  induction t as [|c t (l & ls & -> & L & F)]; [exists [], []; repeat split; [intros []|constructor]|]. destruct (N.eq_dec c 10) as [->|N].
  - exists [], (l :: ls). split; [reflexivity|]. split; [intros []|constructor; assumption].
  - exists (c :: l), ls. split; [destruct ls; reflexivity|]. split; [intros [Y|Y]; [congruence|exact (L Y)]|exact F].
Qed.

Section Run.
Variable files : text -> option text.
Variable dir : text.
Section Expand.
Variable already : list text.
Variable year : text.
Variable t0 : text.
Let d := t0 ++ [0].
Hypothesis Len : N.of_nat (length d) < INT32_MAX.
Let defs := [Def merge_year year].
Definition allowed (name : text) : Prop := ~ In name already /\ concat_paths dir name <> [].
Definition some_names (names : list text) : bool := match names with [] => false | _ => true end.
Lemma expand_loop src res names : expands (file_of files dir) allowed src res names -> absent merge_year src -> (forall name data, In name names -> file_of files dir name = Some data -> absent merge_year data) ->
  forall fuel p out, skipn p d = src ++ [0] -> (length d - p < fuel)%nat ->
  merge_loop files dir fuel d already p defs out = Some (Merged (m_data out ++ res) (fold_left (fun ns n => add_name n ns) names (m_files out) ++ already) true (m_changed out || some_names names)).
Proof using Len.
  induction 1 as [t O|a pre b1 b2 name l ls rest rest' names O Pi F1 F2 Sb [Na Nc] Fi Li Ls X IH]; intros Ab Fa fuel p out E Lf.
  - pose proof (walk t0 Len files dir already year (length t) t (Nat.le_refl _) O Ab fuel p out 0 [] E (or_intror (conj eq_refl eq_refl)) Lf) as W. change (0 =? 35) with false in W. cbv beta iota in W. cbn [some_names fold_left]. rewrite orb_false_r. exact W.
  - set (A := a ++ [10] ++ pre) in *. assert (E' : skipn p d = A ++ 35 :: b1 ++ the_include ++ b2 ++ 34 :: name ++ 34 :: rest ++ [0]) by (rewrite E; unfold A; rewrite <- !app_assoc; cbn [app]; repeat first [rewrite <- app_assoc | progress cbn [app]]; reflexivity).
    assert (Ab1 : absent merge_year A). { intros x y Y. apply (Ab x (y ++ 35 :: b1 ++ the_include ++ b2 ++ 34 :: name ++ 34 :: rest)). replace (a ++ [10] ++ pre ++ 35 :: b1 ++ the_include ++ b2 ++ 34 :: name ++ 34 :: rest) with (A ++ 35 :: b1 ++ the_include ++ b2 ++ 34 :: name ++ 34 :: rest) by (unfold A; rewrite <- !app_assoc; reflexivity). rewrite Y, <- !app_assoc. reflexivity. }
    assert (Ab2 : absent merge_year rest). { intros x y ->. apply (Ab (a ++ [10] ++ pre ++ 35 :: b1 ++ the_include ++ b2 ++ 34 :: name ++ 34 :: x) y). repeat first [rewrite <- app_assoc | progress cbn [app]]. reflexivity. }
    pose proof (walk t0 Len files dir already year (length A) A (Nat.le_refl _) O Ab1 fuel p out 35 _ E' (or_introl eq_refl) Lf) as W. change (35 =? 35) with true in W. cbv beta iota in W. destruct W as (fuel' & L' & W). unfold defs, d. rewrite W. clear W.
    assert (E1 : skipn (p + length A + 1) d = b1 ++ the_include ++ b2 ++ 34 :: name ++ 34 :: rest ++ [0]) by (pose proof (skip_w t0 _ _ _ E') as Y; exact (skip_w t0 _ [35] _ Y)).
    erewrite (include_at t0 Len files dir already year fuel' (p + length A + 1) _ b1 b2 name (rest ++ [0]) (joined (l :: ls)) (joined (l :: map (indented pre) ls)) E1 F1 F2 Sb Na Nc Fi).
    + cbn [m_data set_data m_files m_success m_changed].
      assert (E2 : skipn (p + length A + 1 + length (b1 ++ the_include ++ b2 ++ 34 :: name ++ [34])) d = rest ++ [0]). { apply (skip_w t0). fold d. rewrite E1. repeat first [rewrite <- app_assoc | progress cbn [app]]. reflexivity. }
      pose proof (len_w t0 _ _ E') as Le. fold d in Le, L'. rewrite app_length in Le. cbn [length] in Le.
      pose proof (IH Ab2 (fun n dt I => Fa n dt (or_intror I)) fuel' _ (Merged ((m_data out ++ A) ++ joined (l :: map (indented pre) ls)) (add_name name (m_files out)) (m_success out) true) E2 ltac:(lia)) as IH'. cbn [m_data m_files m_changed orb some_names fold_left] in IH' |- *. rewrite orb_true_r. unfold d, defs in IH'. rewrite IH'. f_equal. f_equal. unfold A. repeat first [rewrite <- app_assoc | progress cbn [app]]. reflexivity.
    + apply (Fa name); [left; reflexivity|exact Fi].
    + cbn [m_data set_data]. rewrite indent_moves by assumption. f_equal. f_equal. f_equal. unfold A. replace (m_data out ++ a ++ [10] ++ pre) with ((m_data out ++ a) ++ 10 :: pre) by (rewrite <- app_assoc; reflexivity). rewrite (indent_of_line _ pre Pi). reflexivity.
Qed.
End Expand.
Lemma add_name_in n name ns : In n (add_name name ns) <-> n = name \/ In n ns.
Proof. unfold add_name. destruct (is_in name ns) eqn:E; [apply is_in_spec in E; split; [auto|intros [->|H]; assumption]|]. rewrite in_app_iff. cbn. intuition. Qed.
Lemma fold_names_in n : forall names ns, In n (fold_left (fun ns n => add_name n ns) names ns) <-> In n names \/ In n ns.
Proof. induction names as [|x names IH]; intros ns; cbn [fold_left]; [cbn; tauto|]. rewrite IH, add_name_in. cbn [In]. intuition. Qed.
Lemma merge_starts year t already : (length dir <= 260)%nat -> merge files dir year (t ++ [0]) already = merge_loop files dir (S (length (t ++ [0]))) (t ++ [0]) already 0 [Def merge_year year] (Merged [] [] false false).
Proof. intros L. unfold merge. rewrite rev_app_distr. cbn [rev app]. destruct (Nat.ltb_spec 260 (length dir)); [lia|reflexivity]. Qed.
Theorem merge_expands year already src res names : N.of_nat (length src) + 1 < INT32_MAX -> (length dir <= 260)%nat -> expands (file_of files dir) (allowed already) src res names -> absent merge_year src ->
  (forall name data, In name names -> file_of files dir name = Some data -> absent merge_year data) ->
  exists m, merge files dir year (src ++ [0]) already = Some m /\ m_data m = res /\ m_success m = true /\ m_changed m = some_names names /\ forall n, In n (m_files m) <-> In n names \/ In n already.
Proof.
  intros Ln Ld X Ab Fa. rewrite merge_starts by exact Ld. assert (Len : N.of_nat (length (src ++ [0])) < INT32_MAX) by (rewrite app_length; cbn [length]; lia).
  rewrite (expand_loop already year src Len src res names X Ab Fa); [|reflexivity|cbn [skipn]; lia]. eexists. split; [reflexivity|]. cbn [m_data m_success m_changed m_files app orb]. repeat split; try reflexivity.
  - intros I. apply in_app_or in I as [I|I]; [|right; exact I]. apply fold_names_in in I as [I|[]]. left. exact I.
  - intros [I|I]; apply in_or_app; [left; apply fold_names_in; left; exact I|right; exact I].
Qed.

(** ** Whatever the source *)
Lemma absent_mid w (x y z : text) : absent w (x ++ y ++ z) -> absent w y. Proof. intros A a b ->. apply (A (x ++ a) (b ++ z)). rewrite <- !app_assoc. reflexivity. Qed.
Lemma merge_year_merge : merge_year = the_merge ++ [89; 69; 65; 82]. Proof. reflexivity. Qed.
Lemma absent_year t : absent the_merge t -> absent merge_year t.
Proof. intros A a b ->. apply (A a ([89; 69; 65; 82] ++ b)). rewrite merge_year_merge, <- !app_assoc. reflexivity. Qed.
Lemma head_absent src name rest : define_head src name -> ~ absent the_merge (src ++ rest).
Proof.
  intros (g1 & k & g2 & b & -> & _ & _ & _ & _ & (more & ->) & _) A. apply (A (35 :: g1 ++ k ++ g2) (more ++ b ++ rest)). repeat first [rewrite <- app_assoc | progress cbn [app]]. reflexivity.
Qed.
Theorem passes_plain year already defs out ns ch src m : passes files dir already defs out ns ch src m -> defs = [Def merge_year year] -> absent the_merge src -> (forall name data, file_of files dir name = Some data -> absent merge_year data) -> m_success m = true ->
  exists res names, includes_merged (file_of files dir) (fun n => ~ In n already) src res names /\ m_data m = out ++ res /\ m_changed m = ch || some_names names /\ (forall n, In n (m_files m) <-> In n names \/ In n ns \/ In n already).
Proof.
  induction 1 as [defs out ns ch s s' Es|defs out ns ch s s' src name data r1 r2 r3 rest m Es Di Na Fd E1 E2 E3 P IH|defs out ns ch s s' src name value rest m Es Di P IH|defs out ns ch s s' src rest Es Di]; intros -> A Fa Su.
  - pose proof (process_year year s (absent_year s A)) as Y. rewrite Y in Es. injection Es as <-. exists s, []. split; [constructor|]. cbn [m_data m_changed m_files some_names]. rewrite orb_false_r. repeat split; try reflexivity; [intros I; apply in_app_or in I; tauto|intros [[]|[I|I]]; apply in_or_app; tauto].
  - pose proof (absent_mid _ [] s _ A) as A1. rewrite (process_year year s (absent_year s A1)) in Es. injection Es as <-. pose proof (Fa _ _ Fd) as Ay. rewrite (erase_year year _ Ay) in E1. injection E1 as <-. rewrite (process_year year _ Ay) in E2. injection E2 as <-.
    destruct IH as (res & names & X & Ed & Ec & En); [reflexivity| |exact Fa|exact Su|]. { apply (absent_mid _ (s ++ src) rest []). rewrite app_nil_r, <- app_assoc. exact A. }
    destruct (lines_of data) as (l & ls & -> & L & F). rewrite indent_moves in E3 by assumption. injection E3 as <-.
    eexists _, (name :: names). split; [eapply I_include; try eassumption; apply indent_text_ok|]. split; [rewrite Ed, <- !app_assoc; reflexivity|]. split; [rewrite Ec; cbn [some_names orb]; rewrite orb_true_r; reflexivity|]. intros n. rewrite En, add_name_in. cbn [In]. intuition.
  - exfalso. destruct Di as (h & e & -> & Hh & _). apply (head_absent h name (value ++ e ++ rest) Hh). apply (absent_mid _ s (h ++ value ++ e ++ rest) []). rewrite app_nil_r. rewrite <- !app_assoc in A. exact A.
  - discriminate Su.
Qed.
Theorem merge_plain year already src m : N.of_nat (length src) + 1 < INT32_MAX -> absent the_merge src -> (forall name data, file_of files dir name = Some data -> absent merge_year data) -> merge files dir year (src ++ [0]) already = Some m -> m_success m = true ->
  exists names, includes_merged (file_of files dir) (fun n => ~ In n already) src (m_data m) names /\ m_changed m = some_names names /\ (forall n, In n (m_files m) <-> In n names \/ In n already).
Proof.
  intros Ln A Fa E Su. destruct (Nat.ltb_spec 260 (length dir)) as [Lt|Le].
  - unfold merge in E. rewrite rev_app_distr in E. cbn [rev app] in E. destruct (Nat.ltb_spec 260 (length dir)); [|lia]. injection E as <-. discriminate Su.
  - rewrite merge_starts in E by exact Le. assert (Len : N.of_nat (length (src ++ [0])) < INT32_MAX) by (rewrite app_length; cbn [length]; lia).
    assert (Nm : named [Def merge_year year]) by (constructor; [split; [discriminate|repeat constructor]|constructor]).
    destruct (merge_loop_passes files dir already src Len (S (length (src ++ [0]))) 0 [Def merge_year year] [] [] [] [] false) as [_ P]; [lia|rewrite app_length; cbn; lia|exact Nm|apply (process_year year []); intros a b Y; destruct a; discriminate Y|left; reflexivity|].
    specialize (P m E). cbn [skipn app] in P. destruct (passes_plain year already _ _ _ _ _ _ P eq_refl A Fa Su) as (res & names & X & Ed & Ec & En). exists names. cbn [app] in Ed. rewrite Ed. split; [exact X|]. split; [exact Ec|]. intros n. rewrite En. cbn [In]. tauto.
Qed.
(** ** With definitions *)
Definition pairs (defs : list definition) : list (text * text) := map (fun x => (d_name x, d_value x)) defs.
Lemma process_replaced : forall defs t t', named defs -> process_definitions t defs = Some t' -> defs_replaced (pairs defs) t t'.
Proof.
  induction defs as [|x defs IH]; intros t t' Nm E; [injection E as <-; reflexivity|]. inversion Nm; subst. rewrite process_cons in E. destruct (replace_one t x) as [t1|] eqn:E1; [|discriminate E]. cbn [pairs map defs_replaced]. exists t1. split; [|exact (IH t1 t' H2 E)].
  intros U. destruct x as [n v]. destruct (replace_words n v t H1 U) as (t2 & E2 & W). rewrite E1 in E2. injection E2 as ->. exact W.
Qed.
Lemma erase_erased : forall defs t t', erase_undef_statements t defs = Some t' -> undefs_erased (pairs defs) t t'.
Proof.
  induction defs as [|x defs IH]; intros t t' E; [injection E as <-; reflexivity|]. rewrite erase_cons in E. destruct (erase_one t x) as [t1|] eqn:E1; [|discriminate E]. cbn [pairs map undefs_erased]. exists t1. split; [|exact (IH t1 t' E)].
  intros A. rewrite (erase_absent x t A) in E1. congruence.
Qed.
Theorem passes_defs already defs out ns ch src m : passes files dir already defs out ns ch src m -> named defs -> m_success m = true ->
  exists res names, merged_text (file_of files dir) (fun n => ~ In n already) (pairs defs) src res names /\ m_data m = out ++ res /\ m_changed m = ch || some_names names /\ (forall n, In n (m_files m) <-> In n names \/ In n ns \/ In n already).
Proof.
  induction 1 as [defs out ns ch s s' Es|defs out ns ch s s' src name data r1 r2 r3 rest m Es Di Na Fd E1 E2 E3 P IH|defs out ns ch s s' src name value rest m Es Di P IH|defs out ns ch s s' src rest Es Di]; intros Nm Su.
  - exists s', []. split; [constructor; exact (process_replaced _ _ _ Nm Es)|]. cbn [m_data m_changed m_files some_names]. rewrite orb_false_r. repeat split; try reflexivity; [intros I; apply in_app_or in I; tauto|intros [[]|[I|I]]; apply in_or_app; tauto].
  - destruct IH as (res & names & X & Ed & Ec & En); [destruct Nm; [constructor|constructor; [assumption|constructor]]|exact Su|]. assert (Fp : pairs (firstn 1 defs) = firstn 1 (pairs defs)) by (destruct defs; reflexivity). rewrite Fp in X.
    destruct (lines_of r2) as (l & ls & -> & L & F). rewrite indent_moves in E3 by assumption. injection E3 as <-.
    eexists _, (name :: names). split; [eapply G_include; [exact (process_replaced _ _ _ Nm Es)|exact Di|exact Na|exact Fd|exact (erase_erased _ _ _ E1)|exact (process_replaced _ _ _ Nm E2)|exact L|exact F|apply indent_text_ok|exact X]|].
    split; [rewrite Ed, <- !app_assoc; reflexivity|]. split; [rewrite Ec; cbn [some_names orb]; rewrite orb_true_r; reflexivity|]. intros n. rewrite En, add_name_in. cbn [In]. intuition.
  - destruct IH as (res & names & X & Ed & Ec & En); [apply Forall_app; split; [exact Nm|constructor; [|constructor]]|exact Su|]. { destruct Di as (h & e & _ & Hh & _). exact (head_named _ _ Hh). }
    unfold pairs in X. rewrite map_app in X. cbn [map d_name d_value] in X. exists (s' ++ res), names. split; [eapply G_define; [exact (process_replaced _ _ _ Nm Es)|exact Di|exact X]|]. split; [rewrite Ed, <- app_assoc; reflexivity|]. split; assumption.
  - discriminate Su.
Qed.
Theorem merge_defs year already src m : N.of_nat (length src) + 1 < INT32_MAX -> merge files dir year (src ++ [0]) already = Some m -> m_success m = true ->
  exists names, merged_text (file_of files dir) (fun n => ~ In n already) [(merge_year, year)] src (m_data m) names /\ m_changed m = some_names names /\ (forall n, In n (m_files m) <-> In n names \/ In n already).
Proof.
  intros Ln E Su. destruct (Nat.ltb_spec 260 (length dir)) as [Lt|Le].
  - unfold merge in E. rewrite rev_app_distr in E. cbn [rev app] in E. destruct (Nat.ltb_spec 260 (length dir)); [|lia]. injection E as <-. discriminate Su.
  - rewrite merge_starts in E by exact Le. assert (Len : N.of_nat (length (src ++ [0])) < INT32_MAX) by (rewrite app_length; cbn [length]; lia).
    assert (Nm : named [Def merge_year year]) by (constructor; [split; [discriminate|repeat constructor]|constructor]).
    destruct (merge_loop_passes files dir already src Len (S (length (src ++ [0]))) 0 [Def merge_year year] [] [] [] [] false) as [_ P]; [lia|rewrite app_length; cbn; lia|exact Nm|apply (process_year year []); intros a b Y; destruct a; discriminate Y|left; reflexivity|].
    specialize (P m E). cbn [skipn app] in P. destruct (passes_defs already _ _ _ _ _ _ P Nm Su) as (res & names & X & Ed & Ec & En). exists names. cbn [app] in Ed. rewrite Ed. split; [exact X|]. split; [exact Ec|]. intros n. rewrite En. cbn [In]. tauto.
Qed.
(** ** No read outside of the text *)
Lemma absent_cons w c t : w <> [] -> ~ In c w -> absent w t -> absent w (c :: t).
Proof. intros Nw I A a b E. destruct a as [|x a]; cbn [app] in E. - destruct w as [|y w]; [congruence|]. injection E as -> _. apply I. left. reflexivity. - injection E as _ E. exact (A a b E). Qed.
Lemma absent_snoc w t c : w <> [] -> ~ In c w -> absent w t -> absent w (t ++ [c]).
Proof.
  intros Nw I A a b E. destruct (rev_case b) as [->|(b' & z & ->)].
  - rewrite app_nil_r in E. destruct (rev_case w) as [->|(w' & z & ->)]; [congruence|]. rewrite app_assoc in E. apply app_inj_tail in E as [_ ->]. apply I. apply in_or_app. right. left. reflexivity.
  - rewrite !app_assoc in E. apply app_inj_tail in E as [E _]. rewrite <- app_assoc in E. exact (A a b' E).
Qed.
Lemma defines_end_absent t : absent the_merge t -> defines_end t.
Proof. intros A p h n name L E Hh. exfalso. apply (head_absent h name (skipn n t) Hh). rewrite <- E. apply absent_cons; [discriminate|cbn; intuition discriminate|]. rewrite <- (firstn_skipn p t) in A. apply (absent_mid _ (firstn p t) (skipn p t) []). rewrite app_nil_r. exact A. Qed.
Lemma index_in : forall l c, In c l -> index c l <> None.
Proof. induction l as [|x l IH]; intros c I; [destruct I|]; destruct I as [->|I]; cbn [index]; [rewrite N.eqb_refl; discriminate|]. destruct (x =? c); [discriminate|]. destruct (index c l) eqn:E; [discriminate|]. exfalso. exact (IH c I E). Qed.
Lemma defines_end_well t : ends_well t -> defines_end t.
Proof.
  intros (a & l & -> & L & Nb & A) p h n name Lp E Hh Ln. set (t := a ++ 10 :: l ++ [10]) in *. unfold t in Ln at 1.
  destruct (Nat.lt_ge_cases n (length t)) as [Lt|Ge].
  - apply index_in. rewrite (suffix t n Ln). apply in_or_app. left. assert (In 10 (skipn n t)); [|assumption]. pose proof (firstn_skipn n t) as Y. assert (exists x, t = x ++ [10]) as (x & Ex) by (exists (a ++ 10 :: l); unfold t; rewrite <- app_assoc; reflexivity).
    destruct (rev_case (skipn n t)) as [Z|(z & c & Z)]; [apply (f_equal (@length N)) in Z; rewrite skipn_length in Z; cbn in Z; lia|]. rewrite Z, app_assoc, Ex in Y. apply app_inj_tail in Y as [_ ->]. rewrite Z. apply in_or_app. right. left. reflexivity.
  - exfalso. rewrite (@skipn_all2 N n t) in E by lia. rewrite app_nil_r in E.
    assert (Ax : absent the_merge (35 :: l ++ [10]) /\ absent the_merge (10 :: l ++ [10])). { assert (Z : absent the_merge (l ++ [10])) by (apply absent_snoc; [discriminate|cbn; intuition discriminate|exact A]). split; (apply absent_cons; [discriminate|cbn; intuition discriminate|exact Z]). }
    destruct Hh as (g1 & k & g2 & b & Eh & _ & _ & _ & [Ni Fi] & (more & Em) & Fb). set (x := 35 :: g1 ++ k ++ g2). assert (Eh' : h = x ++ name ++ b) by (rewrite Eh; unfold x; repeat first [rewrite <- app_assoc | progress cbn [app]]; reflexivity). rewrite Eh' in E.
    assert (Nn : ~ In 10 name) by (intros I; rewrite Forall_forall in Fi; specialize (Fi 10 I); discriminate Fi).
    destruct (Nat.le_gt_cases p (length a)) as [Lpa|Lpa].
    + assert (Et : skipn p t = skipn p a ++ 10 :: l ++ [10]) by (unfold t; rewrite skipn_app; replace (p - length a)%nat with 0%nat by lia; reflexivity). rewrite Et in E. change (35 :: skipn p a ++ 10 :: l ++ [10]) with ((35 :: skipn p a) ++ 10 :: l ++ [10]) in E.
      destruct (app_eq_app _ _ _ _ E) as (w & [[Y1 Y2]|[Y1 Y2]]).
      * destruct (app_eq_app _ _ _ _ Y2) as (w2 & H2). apply or_comm in H2. destruct H2 as [[Z1 Z2]|[Z1 Z2]].
        -- apply Nb. rewrite Z2 in Fb. apply Forall_app in Fb as [_ Fb]. inversion Fb; subst. apply Forall_app in H2 as [H2 _]. exact H2.
        -- destruct w2 as [|v w2]; [cbn [app] in Z2; subst b; apply Nb; inversion Fb; subst; apply Forall_app in H2 as [H2 _]; exact H2|]. cbn [app] in Z2. injection Z2 as <- _. apply Nn. rewrite Z1. apply in_or_app. right. left. reflexivity.
      * apply (proj2 Ax w (more ++ b)). rewrite Y2, Em, <- !app_assoc. reflexivity.
    + assert (Et : exists q, skipn p t = skipn q (l ++ [10])). { destruct (p - length a)%nat as [|q] eqn:Q; [lia|]. exists q. unfold t. rewrite skipn_app, skipn_all2 by lia. rewrite Q. reflexivity. } destruct Et as (q & Et). rewrite Et in E.
      assert (Ay : absent the_merge (35 :: skipn q (l ++ [10]))). { apply absent_cons; [discriminate|cbn; intuition discriminate|]. assert (Z : absent the_merge (l ++ [10])) by (apply absent_snoc; [discriminate|cbn; intuition discriminate|exact A]). rewrite <- (firstn_skipn q (l ++ [10])) in Z. apply (absent_mid _ (firstn q (l ++ [10])) _ []). rewrite app_nil_r. exact Z. }
      apply (Ay x (more ++ b)). rewrite E, Em, <- !app_assoc. reflexivity.
Qed.
Theorem merge_safe year already src : N.of_nat (length src) + 1 < INT32_MAX -> absent the_merge src \/ ends_well src -> exists m, merge files dir year (src ++ [0]) already = Some m.
Proof.
  intros Ln A. destruct (Nat.ltb_spec 260 (length dir)) as [Lt|Le].
  - unfold merge. rewrite rev_app_distr. cbn [rev app]. destruct (Nat.ltb_spec 260 (length dir)); [eexists; reflexivity|lia].
  - rewrite merge_starts by exact Le. assert (Len : N.of_nat (length (src ++ [0])) < INT32_MAX) by (rewrite app_length; cbn [length]; lia).
    assert (Nm : named [Def merge_year year]) by (constructor; [split; [discriminate|repeat constructor]|constructor]).
    destruct (merge_loop_passes files dir already src Len (S (length (src ++ [0]))) 0 [Def merge_year year] [] [] [] [] false) as [P _]; [lia|rewrite app_length; cbn; lia|exact Nm|apply (process_year year []); intros a b Y; destruct a; discriminate Y|left; reflexivity|].
    cbn [app] in P. apply P. destruct A as [A|A]; [apply defines_end_absent|apply defines_end_well]; exact A.
Qed.
(** ** Rounds *)
Lemma include_files d p defs already out out' q : merge_include_statement files dir d p defs already out = Some (Merge_ok (out', q)) -> exists name, ~ In name already /\ file_of files dir name <> None /\ m_files out' = add_name name (m_files out) /\ m_success out' = m_success out.
Proof.
  unfold merge_include_statement. destruct (next_token d p) as [[t p1]|]; [|discriminate]. destruct (if is_identifier t then _ else _) as [[]|]; cbn [negb]; try discriminate. destruct (next_token d p1) as [[t2 p2]|]; [|discriminate]. destruct (is_string t2); cbn [negb]; [|discriminate].
  set (name := slice d (t_str t2) (t_str t2 + t_len t2)). destruct (is_in name already) eqn:Ii; [discriminate|]. destruct (concat_paths dir name) as [|y ys] eqn:Ec; [discriminate|]. destruct (files (c_string (y :: ys))) as [data|] eqn:Ef; [|discriminate].
  destruct (erase_undef_statements data defs) as [r1|]; [|discriminate]. destruct (process_definitions r1 defs) as [r2|]; [|discriminate]. destruct (indent_range r2 _) as [r3|]; [|discriminate]. intros H. injection H as <- <-. exists name. split; [intros I; apply is_in_spec in I; congruence|]. split; [unfold file_of; rewrite Ec, Ef; discriminate|]. split; reflexivity.
Qed.
Lemma add_name_nodup name ns : NoDup ns -> NoDup (add_name name ns).
Proof. intros H. unfold add_name. destruct (is_in name ns) eqn:E; [exact H|]. assert (~ In name ns) by (intros I; apply is_in_spec in I; congruence). clear E. induction H as [|x l I H IH]; [repeat constructor; intros []|]. cbn [app]. constructor; [intros Y; apply in_app_or in Y as [Y|[Y|[]]]; [exact (I Y)|subst; apply H0; left; reflexivity]|apply IH; intros Y; apply H0; right; exact Y]. Qed.
Definition fresh (already ns : list text) : Prop := NoDup ns /\ forall n, In n ns -> ~ In n already /\ file_of files dir n <> None.
Lemma loop_files : forall fuel d already p defs out m, merge_loop files dir fuel d already p defs out = Some m -> m_success out = false -> fresh already (m_files out) -> (m_changed out = true -> m_files out <> []) -> m_success m = true ->
  exists ns, m_files m = ns ++ already /\ fresh already ns /\ (m_changed m = true -> ns <> []).
Proof.
  induction fuel as [|fuel IH]; intros d already p defs out m E Su Fr Ch Sm; [discriminate E|]. cbn [merge_loop] in E. destruct (next_token d p) as [[t q]|]; [|discriminate E].
  destruct (match t_type t with tok_eof => _ | _ => _ end) as [[prev out1]|] eqn:E1 in E; [|discriminate E].
  assert (O1 : m_success out1 = m_success out /\ m_files out1 = m_files out /\ m_changed out1 = m_changed out).
  { clear - E1. assert (K : (if (p =? t_str t)%nat then Some (p, out) else cur <- process_definitions (slice d p (t_str t)) defs ;; Some (t_str t, set_data out (m_data out ++ cur))) = Some (prev, out1) -> m_success out1 = m_success out /\ m_files out1 = m_files out /\ m_changed out1 = m_changed out).
    { destruct (_ =? _)%nat; [intros H; injection H as _ <-; auto|]. destruct (process_definitions _ defs); [|discriminate]. intros H. injection H as _ <-. repeat split; reflexivity. }
    destruct (t_type t); try (apply K; exact E1). injection E1 as _ <-. auto. }
  destruct O1 as (S1 & F1 & C1). rewrite <- S1 in Su. rewrite <- F1, <- C1 in *. clear S1 E1.
  assert (Copy : (cur <- process_definitions (slice d prev q) defs ;; merge_loop files dir fuel d already q defs (set_data out1 (m_data out1 ++ cur))) = Some m -> exists ns, m_files m = ns ++ already /\ fresh already ns /\ (m_changed m = true -> ns <> [])).
  { destruct (process_definitions _ defs); [|discriminate]. intros H. exact (IH _ _ _ _ _ _ H Su Fr Ch Sm). }
  destruct (t_type t).
  - destruct (merge_include_statement files dir d q defs already out1) as [[[out2 q2]| |]|] eqn:Ei; [| | |discriminate E].
    + destruct (include_files _ _ _ _ _ _ _ Ei) as (name & Na & Fn & Ef & Es). apply (IH _ _ _ _ _ _ E); cbn [m_success m_files m_changed]; [congruence| | |exact Sm].
      * rewrite Ef. destruct Fr as [Nd Fr]. split; [apply add_name_nodup; exact Nd|]. intros n I. apply add_name_in in I as [->|I]; [split; assumption|exact (Fr n I)].
      * intros _ Y. rewrite Ef in Y. assert (In name []) by (rewrite <- Y; apply add_name_in; left; reflexivity). assumption.
    + destruct (parse_define_statement d q) as [[[def q2]| |]|]; [| | |discriminate E].
      * exact (IH _ _ _ _ _ _ E Su Fr Ch Sm).
      * exact (Copy E).
      * injection E as <-. congruence.
    + injection E as <-. congruence.
  - exact (Copy E).
  - exact (Copy E).
  - destruct (process_definitions _ defs); [|discriminate E]. injection E as <-. cbn [m_files m_changed]. exists (m_files out1). auto.
Qed.
Theorem merge_files year d already m : merge files dir year d already = Some m -> m_success m = true -> exists ns, m_files m = ns ++ already /\ fresh already ns /\ (m_changed m = true -> ns <> []).
Proof.
  unfold merge. destruct (rev d) as [|[|]]; try discriminate. destruct (260 <? length dir)%nat; [intros H; injection H as <-; discriminate|]. intros H Su. apply (loop_files _ _ _ _ _ _ _ H); [reflexivity|split; [constructor|intros n []]|discriminate|exact Su].
Qed.
End Run.
