(** The program that merges headers: what it is for, and where it falls short. *)
From Coq Require Import Arith NArith Ascii String List Bool Lia.
From Verif Require Import Base MgModel MgSpec MgWord MgText MgLex MgMerge MgWalk MgRun MgZero.
Import ListNotations.
Local Open Scope N_scope.

(** Texts for the examples; a ~ stands for a line break, a backtick for a quote. *)
Definition oct (x : string) : list N := map (fun c => let n := N_of_ascii c in if n =? 126 then 10 else if n =? 96 then 34 else n) (list_ascii_of_string x).
Definition shelf (name : list N) : option (list N) :=
  if text_eqb name (oct "d/a.h") then Some (oct "int a;~int b;~#include `c.h`~") else if text_eqb name (oct "d/c.h") then Some (oct "// c~int c;~") else if text_eqb name (oct "d/b") then Some (oct "int z;") else None.
Ltac word_list := repeat constructor.
Definition blankb (c : N) : bool := (c =? 32) || ((9 <=? c) && (c <=? 13)).
Lemma blanks (b : list N) : forallb blankb b = true -> Forall blank b.
Proof.
  intros H. rewrite forallb_forall in H. apply Forall_forall. intros c I. specialize (H c I). unfold blankb in H. apply orb_true_iff in H as [H|H]; [left; apply N.eqb_eq; exact H|right].
  apply andb_true_iff in H as [H1 H2]. apply N.leb_le in H1. apply N.leb_le in H2. split; assumption.
Qed.
Lemma chars (a t : list N) : forallb (fun c => negb (existsb (N.eqb c) [0; 34; 35; 47])) a = true -> ordinary t -> ordinary (a ++ t).
Proof.
  intros H O. induction a as [|c a IH]; [exact O|]. cbn [forallb] in H. apply andb_true_iff in H as [H1 H2]. cbn [app]. apply O_char; [|exact (IH H2)].
  intros I. apply negb_true_iff in H1. assert (existsb (N.eqb c) [0; 34; 35; 47] = true) as Y; [|congruence]. apply existsb_exists. exists c. split; [exact I|apply N.eqb_refl].
Qed.
Lemma no_such (w t : list N) : search w t = None -> absent w t. Proof. intros H a b ->. pose proof (search_none w (a ++ w ++ b) H a (w ++ b) eq_refl) as F. assert (starts_with w (w ++ b) = true) as T by (apply starts_with_spec; exists b; reflexivity). congruence. Qed.
Lemma a_line (l : list N) : forallb (fun c => negb (c =? 10)) l = true -> is_line l.
Proof. intros H I. rewrite forallb_forall in H. specialize (H 10 I). discriminate H. Qed.

(** ** C189: definitions are applied to whole names only. *)
Theorem C189_whole_words_partial : forall name value t, ident name -> no_underscore_at name t ->
  exists t', process_definitions t [Def name value] = Some t' /\ words_replaced name value t t'.
Proof. intros name value t I U. destruct (replace_words name value t I U) as (t' & E & W). exists t'. split; [|exact W]. rewrite process_cons, E. reflexivity. Qed.
(** An underscore is taken for the end of a name: MERGE_YEAR_X, which is another name, is changed, too. *)
Theorem C189_whole_words_refuted : exists name value t t', ident name /\ process_definitions t [Def name value] = Some t' /\ t <> t' /\
  Forall (fun c => word c = true) t /\ t <> name.
Proof.
  exists (oct "MERGE_YEAR"), (oct "2026"), (oct "MERGE_YEAR_X"), (oct "2026_X"). split; [split; [discriminate|word_list]|]. split; [vm_compute; reflexivity|]. split; [discriminate|]. split; [word_list|discriminate].
Qed.
Example C189_example : process_definitions (oct "(c) MERGE_YEAR, xMERGE_YEAR MERGE_YEARS") [Def (oct "MERGE_YEAR") (oct "2026")] = Some (oct "(c) 2026, xMERGE_YEAR MERGE_YEARS").
Proof. vm_compute. reflexivity. Qed.
Example C189_hypothesis : ident (oct "MERGE_YEAR") /\ no_underscore_at (oct "MERGE_YEAR") (oct "a MERGE_YEAR").
Proof.
  split; [split; [discriminate|word_list]|]. intros a b E.
  assert (La : length a = 2%nat). { destruct a as [|x1 [|x2 [|x3 a]]]; [discriminate E|discriminate E|reflexivity|]. apply (f_equal (@length N)) in E. cbn [app length] in E. rewrite app_length in E. cbn in E. lia. }
  destruct a as [|x1 [|x2 [|x3 a]]]; try discriminate La. cbn in E. injection E as <- <- E. subst b. split; [intros a' Y; destruct a' as [|z [|z2 a']]; try discriminate Y; destruct a'; discriminate Y|discriminate].
Qed.

(** ** C190: the #undef of a definition goes away, and nothing else. *)
Lemma blanks_end a : Forall blank a -> ends_alnum a = false.
Proof.
  intros F. unfold ends_alnum. destruct (rev a) as [|c r] eqn:E; [reflexivity|]. assert (I : In c a) by (apply in_rev; rewrite E; left; reflexivity). rewrite Forall_forall in F. specialize (F c I). destruct (isalnum c) eqn:W; [|reflexivity]. exfalso. apply (word_no_blank c); [|exact F]. rewrite <- word_spec, W. reflexivity.
Qed.
(** A line with the directive: blanks, the directive, the end of the name. *)
Theorem C190_undef_removed_partial : forall name value pre a b post, (pre = [] \/ exists pre', pre = pre' ++ [10]) -> Forall blank a -> is_line a -> is_line b -> begins_word b = false ->
  let w := the_undef ++ name in
  (forall a' b', pre ++ a ++ w ++ b ++ 10 :: post = a' ++ w ++ b' -> a' = pre ++ a) -> ~ In 10 name ->
  erase_undef_statements (pre ++ a ++ w ++ b ++ 10 :: post) [Def name value] = Some (removelast pre ++ post).
Proof.
  intros name value pre a b post P Fa La Lb Bb w U Nw.
  assert (Bb' : begins_alnum b = false) by (destruct b as [|c b]; [reflexivity|]; cbn in *; destruct (isalnum c) eqn:W; [|reflexivity]; rewrite <- word_spec, W in Bb; discriminate Bb).
  assert (Nw' : ~ In 10 (the_undef ++ name)) by (intros I; apply in_app_or in I as [I|I]; [vm_compute in I; intuition discriminate|exact (Nw I)]).
  pose proof (erase_single (Def name value) pre a b post P La Lb (blanks_end a Fa) Bb' U Nw') as E. cbn [d_name] in E. rewrite erase_cons. unfold w. change the_undef with word_undef. rewrite E. reflexivity.
Qed.
Theorem C190_absent_kept : forall name value t, absent (the_undef ++ name) t -> erase_undef_statements t [Def name value] = Some t.
Proof. intros name value t A. rewrite erase_cons, erase_absent by exact A. reflexivity. Qed.
(** The line break before the directive goes away, too: the lines around it become one, and what comes behind a line that ends in a
    comment becomes a comment. *)
Theorem C190_undef_removed_refuted : exists pre post, erase_undef_statements (pre ++ [10] ++ the_undef ++ oct "MERGE_X" ++ [10] ++ post) [Def (oct "MERGE_X") []] = Some (pre ++ post) /\ pre = oct "// a" /\ post = oct "int b;".
Proof. exists (oct "// a"), (oct "int b;"). split; [vm_compute; reflexivity|split; reflexivity]. Qed.
(** Two of them behind each other take the line before them with them. *)
Theorem C190_two_undefs_refuted : erase_undef_statements (oct "int a;~#undef MERGE_X~#undef MERGE_Y~int z;") [Def (oct "MERGE_X") []; Def (oct "MERGE_Y") []] = Some (oct "int z;").
Proof. vm_compute. reflexivity. Qed.
Example C190_example : erase_undef_statements (oct "a;~~#undef MERGE_X ~b;~") [Def (oct "MERGE_X") []] = Some (oct "a;~b;~").
Proof. vm_compute. reflexivity. Qed.
Example C190_hypothesis : let t := oct "a;~  #undef MERGE_X ~b;~" in t = oct "a;~" ++ oct "  " ++ (the_undef ++ oct "MERGE_X") ++ oct " " ++ 10 :: oct "b;~" /\
  erase_undef_statements t [Def (oct "MERGE_X") []] = Some (removelast (oct "a;~") ++ oct "b;~").
Proof. split; vm_compute; reflexivity. Qed.

(** ** C191: what is included is indented like the directive. *)
Theorem C191_indented_like_directive_partial : forall out pre l ls, indentation_text pre -> is_line l -> Forall is_line ls ->
  indent_range (joined (l :: ls)) (get_indent (out ++ 10 :: pre)) = Some (joined (l :: map (indented pre) ls)).
Proof. intros out pre l ls P L F. rewrite indent_moves by assumption. rewrite (indent_of_line out pre P). reflexivity. Qed.
(** Whatever stands before the directive: all lines but the first are moved by the same tabs or fours of spaces, empty ones are not. *)
Theorem C191_lines_moved : forall out l ls, is_line l -> Forall is_line ls ->
  exists pre, indentation_text pre /\ indent_range (joined (l :: ls)) (get_indent out) = Some (joined (l :: map (indented pre) ls)).
Proof. intros out l ls L F. exists (indent_text (get_indent out)). split; [apply indent_text_ok|apply indent_moves; assumption]. Qed.
(** Two spaces do not count, nor does the first character of the text. *)
Theorem C191_indented_like_directive_refuted : indent_range (oct "int a;~int b;") (get_indent (oct "struct {~  ")) = Some (oct "int a;~int b;") /\
  indent_range (oct "int a;~int b;") (get_indent [9]) = Some (oct "int a;~int b;").
Proof. split; vm_compute; reflexivity. Qed.
Example C191_example : indent_range (oct "int a;~~int b;~") (get_indent (oct "struct {~    ")) = Some (oct "int a;~~    int b;~").
Proof. vm_compute. reflexivity. Qed.
Example C191_hypothesis : indentation_text (oct "    ") /\ oct "int a;~~int b;~" = joined [oct "int a;"; []; oct "int b;"; []].
Proof. split; [exists 1%nat; right; reflexivity|reflexivity]. Qed.

(** ** C192: a pass changes nothing but include directives. *)
Theorem C192_only_includes : forall files dir year already src m, N.of_nat (length src) + 1 < INT32_MAX -> absent the_merge src -> (forall name data, file_of files dir name = Some data -> absent merge_year data) ->
  merge files dir year (src ++ [0]) already = Some m -> m_success m = true ->
  exists names, includes_merged (file_of files dir) (fun n => ~ In n already) src (m_data m) names /\ (m_changed m = true <-> names <> []) /\ (forall n, In n (m_files m) <-> In n names \/ In n already).
Proof.
  intros files dir year already src m Ln A Fa E Su. destruct (merge_plain files dir year already src m Ln A Fa E Su) as (names & X & C & F). exists names. split; [exact X|]. split; [|exact F]. rewrite C. destruct names; cbn; split; congruence.
Qed.
(** With definitions: the text between the directives is as the definitions before it make it. *)
Theorem C192_with_definitions : forall files dir year already src m, N.of_nat (length src) + 1 < INT32_MAX -> merge files dir year (src ++ [0]) already = Some m -> m_success m = true ->
  exists names, merged_text (file_of files dir) (fun n => ~ In n already) [(the_merge ++ oct "YEAR", year)] src (m_data m) names /\ (m_changed m = true <-> names <> []) /\ (forall n, In n (m_files m) <-> In n names \/ In n already).
Proof.
  intros files dir year already src m Ln E Su. destruct (merge_defs files dir year already src m Ln E Su) as (names & X & C & F). exists names. split; [exact X|]. split; [|exact F]. rewrite C. destruct names; cbn; split; congruence.
Qed.
Example C192_definitions_example : option_map m_data (merge shelf (oct "d") (oct "2026") (oct "MERGE_YEAR~#define MERGE_Z foo bar~MERGE_Z(MERGE_ZZ)~#include `b`~MERGE_Z" ++ [0]) []) = Some (oct "2026~foo bar(MERGE_ZZ)~int z;~MERGE_Z").
Proof. vm_compute. reflexivity. Qed.
Example C192_example : option_map m_data (merge shelf (oct "d") (oct "2026") (oct "x;~#include `a.h`~#include `no.h`~y;" ++ [0]) []) = Some (oct "x;~int a;~int b;~#include `c.h`~~#include `no.h`~y;").
Proof. vm_compute. reflexivity. Qed.
Example C192_hypotheses : absent the_merge (oct "x;~#include `a.h`~#include `no.h`~y;") /\ (forall name data, file_of shelf (oct "d") name = Some data -> absent merge_year data).
Proof.
  split; [apply no_such; vm_compute; reflexivity|]. intros name data. unfold file_of, shelf. destruct (text_eqb _ (oct "d/a.h")); [intros H; injection H as <-; apply no_such; vm_compute; reflexivity|].
  destruct (text_eqb _ (oct "d/c.h")); [intros H; injection H as <-; apply no_such; vm_compute; reflexivity|]. destruct (text_eqb _ (oct "d/b")); [intros H; injection H as <-; apply no_such; vm_compute; reflexivity|discriminate].
Qed.

(** ** C193: every text can be merged. *)
Theorem C193_total_partial : forall files dir year already src, N.of_nat (length src) + 1 < INT32_MAX -> absent the_merge src \/ ends_well src -> exists m, merge files dir year (src ++ [0]) already = Some m.
Proof. intros. apply merge_safe; assumption. Qed.
(** A definition in a last line without line break makes the program read behind the text. *)
Theorem C193_total_refuted : merge shelf (oct "d") (oct "2026") (oct "x;~#define MERGE_X 1" ++ [0]) [] = None /\ merge shelf (oct "d") (oct "2026") (oct "#define MERGE_X~" ++ [0]) [] = None.
Proof. split; vm_compute; reflexivity. Qed.
Example C193_example : ends_well (oct "#define MERGE_X 1~int x = MERGE_X;~#endif~") /\ option_map m_data (merge shelf (oct "d") (oct "2026") (oct "#define MERGE_X 1~int x = MERGE_X;~#endif~" ++ [0]) []) = Some (oct "int x = 1;~#endif~").
Proof.
  split; [|vm_compute; reflexivity]. exists (oct "#define MERGE_X 1~int x = MERGE_X;"), (oct "#endif"). split; [reflexivity|]. split; [apply a_line; reflexivity|]. split; [|apply no_such; vm_compute; reflexivity].
  intros F. apply Forall_inv in F. destruct F as [F|[_ F]]; [discriminate F|]. apply N.leb_le in F. discriminate F.
Qed.

(** ** C194: merging again and again comes to an end. *)
Theorem C194_rounds_end : forall files dir L year recursive src, (forall name data, file_of files dir name = Some data -> ~ In 0 data) -> ~ In 0 year -> ~ In 0 src ->
  (forall name, ~ In 0 name -> file_of files dir name <> None -> In name L) -> run files dir (S (length L)) year recursive src <> Some None.
Proof.
  intros files dir L year recursive src Zf Zy Zs Fin. unfold run. pose proof (rounds_end files dir Zf L year recursive Zy Fin (S (length L)) src [] Zs (Forall_nil _) (NoDup_nil _) (incl_nil_l _)) as R.
  destruct (rounds _ _ _ _ _ _ _) as [[m|]|]; [discriminate| |discriminate]. exfalso. apply R; [cbn [length]; rewrite Nat.add_0_r; apply Nat.lt_succ_diag_r|reflexivity].
Qed.
(** No name is merged in two rounds: a round takes only names that none before has taken, and a round that changes something takes one. *)
Theorem C194_no_name_twice : forall files dir year d already m, merge files dir year d already = Some m -> m_success m = true ->
  exists ns, m_files m = ns ++ already /\ NoDup ns /\ (forall n, In n ns -> ~ In n already /\ file_of files dir n <> None) /\ (m_changed m = true -> ns <> []).
Proof. intros files dir year d already m E Su. destruct (merge_files files dir year d already m E Su) as (ns & F & [Nd Fr] & C). exists ns. auto. Qed.
Example C194_example : run shelf (oct "d") 4 (oct "2026") true (oct "x;~#include `a.h`~y;") = Some (Some (Some (oct "x;~int a;~int b;~// c~int c;~~~y;"))).
Proof. vm_compute. reflexivity. Qed.
Lemma path_inj n m : concat_paths (oct "d") n = concat_paths (oct "d") m -> n = m.
Proof. unfold concat_paths. change (rev (oct "d")) with [100]. cbv beta iota. change ((100 =? 47) || (100 =? 92)) with false. cbv beta iota. intros E. apply app_inv_head in E. congruence. Qed.
Lemma c_string_full : forall t, ~ In 0 t -> c_string t = t.
Proof. induction t as [|c t IH]; intros N; [reflexivity|]. cbn [c_string]. destruct (N.eqb_spec c 0) as [->|_]; [exfalso; apply N; left; reflexivity|]. rewrite IH; [reflexivity|]. intros I. apply N. right. exact I. Qed.
Example C194_hypothesis : (forall name data, file_of shelf (oct "d") name = Some data -> ~ In 0 data) /\ forall name, ~ In 0 name -> file_of shelf (oct "d") name <> None -> In name [oct "a.h"; oct "c.h"; oct "b"].
Proof.
  split.
  - intros name data. unfold file_of, shelf. assert (K : forall x, forallb (fun c => negb (c =? 0)) x = true -> ~ In 0 x) by (intros x H I; rewrite forallb_forall in H; specialize (H 0 I); discriminate H).
    destruct (text_eqb _ (oct "d/a.h")); [intros H; injection H as <-; apply K; reflexivity|]. destruct (text_eqb _ (oct "d/c.h")); [intros H; injection H as <-; apply K; reflexivity|]. destruct (text_eqb _ (oct "d/b")); [intros H; injection H as <-; apply K; reflexivity|discriminate].
  - intros name Z. unfold file_of. rewrite c_string_full. 2: { unfold concat_paths. change (rev (oct "d")) with [100]. cbv beta iota. change ((100 =? 47) || (100 =? 92)) with false. cbv beta iota. intros I. apply in_app_or in I as [I|[I|I]]; [destruct I as [I|[]]; discriminate I|discriminate I|exact (Z I)]. }
    unfold shelf. destruct (text_eqb (concat_paths (oct "d") name) (oct "d/a.h")) eqn:E1; [apply text_eqb_eq in E1; change (oct "d/a.h") with (concat_paths (oct "d") (oct "a.h")) in E1; apply path_inj in E1; subst; left; reflexivity|].
    destruct (text_eqb (concat_paths (oct "d") name) (oct "d/c.h")) eqn:E2; [apply text_eqb_eq in E2; change (oct "d/c.h") with (concat_paths (oct "d") (oct "c.h")) in E2; apply path_inj in E2; subst; right; left; reflexivity|].
    destruct (text_eqb (concat_paths (oct "d") name) (oct "d/b")) eqn:E3; [apply text_eqb_eq in E3; change (oct "d/b") with (concat_paths (oct "d") (oct "b")) in E3; apply path_inj in E3; subst; right; right; left; reflexivity|]. intros H. exfalso. apply H. reflexivity.
Qed.

(** ** C195: each file that is included is merged. *)
Theorem C195_includes_expanded_partial : forall files dir year already src res names, N.of_nat (length src) + 1 < INT32_MAX -> (length dir <= 260)%nat ->
  expands (file_of files dir) (fun name => ~ In name already /\ concat_paths dir name <> []) src res names -> absent merge_year src ->
  (forall name data, In name names -> file_of files dir name = Some data -> absent merge_year data) ->
  exists m, merge files dir year (src ++ [0]) already = Some m /\ m_data m = res /\ m_success m = true /\ (m_changed m = true <-> names <> []) /\ forall n, In n (m_files m) <-> In n names \/ In n already.
Proof.
  intros files dir year already src res names Ln Ld X Ab Fa. destruct (merge_expands files dir year already src res names Ln Ld X Ab Fa) as (m & E & D & Su & C & F). exists m. split; [exact E|]. split; [exact D|]. split; [exact Su|]. split; [|exact F]. rewrite C. destruct names; cbn; split; congruence.
Qed.
(** A quote in a character constant is taken for the beginning of a string, and hides what comes behind it. *)
Theorem C195_includes_expanded_refuted : option_map m_data (merge shelf (oct "d") (oct "2026") (oct "char q = '`';~#include `b`~" ++ [0]) []) = Some (oct "char q = '`';~#include `b`~").
Proof. vm_compute. reflexivity. Qed.
(** A definition without a value takes the next line, here the directive, for its value. *)
Theorem C195_empty_definition_refuted : option_map m_data (merge shelf (oct "d") (oct "2026") (oct "#define MERGE_X~#include `b`~end" ++ [0]) []) = Some (oct "end").
Proof. vm_compute. reflexivity. Qed.
(** Beginnings of the word include are taken for it. *)
Theorem C195_other_words_refuted : option_map m_data (merge shelf (oct "d") (oct "2026") (oct "#inc `b`~" ++ [0]) []) = Some (oct "int z;~").
Proof. vm_compute. reflexivity. Qed.
Example C195_hypothesis : exists a b, expands (file_of shelf (oct "d")) (fun name => ~ In name [] /\ concat_paths (oct "d") name <> [])
  (oct "/* `x` */ #pragma once~#include <x>~#define Y 1 // #~struct {~    # include  `a.h`~char *s = `#\`` / 2;~#include `c.h`~#endif~") (oct "/* `x` */ #pragma once~#include <x>~#define Y 1 // #~struct {~    int a;~    int b;~    #include `c.h`~~char *s = `#\`` / 2;~// c~int c;~~#endif~") [a; b].
Proof.
  exists (oct "a.h"), (oct "c.h").
  apply (X_include _ _ (oct "/* `x` */ #pragma once~#include <x>~#define Y 1 // #~struct {") (oct "    ") (oct " ") (oct "  ") (oct "a.h") (oct "int a;") [oct "int b;"; oct "#include `c.h`"; []] (oct "~char *s = `#\`` / 2;~#include `c.h`~#endif~") (oct "~char *s = `#\`` / 2;~// c~int c;~~#endif~")).
  - change (oct "/* `x` */ #pragma once~#include <x>~#define Y 1 // #~struct {" ++ [10] ++ oct "    ") with (47 :: 42 :: oct " `x` " ++ 42 :: 47 :: oct " " ++ 35 :: oct "pragma once~" ++ 35 :: oct "include <x>~" ++ 35 :: oct "define Y 1 " ++ 47 :: 47 :: oct " #" ++ 10 :: oct "struct {~    ").
    assert (Q3 : ordinary (oct "define Y 1 " ++ 47 :: 47 :: oct " #" ++ 10 :: oct "struct {~    ")). { apply (chars (oct "define Y 1 ")); [reflexivity|]. apply O_line; [intros I; vm_compute in I; intuition discriminate|]. rewrite <- (app_nil_r (oct "struct {~    ")). apply chars; [reflexivity|constructor]. }
    assert (Q2 : ordinary (oct "include <x>~" ++ 35 :: oct "define Y 1 " ++ 47 :: 47 :: oct " #" ++ 10 :: oct "struct {~    ")). { apply chars; [reflexivity|]. apply O_hash; [|exact Q3]. apply (D_macro [] (oct " ") (oct "Y") (oct " 1 " ++ 47 :: 47 :: oct " #" ++ 10 :: oct "struct {~    ")); [constructor|discriminate|apply blanks; reflexivity|split; [discriminate|word_list]|reflexivity|intros more Y; discriminate Y]. }
    assert (Q1 : ordinary (oct "pragma once~" ++ 35 :: oct "include <x>~" ++ 35 :: oct "define Y 1 " ++ 47 :: 47 :: oct " #" ++ 10 :: oct "struct {~    ")). { apply chars; [reflexivity|]. apply O_hash; [|exact Q2]. apply (D_system [] (oct " ")); [constructor|apply blanks; reflexivity]. }
    apply O_block; [apply no_such; vm_compute; reflexivity|]. apply chars; [reflexivity|]. apply O_hash; [|exact Q1]. apply (D_other [] (oct "pragma")); [constructor|split; [discriminate|word_list]|reflexivity|intros [_ [more Y]]; discriminate Y|intros [_ [more Y]]; discriminate Y].
  - exists 1%nat. right. reflexivity.
  - apply blanks. reflexivity.
  - apply blanks. reflexivity.
  - split; [intros a b E; exfalso; assert (In 34 (oct "a.h")) as I by (rewrite E; apply in_or_app; right; left; reflexivity); vm_compute in I; intuition discriminate|]. intros b E. assert (In 92 (oct "a.h")) as I by (rewrite E; apply in_or_app; right; left; reflexivity). vm_compute in I. intuition discriminate.
  - split; [intros []|discriminate].
  - vm_compute. reflexivity.
  - apply a_line. reflexivity.
  - repeat (constructor; [apply a_line; reflexivity|]). constructor.
  - apply (X_include _ _ (oct "~char *s = `#\`` / 2;") [] [] (oct " ") (oct "c.h") (oct "// c") [oct "int c;"; []] (oct "~#endif~") (oct "~#endif~")).
    + change (oct "~char *s = `#\`` / 2;" ++ [10] ++ []) with (oct "~char *s = " ++ 34 :: [35; 92; 34] ++ 34 :: oct " " ++ 47 :: oct " 2;~"). apply chars; [reflexivity|]. apply O_string.
      * split; [|intros b E; assert (last [35; 92; 34] 0 = last (b ++ [92]) 0) as Y by (rewrite E; reflexivity); rewrite last_last in Y; discriminate Y].
        intros a b E. destruct a as [|x1 [|x2 [|x3 a]]]; [discriminate E|discriminate E| |]; [injection E as <- <- _; exists [35]; reflexivity|]. injection E as _ _ _ E. destruct a; discriminate E.
      * apply chars; [reflexivity|]. apply O_slash; [discriminate|discriminate|]. rewrite <- (app_nil_r (oct " 2;~")). apply chars; [reflexivity|constructor].
    + exists 0%nat. left. reflexivity.
    + constructor.
    + apply blanks. reflexivity.
    + split; [intros a b E; exfalso; assert (In 34 (oct "c.h")) as I by (rewrite E; apply in_or_app; right; left; reflexivity); vm_compute in I; intuition discriminate|]. intros b E. assert (In 92 (oct "c.h")) as I by (rewrite E; apply in_or_app; right; left; reflexivity). vm_compute in I. intuition discriminate.
    + split; [intros []|discriminate].
    + vm_compute. reflexivity.
    + apply a_line. reflexivity.
    + repeat (constructor; [apply a_line; reflexivity|]). constructor.
    + apply X_end. change (oct "~#endif~") with (oct "~" ++ 35 :: oct "endif~"). apply chars; [reflexivity|]. apply O_hash; [|rewrite <- (app_nil_r (oct "endif~")); apply chars; [reflexivity|constructor]].
      apply (D_other [] (oct "endif") (oct "~")); [constructor|split; [discriminate|word_list]|reflexivity|intros [_ [more Y]]; discriminate Y|intros [_ [more Y]]; discriminate Y].
Qed.

Print Assumptions C189_whole_words_partial.
Print Assumptions C189_whole_words_refuted.
Print Assumptions C190_undef_removed_partial.
Print Assumptions C190_absent_kept.
Print Assumptions C190_undef_removed_refuted.
Print Assumptions C190_two_undefs_refuted.
Print Assumptions C191_indented_like_directive_partial.
Print Assumptions C191_lines_moved.
Print Assumptions C191_indented_like_directive_refuted.
Print Assumptions C192_only_includes.
Print Assumptions C192_with_definitions.
Print Assumptions C193_total_partial.
Print Assumptions C193_total_refuted.
Print Assumptions C194_rounds_end.
Print Assumptions C194_no_name_twice.
Print Assumptions C195_includes_expanded_partial.
Print Assumptions C195_includes_expanded_refuted.
Print Assumptions C195_empty_definition_refuted.
Print Assumptions C195_other_words_refuted.
