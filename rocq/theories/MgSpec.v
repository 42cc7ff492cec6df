(** What merging is to do, without positions, searches and loops. *)
From Coq Require Import Arith NArith List Bool.
Import ListNotations.
Local Open Scope N_scope.

(** The characters of identifiers. *)
Definition word (c : N) : bool := ((48 <=? c) && (c <=? 57)) || ((65 <=? c) && (c <=? 90)) || ((97 <=? c) && (c <=? 122)) || (c =? 95).
Definition begins_word (t : list N) : bool := match t with [] => false | c :: _ => word c end.
(** [t] with every word that is [name] replaced by [value]. *)
Inductive words_replaced (name value : list N) : list N -> list N -> Prop :=
| W_end : words_replaced name value [] []
| W_other c t t' : word c = false -> words_replaced name value t t' -> words_replaced name value (c :: t) (c :: t')
| W_name t t' : begins_word t = false -> words_replaced name value t t' -> words_replaced name value (name ++ t) (value ++ t')
| W_word w t t' : w <> [] -> Forall (fun c => word c = true) w -> w <> name -> begins_word t = false -> words_replaced name value t t' ->
    words_replaced name value (w ++ t) (w ++ t').
(** An identifier. *)
Definition ident (name : list N) : Prop := name <> [] /\ Forall (fun c => word c = true) name.
(** No occurrence of [name] touches an underscore. *)
Definition no_underscore_at (name t : list N) : Prop :=
  forall a b, t = a ++ name ++ b -> (forall a', a <> a' ++ [95]) /\ (forall b', b <> 95 :: b').
Definition absent (w t : list N) : Prop := forall a b, t <> a ++ w ++ b.

(** Lines, without their breaks. *)
Fixpoint joined (ls : list (list N)) : list N := match ls with [] => [] | [l] => l | l :: ls => l ++ 10 :: joined ls end.
Definition is_line (l : list N) : Prop := ~ In 10 l.
(** A line with [pre] before its first character that is no carriage return. *)
Fixpoint indented (pre l : list N) : list N :=
  match l with [] => [] | c :: t => if c =? 13 then c :: indented pre t else pre ++ l end.

(** What may stand before a token: blanks, then comments and stray slashes. *)
Definition blank (c : N) : Prop := c = 32 \/ 9 <= c <= 13.
Inductive comments : list N -> Prop :=
| K_none : comments []
| K_block body t : comments t -> comments (47 :: 42 :: body ++ 42 :: 47 :: t)
| K_line body t : ~ In 10 body -> comments t -> comments (47 :: 47 :: body ++ 10 :: t)
| K_slash t : comments t -> comments (47 :: t).
Definition gap (g : list N) : Prop := exists b k, g = b ++ k /\ Forall blank b /\ comments k.
(** What may stand between two quotes: a quote only behind a backslash. *)
Definition quoted (body : list N) : Prop := forall a b, body = a ++ 34 :: b -> exists a', a = a' ++ [92].

(** ** Directives as they are recognized. *)
Definition prefix_of (k : list N) (w : list N) : Prop := k <> [] /\ exists more, w = k ++ more.
Definition the_include : list N := [105; 110; 99; 108; 117; 100; 101].
Definition the_define : list N := [100; 101; 102; 105; 110; 101].
Definition the_merge : list N := [77; 69; 82; 71; 69; 95].
Definition the_undef : list N := [35; 117; 110; 100; 101; 102; 32].
(** # include, name in quotes; the whole text of it. *)
Definition include_directive (src name : list N) : Prop :=
  exists g1 k g2, src = 35 :: g1 ++ k ++ g2 ++ 34 :: name ++ [34] /\ gap g1 /\ prefix_of k the_include /\ gap g2 /\ quoted name.
(** # define, a name that begins with MERGE_, blanks (also line breaks), and the rest of that line. *)
Definition define_head (src name : list N) : Prop :=
  exists g1 k g2 b, src = 35 :: g1 ++ k ++ g2 ++ name ++ b /\ gap g1 /\ prefix_of k the_define /\ gap g2 /\ ident name /\ (exists more, name = the_merge ++ more) /\ Forall blank b.
Definition define_directive (src name value : list N) : Prop :=
  exists h e, src = h ++ value ++ e /\ define_head h name /\ is_line value /\ (e = [10] \/ e = [13; 10]).

(** ** Text that is no directive of the program. *)
(** What may follow a # then: another keyword, a system header, another macro. *)
Inductive other_directive : list N -> Prop :=
| D_other b w t : Forall blank b -> ident w -> begins_word t = false -> ~ prefix_of w the_include -> ~ prefix_of w the_define -> other_directive (b ++ w ++ t)
| D_system b1 b2 t : Forall blank b1 -> Forall blank b2 -> other_directive (b1 ++ the_include ++ b2 ++ 60 :: t)
| D_macro b1 b2 w t : Forall blank b1 -> b2 <> [] -> Forall blank b2 -> ident w -> begins_word t = false -> (forall more, w <> the_merge ++ more) -> other_directive (b1 ++ the_define ++ b2 ++ w ++ t).
(** A string: each quote in it behind a backslash, and no backslash at its end. *)
Definition string_body (body : list N) : Prop := quoted body /\ forall b, body <> b ++ [92].
(** Complete comments, complete strings, directives that do not matter, and anything else without quotes, slashes and #. *)
Inductive ordinary : list N -> Prop :=
| O_end : ordinary []
| O_char c t : ~ In c [0; 34; 35; 47] -> ordinary t -> ordinary (c :: t)
| O_block body t : absent [42; 47] (body ++ [42]) -> ordinary t -> ordinary (47 :: 42 :: body ++ 42 :: 47 :: t)
| O_line body t : ~ In 10 body -> ordinary t -> ordinary (47 :: 47 :: body ++ 10 :: t)
| O_slash t : (forall r, t <> 42 :: r) -> (forall r, t <> 47 :: r) -> ordinary t -> ordinary (47 :: t)
| O_string body t : string_body body -> ordinary t -> ordinary (34 :: body ++ 34 :: t)
| O_hash t : other_directive t -> ordinary t -> ordinary (35 :: t).
(** Tabs, or fours of spaces. *)
Definition indentation_text (pre : list N) : Prop := exists k, pre = repeat 9 k \/ pre = repeat 32 (4 * k).
(** [expands file allowed src res names]: [src] with each line that includes a file replaced by that file, moved to where the directive
    is. *)
Inductive expands (file : list N -> option (list N)) (allowed : list N -> Prop) : list N -> list N -> list (list N) -> Prop :=
| X_end t : ordinary t -> expands file allowed t t []
| X_include a pre b1 b2 name l ls rest rest' names :
    ordinary (a ++ [10] ++ pre) -> indentation_text pre -> Forall blank b1 -> Forall blank b2 -> string_body name -> allowed name ->
    file name = Some (joined (l :: ls)) -> is_line l -> Forall is_line ls -> expands file allowed rest rest' names ->
    expands file allowed (a ++ [10] ++ pre ++ 35 :: b1 ++ the_include ++ b2 ++ 34 :: name ++ 34 :: rest)
      (a ++ [10] ++ pre ++ joined (l :: map (indented pre) ls) ++ rest') (name :: names).
(** [src] with some of its include directives replaced by the files, moved to the right by some indentation; all else stays. *)
Inductive includes_merged (file : list N -> option (list N)) (allowed : list N -> Prop) : list N -> list N -> list (list N) -> Prop :=
| I_end t : includes_merged file allowed t t []
| I_include s src name pre l ls rest rest' names : include_directive src name -> allowed name -> file name = Some (joined (l :: ls)) -> is_line l -> Forall is_line ls -> indentation_text pre ->
    includes_merged file allowed rest rest' names -> includes_merged file allowed (s ++ src ++ rest) (s ++ joined (l :: map (indented pre) ls) ++ rest') (name :: names).
(** The last line is complete, not blank, and does not mention MERGE_. *)
Definition ends_well (t : list N) : Prop := exists a l, t = a ++ 10 :: l ++ [10] /\ is_line l /\ ~ Forall blank l /\ absent the_merge l.

(** ** Passes with definitions *)
(** One definition after the other. *)
Fixpoint defs_replaced (defs : list (list N * list N)) (t t' : list N) : Prop :=
  match defs with [] => t' = t | (name, value) :: defs => exists t1, (no_underscore_at name t -> words_replaced name value t t1) /\ defs_replaced defs t1 t' end.
Fixpoint undefs_erased (defs : list (list N * list N)) (t t' : list N) : Prop :=
  match defs with [] => t' = t | (name, _) :: defs => exists t1, (absent (the_undef ++ name) t -> t1 = t) /\ undefs_erased defs t1 t' end.
(** [src], in which the definitions [defs] hold, becomes [res]. Definitions hold up to the next file that is merged, the first one, the
    year, holds everywhere. *)
Inductive merged_text (file : list N -> option (list N)) (allowed : list N -> Prop) : list (list N * list N) -> list N -> list N -> list (list N) -> Prop :=
| G_end defs t t' : defs_replaced defs t t' -> merged_text file allowed defs t t' []
| G_include defs s s' src name data data1 pre l ls rest rest' names : defs_replaced defs s s' -> include_directive src name -> allowed name -> file name = Some data ->
    undefs_erased defs data data1 -> defs_replaced defs data1 (joined (l :: ls)) -> is_line l -> Forall is_line ls -> indentation_text pre ->
    merged_text file allowed (firstn 1 defs) rest rest' names -> merged_text file allowed defs (s ++ src ++ rest) (s' ++ joined (l :: map (indented pre) ls) ++ rest') (name :: names)
| G_define defs s s' src name value rest rest' names : defs_replaced defs s s' -> define_directive src name value ->
    merged_text file allowed (defs ++ [(name, value)]) rest rest' names -> merged_text file allowed defs (s ++ src ++ rest) (s' ++ rest') names.
