(** Grapheme cluster boundaries as in Unicode Standard Annex 29 (version 11, extended grapheme clusters). *)
From Coq Require Import List.
From Verif Require Import UgModel.
Import ListNotations.

Definition is_control (g : grapheme) : Prop := In g [GCr; GLf; GControl].
(** [forbidden before b]: no boundary between the text with the properties [before] and a code point of property [b]. *)
Definition forbidden (before : list grapheme) (b : grapheme) : Prop :=
  exists pre a, before = pre ++ [a] /\
  ((a = GCr /\ b = GLf) \/                                                                  (* GB3 *)
   (~ is_control a /\ ~ is_control b /\                                                     (* GB4, GB5 *)
    ((a = GL /\ In b [GL; GV; GLV; GLVT]) \/                                                (* GB6 *)
     (In a [GLV; GV] /\ In b [GV; GT]) \/                                                   (* GB7 *)
     (In a [GLVT; GT] /\ b = GT) \/                                                         (* GB8 *)
     In b [GExtend; GZwj; GSpacing] \/                                                      (* GB9, GB9a *)
     a = GPrepend \/                                                                        (* GB9b *)
     (b = GPictographic /\ exists p k, before = p ++ [GPictographic] ++ repeat GExtend k ++ [GZwj]) \/  (* GB11 *)
     (b = GRegional /\ exists p k, before = p ++ repeat GRegional (2 * k + 1) /\ ~ exists q, p = q ++ [GRegional])))). (* GB12, GB13 *)
(** What the tool does wrong: a mark behind an emoji with a joiner. *)
Definition mark_after_joiner (before : list grapheme) (b : grapheme) : Prop :=
  In b [GExtend; GZwj; GSpacing] /\ exists p k, before = p ++ [GPictographic] ++ repeat GExtend k ++ [GZwj].
