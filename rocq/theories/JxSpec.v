(** Specification of the extensions of JSON that jsonNextTokenEx reads. *)
From Coq Require Import NArith List Bool.
From Verif Require Import Base JsonModel JsonSpec JsonTok JxModel.
Import ListNotations.
Local Open Scope N_scope.

(** The letters of [x] are those of [k], which is in lower case, in any case. *)
Definition lower_of (c d : N) : Prop := c = d \/ (97 <= d <= 122 /\ c = d - 32).
Definition spells (x k : list N) : Prop := Forall2 lower_of x k.

(** A sign in front of a number. *)
Definition sign_ok (fl : N) (sg : list N) : Prop :=
  sg = [] \/ sg = [45] \/ (sg = [43] /\ N.testbit fl 14 = true).

(** Calling jsonNextTokenEx reports the token [t], whose content is [tx], and stops in front of [z]. *)
Definition reports (fl : N) (c : ctx) (buf : list N) (r : reader) (t : tok) (tx z : list N) (r' : reader) : Prop :=
  next_token_ex fl c r = Some (t, r') /\ rest r' = z /\ last r' = t /\ err r' = JOk
  /\ current buf r' = tx /\ inside buf r'.

(** A comment: the last token stays what it was. *)
Definition reports_comment (fl : N) (c : ctx) (buf : list N) (r : reader) (l : tok) (tx z : list N) (r' : reader)
  : Prop :=
  next_token_ex fl c r = Some (TComment, r') /\ rest r' = z /\ last r' = l /\ err r' = JOk
  /\ current buf r' = tx /\ inside buf r' /\ root r' = root r.

(** The sequence [m] does not occur in [s]. *)
Definition free_of (m s : list N) : Prop := forall a b, s <> a ++ m ++ b.
