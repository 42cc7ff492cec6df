(** What a user of the generated tables expects, written without the generator. *)
From Coq Require Import ZArith NArith String Ascii List Bool.
From Verif Require Import UgModel.
Import ListNotations.
Local Open Scope string_scope.

(** The abbreviations of the general categories (UnicodeData.txt, PropertyValueAliases.txt). *)
Definition abbreviation (c : category) : string :=
  match c with
  | Cany => "C" | Lu => "Lu" | Ll => "Ll" | Lt => "Lt" | LC => "LC" | Lm => "Lm" | Lo => "Lo" | Lany => "L"
  | Mn => "Mn" | Mc => "Mc" | Me => "Me" | Many => "M" | Nd => "Nd" | Nl => "Nl" | No => "No" | Nany => "N"
  | Pc => "Pc" | Pd => "Pd" | Ps => "Ps" | Pe => "Pe" | Pi => "Pi" | Pf => "Pf" | Po => "Po" | Pany => "P"
  | Sm => "Sm" | Sc => "Sc" | Sk => "Sk" | So => "So" | Sany => "S" | Zs => "Zs" | Zl => "Zl" | Zp => "Zp" | Zany => "Z"
  | Cc => "Cc" | Cf => "Cf" | Cs => "Cs" | Co => "Co" | Cn => "Cn"
  end.
(** The kind of a category is its first letter; the kinds are numbered in this order. *)
Definition kinds : list ascii := ["C"; "L"; "M"; "N"; "P"; "S"; "Z"]%char.
Definition is_kind (c : category) (k : Z) : Prop :=
  exists a rest, abbreviation c = String a rest /\ nth_error kinds (Z.to_nat k) = Some a.
(** Upper, lower and title case letters: 1, 2, 3. *)
Definition is_case (c : category) (k : Z) : Prop :=
  (k = 1%Z /\ abbreviation c = "Lu") \/ (k = 2%Z /\ abbreviation c = "Ll") \/ (k = 3%Z /\ abbreviation c = "Lt") \/
  (k = 0%Z /\ abbreviation c <> "Lu" /\ abbreviation c <> "Ll" /\ abbreviation c <> "Lt").

(** The data of a code point: what the files say, or that of an unassigned code point. *)
Definition unassigned (cp : N) : udata :=
  {| d_cp := cp; d_cat := Cn; d_white := false; d_gb := GOther; d_wide := false; d_simple := None; d_full := None; d_tag := None |}.
Definition datum (ds : list udata) (cp : N) : udata :=
  match find (fun d => N.eqb (d_cp d) cp) ds with Some d => d | None => unassigned cp end.
(** A code point that the tables reach: the data reach its block, or code points beyond are asked for and some block below has
    no data. *)
Definition reached (B : nat) (fl : flags) (ds : list udata) (cp : N) : Prop :=
  (exists d, In d ds /\ (cp / N.of_nat B <= d_cp d / N.of_nat B)%N) \/
  (f_invalid fl = true /\ exists b, (exists d, In d ds /\ (b <= d_cp d / N.of_nat B)%N) /\
     forall d, In d ds -> (d_cp d / N.of_nat B <> b)%N).

(** Mappings: the code point itself if there is none. *)
Definition mapped (cp : N) (o : option Z) : Z := match o with Some v => v | None => Z.of_N cp end.
Definition simple (f : simple_case -> option Z) (d : udata) : Z :=
  mapped (d_cp d) (match d_simple d with Some s => f s | None => None end).
Definition full (f : full_case -> list Z) (d : udata) : list Z := match d_full d with Some x => f x | None => [] end.
(** Toggling: the upper case of a lower case letter, the lower case of an upper case letter. *)
Definition toggled {A} (upper lower none : A) (c : category) : A :=
  if String.eqb (abbreviation c) "Ll" then upper else if String.eqb (abbreviation c) "Lu" then lower else none.

(** Data as they are in the files: code points are positive numbers below 2^32. *)
Definition proper_simple (d : udata) : Prop :=
  forall s, d_simple d = Some s -> forall o v, In o [s_upper s; s_lower s; s_title s; s_fold s] -> o = Some v -> (0 <= v < 2 ^ 32)%Z.
Definition proper_full (d : udata) : Prop :=
  forall f, d_full d = Some f -> forall v, In v (fu_upper f ++ fu_lower f ++ fu_title f ++ fu_fold f) -> (0 < v)%Z.

(** A block of the form x y x ... x y. *)
Definition alternating {A} (b : list A) : Prop :=
  exists x y n, x <> y /\ (2 <= n)%nat /\ b = (x :: y :: repeat x n ++ [y])%list.
