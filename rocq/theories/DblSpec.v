(** Decimal literals and the numbers they denote, independent of the model. *)
From Coq Require Import Reals ZArith NArith Bool List.
From Flocq Require Import Core.
From Verif Require Import DigitsSpec.
Import ListNotations.
Local Open Scope N_scope.

(** [+-]digits after the letter e or E. *)
Record exponent_part := ExponentPart {
  ep_upper : bool;                        (* E instead of e *)
  ep_sign : option bool;                  (* Some true: '-', Some false: '+' *)
  ep_digits : list N
}.

(** [-]digits[.digits][exponent] *)
Record literal := Literal {
  lit_minus : bool;
  lit_before : list N;
  lit_point : bool;
  lit_after : list N;
  lit_exponent : option exponent_part
}.

Definition digits_text (ds : list N) : list N := map (fun d => 48 + d) ds.

Definition exponent_text (x : option exponent_part) : list N :=
  match x with
  | None => []
  | Some e => (if ep_upper e then 69 else 101) ::
      match ep_sign e with None => [] | Some true => [45] | Some false => [43] end ++ digits_text (ep_digits e)
  end.

Definition literal_text (l : literal) : list N :=
  (if lit_minus l then [45] else []) ++ digits_text (lit_before l) ++
  (if lit_point l then [46] else []) ++ digits_text (lit_after l) ++ exponent_text (lit_exponent l).

Definition decimal (ds : list N) : Prop := Forall (fun d => d < 10) ds.

(** Digits are digits; there is at least one; digits after the point need a point; an exponent has
    digits. *)
Definition well_formed (l : literal) : Prop :=
  decimal (lit_before l) /\ decimal (lit_after l) /\
  (lit_before l <> [] \/ lit_after l <> []) /\
  (lit_point l = false -> lit_after l = []) /\
  match lit_exponent l with None => True | Some e => decimal (ep_digits e) /\ ep_digits e <> [] end.

(** The written power of ten. *)
Definition exponent_value (l : literal) : Z :=
  match lit_exponent l with
  | None => 0%Z
  | Some e =>
    let k := Z.of_N (number 10 (ep_digits e)) in
    match ep_sign e with Some true => (- k)%Z | _ => k end
  end.

Definition radix10 : radix := Build_radix 10 eq_refl.

(** All digits without the point. *)
Definition all_digits (l : literal) : list N := lit_before l ++ lit_after l.

(** The number that is written: (-1)^minus * digits * 10^(exponent - digits after the point). *)
Definition literal_value (l : literal) : R :=
  ((if lit_minus l then -1 else 1) * IZR (Z.of_N (number 10 (all_digits l))) *
   bpow radix10 (exponent_value l - Z.of_nat (length (lit_after l))))%R.

(** [rest], the text behind the literal, does not continue it. *)
Definition is_decimal_char (c : N) : Prop := 48 <= c <= 57.
Definition starts_with_digit (s : list N) : Prop := match s with c :: _ => is_decimal_char c | [] => False end.
Definition starts_exponent (s : list N) : Prop :=
  exists e more, ep_digits e <> [] /\ decimal (ep_digits e) /\ s = exponent_text (Some e) ++ more.
Definition ends_before (l : literal) (rest : list N) : Prop :=
  ~ starts_with_digit rest /\
  (lit_exponent l = None -> ~ starts_exponent rest /\ (lit_point l = false -> hd 0 rest <> 46)).

(** Where the point is after it is moved by the exponent, as far as there are digits: the digits before
    it and after it, and the power of ten that is left. *)
Definition point_position (l : literal) : nat :=
  Z.to_nat (Z.max 0 (Z.min (Z.of_nat (length (all_digits l))) (Z.of_nat (length (lit_before l)) + exponent_value l))).
Definition moved_before (l : literal) : list N := firstn (point_position l) (all_digits l).
Definition moved_after (l : literal) : list N := skipn (point_position l) (all_digits l).
Definition left_exponent (l : literal) : Z :=
  (Z.of_nat (length (lit_before l)) + exponent_value l - Z.of_nat (point_position l))%Z.

(** The digits without leading zeros. *)
Fixpoint significant (ds : list N) : list N :=
  match ds with
  | [] => []
  | d :: r => if d =? 0 then significant r else ds
  end.

(** The exponent moves the point over digits behind it, and there are only zeros before it. *)
Definition point_after_zeros (l : literal) : Prop :=
  (length (lit_before l) < point_position l)%nat /\ number 10 (lit_before l) = 0%N.
