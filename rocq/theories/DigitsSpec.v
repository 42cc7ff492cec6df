(** What "the number written in base b" means; shared by the number scanners and printers. *)
From Coq Require Import NArith Bool String Ascii List.
Import ListNotations.
Local Open Scope N_scope.

(** Bytes of a string literal. *)
Definition bytes_of (s : string) : list N := map N_of_ascii (list_ascii_of_string s).

Definition alphabet_upper : list N := bytes_of "0123456789ABCDEFGHIJKLMNOPQRSTUVWXYZ".
Definition alphabet_lower : list N := bytes_of "0123456789abcdefghijklmnopqrstuvwxyz".

Fixpoint index_of (c : N) (l : list N) : option N :=
  match l with
  | [] => None
  | x :: r => if c =? x then Some 0 else option_map N.succ (index_of c r)
  end.

(** Value of a digit character: its position in one of the two alphabets. *)
Definition digit_value (c : N) : option N :=
  match index_of c alphabet_upper with
  | Some d => Some d
  | None => index_of c alphabet_lower
  end.

(** The digit characters. *)
Definition digit_char (lowercase : bool) (d : N) : N :=
  nth (N.to_nat d) (if lowercase then alphabet_lower else alphabet_upper) 0.

(** The digits of the longest prefix of [s] made of digits of base [b]. *)
Fixpoint digit_run (b : N) (s : list N) : list N :=
  match s with
  | [] => []
  | c :: r =>
    match digit_value c with
    | Some d => if d <? b then d :: digit_run b r else []
    | None => []
    end
  end.

(** The number denoted by a list of digits, most significant first. *)
Definition number (b : N) (ds : list N) : N := fold_left (fun a d => a * b + d) ds 0.

(** [ds] is the way to write [v] in base [b]: no superfluous leading zero. *)
Definition canonical (b v : N) (ds : list N) : Prop :=
  number b ds = v /\ Forall (fun d => d < b) ds /\ ds <> [] /\ (hd 1 ds = 0 -> ds = [0]).

(** Number of digits needed for [v] in base [b]. *)
Definition is_digit_count (b v : N) (k : nat) : Prop :=
  (1 <= k)%nat /\ v < b ^ N.of_nat k /\ ((1 < k)%nat -> b ^ N.of_nat (k - 1) <= v).

(** What scanning an unsigned number out of the text [s] must give: how many characters belong
    to the number, and the number if it is at most [max]. *)
Inductive scan_outcome :=
  | NoNumber                          (* nothing there *)
  | TooBig (chars : nat)              (* a number, larger than max *)
  | Number (chars : nat) (value : N).

Definition scan_spec (max b : N) (s : list N) : scan_outcome :=
  let ds := digit_run b s in
  match ds with
  | [] => NoNumber
  | _ => if number b ds <=? max then Number (length ds) (number b ds) else TooBig (length ds)
  end.
