(** Model of tm_cli.h (char build, assertions enabled).

    Null-terminated strings are lists of bytes without 0, null pointers are [None].  [argv] is a list
    of strings, [parser->current] an index into it, [parser->current_arg] the string it points to.
    The unsigned objects that options point to are cells of a memory.  Texts written to the error log
    are not modelled. *)
From Coq Require Import Arith NArith ZArith List Bool.
Import ListNotations.
Require Import Verif.Base.
Local Open Scope N_scope.

(** tm_cli.h 137-155, the enumerations (other values of the int fields are not modelled). *)
Inductive argtype := ANone | AOptional | ARequired.
Inductive outtype := ONone | OAssign | OFlag | OCounter.

(** tm_cli.h 157-183, tmcli_option with tmcli_multiple; [o_counter] and [o_output] are addresses of
    unsigned objects. *)
Record opt := Opt {
  o_short : option (list N);
  o_long : option (list N);
  o_arg : argtype;
  o_required : bool;
  o_max : Z;
  o_counter : option nat;
  o_validator : option (list N -> bool);
  o_outtype : outtype;
  o_output : option nat;
  o_value : N }.

(** tm_cli.h 190-206, tmcli_parser without the fields that never change. *)
Record parser := Parser {
  current : nat;
  given : list N;
  cur_arg : option (list N);
  error : bool }.

Definition mem : Type := nat -> N.
Definition store (m : mem) (a : nat) (v : N) : mem := fun b => if Nat.eqb b a then v else m b.

(** isdigit, isalpha, isalnum of the "C" locale. *)
Definition isdigit (c : N) : bool := (48 <=? c) && (c <=? 57).
Definition isalpha (c : N) : bool := ((65 <=? c) && (c <=? 90)) || ((97 <=? c) && (c <=? 122)).
Definition isalnum (c : N) : bool := isdigit c || isalpha c.
Definition head (s : list N) : N := hd 0 s.

(** tm_cli.h 318-327, tmcli_skip_digits. *)
Fixpoint skip_digits_loop (s : list N) : list N :=
  match s with
  | c :: t => if isdigit c then skip_digits_loop t else s
  | [] => []
  end.
Definition skip_digits (s : list N) : option (list N) :=
  match s with
  | c :: t => if isdigit c then Some (skip_digits_loop t) else None
  | [] => None
  end.

Definition is_end (s : list N) : bool := match s with [] => true | _ => false end.

(** tm_cli.h 333-337, CLI_ARGUMENT_UINT. *)
Definition argument_uint (s : list N) : bool :=
  match s with
  | [] => false
  | _ => match skip_digits s with Some t => is_end t | None => false end
  end.
(** tm_cli.h 328-336, CLI_ARGUMENT_INT. *)
Definition argument_int (s : list N) : bool :=
  match s with
  | [] => false
  | c :: t => if c =? 45 then argument_uint t else argument_uint s
  end.
(** tm_cli.h 342-372, CLI_ARGUMENT_FLOAT. *)
Definition float_exp (s : list N) : bool :=
  match s with
  | c :: t =>
      if (c =? 101) || (c =? 69) then
        let t := match t with d :: u => if (d =? 45) || (d =? 43) then u else t | [] => t end in
        match skip_digits t with Some u => is_end u | None => false end
      else false
  | [] => true
  end.
Definition float_frac (s : list N) : bool :=
  match s with
  | [] => true
  | c :: t =>
      if c =? 46 then
        match skip_digits t with
        | None => false
        | Some [] => true
        | Some u => float_exp u
        end
      else float_exp s
  end.
Definition float_unsigned (s : list N) : bool :=
  match s with
  | [] => false
  | c :: t =>
      if c =? 48 then float_frac t
      else if (49 <=? c) && (c <=? 57) then
        float_frac (match skip_digits t with Some u => u | None => t end)
      else false
  end.
Definition argument_float (s : list N) : bool :=
  match s with
  | [] => false
  | c :: t => if c =? 45 then float_unsigned t else float_unsigned s
  end.

(** tm_cli.h 383-416, tmcli_make_parser_ex: the assertions, and the parser. *)
Definition has_name (o : opt) : bool :=
  match o_short o with Some (_ :: _) => true | _ =>
    match o_long o with Some (_ :: _) => true | _ => false end
  end.
Definition make_parser_ex (os : list opt) : option parser :=
  assert_ (Nat.leb (length os) 128)
    (assert_ (forallb has_name os) (Some (Parser 0 [0; 0; 0; 0] None false))).

(** tm_cli.h 436-449, tmcli_get_flag_pair. *)
Definition flag_pair (index : nat) : option (nat * N) :=
  let i := Nat.div index 32 in
  let flag := w32 (N.shiftl 1 (N.of_nat (Nat.modulo index 32))) in
  assert_ (Nat.ltb i 4) (assert_ (negb (flag =? 0)) (Some (i, flag))).

Fixpoint update {A} (l : list A) (i : nat) (x : A) : list A :=
  match l, i with
  | _ :: t, O => x :: t
  | y :: t, S i => y :: update t i x
  | [], _ => []
  end.

(** tm_cli.h 451-480, tmcli_validate. *)
Fixpoint validate_loop (os : list opt) (i : nat) (p : parser) : option (bool * parser) :=
  match os with
  | [] => Some (true, p)
  | o :: os =>
      if o_required o then
        ' (k, flag) <- flag_pair i;;
        if N.land (nth k (given p) 0) flag =? 0 then
          Some (false, Parser (current p) (given p) (cur_arg p) true)
        else validate_loop os (S i) p
      else validate_loop os (S i) p
  end.
Definition validate (os : list opt) (p : parser) : option (bool * parser) :=
  if error p then Some (false, p) else validate_loop os 0 p.

(** strncmp(s, prefix, strlen(prefix)) == 0, and the text behind the prefix. *)
Fixpoint strip (prefix s : list N) : option (list N) :=
  match prefix, s with
  | [], _ => Some s
  | a :: p, b :: t => if a =? b then strip p t else None
  | _ :: _, [] => None
  end.

(** tm_cli.h 508-524, the loop over long options: [None] if a null pointer is passed to strlen,
    [Some None] if nothing is found. *)
Fixpoint find_long (os : list opt) (i : nat) (s : list N) : option (option (nat * list N)) :=
  match os with
  | [] => Some None
  | o :: os =>
      match o_long o with
      | None => None
      | Some name =>
          match strip name s with
          | Some t => if (head t =? 0) || (head t =? 61) then Some (Some (i, t)) else find_long os (S i) s
          | None => find_long os (S i) s
          end
      end
  end.

(** tm_cli.h 565-576, the loop over short options. *)
Fixpoint find_short (os : list opt) (i : nat) (c : N) : option (option nat) :=
  match os with
  | [] => Some None
  | o :: os =>
      match o_short o with
      | None => find_short os (S i) c
      | Some [] => None
      | Some (d :: _) => if c =? d then Some (Some i) else find_short os (S i) c
      end
  end.

(** tm_cli.h 236-240, tmcli_parsed_option; [p_option = None] for a free argument. *)
Record parsed := Parsed { p_option : option nat; p_argument : option (list N) }.

Definition fail (p : parser) (m : mem) : option (option parsed * parser * mem) :=
  Some (None, Parser (current p) (given p) (cur_arg p) true, m).

(** tm_cli.h 596-635: counting, the check for repeated options and the output.  [inl]: error. *)
Definition count_option (o : opt) (m : mem) : N * mem :=
  match o_counter o with
  | Some a => let v := w32 (m a + 1) in (v, store m a v)
  | None => (0, m)
  end.
Definition write_output (o : opt) (m : mem) : mem :=
  match o_output o with
  | None => m
  | Some a =>
      match o_outtype o with
      | ONone => m
      | OAssign => store m a (o_value o)
      | OFlag => store m a (N.lor (m a) (o_value o))
      | OCounter => store m a (w32 (m a + o_value o))
      end
  end.
Definition too_many (o : opt) (counter : N) : bool :=
  (o_max o =? 0)%Z || (o_max o =? 1)%Z || ((0 <? o_max o)%Z && (Z.to_N (o_max o) <? counter)).

(** tm_cli.h 637-716: the argument of the option; [s] is the text behind its name. *)
Definition finish (os : list opt) (argv : list (list N)) (p : parser) (m : mem) (i : nat) (o : opt)
    (is_short : bool) (s : list N) : option (option parsed * parser * mem) :=
  let result p (arg : option (list N)) :=
    let p := match arg with Some _ => Parser (current p) (given p) None (error p) | None => p end in
    Some (Some (Parsed (Some i) arg), p, m) in
  if is_short && negb (head s =? 0) && match o_arg o with ANone => true | _ => false end then
    if isalpha (head s) then result p None else fail p m
  else
    let next := if head s =? 61 then None
                else match nth_error argv (current p) with
                     | Some w => if head w =? 45 then None else Some w
                     | None => None
                     end in
    let p := match next with
             | Some _ => Parser (S (current p)) (given p) (cur_arg p) (error p)
             | None => p
             end in
    let own := match s with
               | [] => None
               | c :: t => Some (if c =? 61 then t else s)
               end in
    let arg := match own with Some _ => own | None => next end in
    if match o_arg o, arg with ANone, Some _ => true | _, _ => false end then fail p m
    else if match own, next with Some _, Some _ => true | _, _ => false end then fail p m
    else if match o_arg o, arg with ARequired, None | ARequired, Some [] => true | _, _ => false end
         then fail p m
    else if match arg, o_validator o with Some a, Some v => negb (v a) | _, _ => false end then fail p m
    else result p arg.

(** tm_cli.h 588-635 and the rest: an option with index [i] was found. *)
Definition use_option (os : list opt) (argv : list (list N)) (p : parser) (m : mem) (i : nat)
    (is_short : bool) (s : list N) : option (option parsed * parser * mem) :=
  o <- nth_error os i;;
  let (counter, m) := count_option o m in
  ' (k, flag) <- flag_pair i;;
  if negb (N.land (nth k (given p) 0) flag =? 0) && too_many o counter then fail p m
  else
    let p := Parser (current p) (update (given p) k (N.lor (nth k (given p) 0) flag)) (cur_arg p) (error p) in
    finish os argv p (write_output o m) i o is_short s.

(** tm_cli.h 564-586: short options. *)
Definition short_option (os : list opt) (argv : list (list N)) (p : parser) (m : mem) (s : list N)
  : option (option parsed * parser * mem) :=
  f <- find_short os 0 (head s);;
  match f with
  | None => fail p m
  | Some i => use_option os argv (Parser (current p) (given p) (Some (tl s)) (error p)) m i true (tl s)
  end.

(** tm_cli.h 482-720, tmcli_next.  The result [Some (None, _, _)] is the return value false. *)
Definition next (os : list opt) (free : bool) (argv : list (list N)) (p : parser) (m : mem)
  : option (option parsed * parser * mem) :=
  assert_ (negb (error p))
    (let fetched :=
       match cur_arg p with
       | Some (c :: s) => Some (c :: s, p)
       | _ => match nth_error argv (current p) with
              | Some w => Some (w, Parser (S (current p)) (given p) (cur_arg p) (error p))
              | None => None
              end
       end in
     match fetched with
     | None => Some (None, p, m)
     | Some (s, p) =>
         if head s =? 45 then
           let s := tl s in
           if head s =? 45 then
             let s := tl s in
             if negb (isalnum (head s)) then Some (None, p, m)
             else
               f <- find_long os 0 s;;
               match f with
               | None => fail p m
               | Some (i, t) =>
                   use_option os argv (Parser (current p) (given p) None (error p)) m i false t
               end
           else short_option os argv p m s
         else
           match cur_arg p with
           | Some _ => short_option os argv p m s
           | None =>
               if free then Some (Some (Parsed None (Some s)), p, m) else fail p m
           end
     end).

(** The loop of a program around tmcli_next: the options reported, until it returns false. *)
Fixpoint run (fuel : nat) (os : list opt) (free : bool) (argv : list (list N)) (p : parser) (m : mem)
  : option (list parsed * parser * mem) :=
  match fuel with
  | O => None
  | S fuel =>
      ' (r, p, m) <- next os free argv p m;;
      match r with
      | None => Some ([], p, m)
      | Some e => ' (es, p, m) <- run fuel os free argv p m;; Some (e :: es, p, m)
      end
  end.
(** Every call uses up a character or a word. *)
Definition line_fuel (argv : list (list N)) : nat := S (length argv + length (concat argv)).
Definition parse_line (os : list opt) (free : bool) (argv : list (list N)) (m : mem)
  : option (list parsed * parser * mem) :=
  p <- make_parser_ex os;; run (line_fuel argv) os free argv p m.

(** tm_cli.h 722-732, tmcli_get_remaining_args. *)
Definition remaining (argv : list (list N)) (p : parser) : option (list (list N)) :=
  assert_ (Nat.leb (current p) (length argv)) (Some (skipn (current p) argv)).
