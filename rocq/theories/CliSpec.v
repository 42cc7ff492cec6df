(** Specification of command lines, independent of the parser: which words form which options. *)
From Coq Require Import Arith NArith ZArith List Bool.
From Verif Require Import Base.
From Verif Require Import CliModel.
Import ListNotations.
Local Open Scope N_scope.

(** The option with index [i] is the first one with the long name [name] / the short letter [c]. *)
Definition long_is (os : list opt) (name : list N) (i : nat) (o : opt) : Prop :=
  nth_error os i = Some o /\ o_long o = Some name
  /\ forall j o', (j < i)%nat -> nth_error os j = Some o' -> o_long o' <> Some name.
Definition short_is (os : list opt) (c : N) (i : nat) (o : opt) : Prop :=
  nth_error os i = Some o /\ (exists s, o_short o = Some (c :: s))
  /\ forall j o' s, (j < i)%nat -> nth_error os j = Some o' -> o_short o' <> Some (c :: s).

Definition digit (c : N) : Prop := 48 <= c <= 57.
Definition letter (c : N) : Prop := 65 <= c <= 90 \/ 97 <= c <= 122.

(** A word that is an argument and not an option. *)
Definition plain (w : list N) : Prop := hd 0 w <> 45.
(** The words that follow do not start with one. *)
Definition no_plain (ws : list (list N)) : Prop := match ws with w :: _ => ~ plain w | [] => True end.

(** The option takes this argument. *)
Definition takes (o : opt) (a : list N) : Prop :=
  o_arg o <> ANone /\ (o_arg o = ARequired -> a <> []).

(** What is reported: the index of an option (none for a free argument) and its argument. *)
Definition item : Type := parsed.

(** [letters lax os s ws es ws']: the text [s] of a word behind its '-', followed by the words [ws],
    stands for the options [es] and leaves the words [ws'].

    [lax = true]: the usual rules.  A letter of an option without argument, or with an optional
    argument that is not given, may be followed by any word; so may an attached argument.
    [lax = false]: these must not be followed by a word that could be an argument. *)
Inductive letters (lax : bool) (os : list opt)
  : list N -> list (list N) -> list item -> list (list N) -> Prop :=
| L_flag c s i o ws es ws' : short_is os c i o -> o_arg o = ANone -> letter (hd 0 s) ->
    letters lax os s ws es ws' -> letters lax os (c :: s) ws (Parsed (Some i) None :: es) ws'
| L_last c i o ws : short_is os c i o -> o_arg o <> ARequired ->
    no_plain ws \/ (lax = true /\ o_arg o = ANone) -> letters lax os [c] ws [Parsed (Some i) None] ws
| L_equal c a i o ws : short_is os c i o -> takes o a ->
    letters lax os (c :: 61 :: a) ws [Parsed (Some i) (Some a)] ws
| L_attached c a i o ws : short_is os c i o -> takes o a -> a <> [] -> hd 0 a <> 61 ->
    no_plain ws \/ lax = true -> letters lax os (c :: a) ws [Parsed (Some i) (Some a)] ws
| L_next c a i o ws : short_is os c i o -> takes o a -> plain a ->
    letters lax os [c] (a :: ws) [Parsed (Some i) (Some a)] ws.

(** One word (and the argument that follows it), and the options it stands for. *)
Inductive word (lax : bool) (os : list opt) (free : bool)
  : list N -> list (list N) -> list item -> list (list N) -> Prop :=
| W_free w ws : plain w -> free = true -> word lax os free w ws [Parsed None (Some w)] ws
| W_short c s ws es ws' : c <> 45 -> letters lax os (c :: s) ws es ws' ->
    word lax os free (45 :: c :: s) ws es ws'
| W_long name i o ws : digit (hd 0 name) \/ letter (hd 0 name) -> long_is os name i o ->
    o_arg o <> ARequired -> no_plain ws \/ (lax = true /\ o_arg o = ANone) ->
    word lax os free (45 :: 45 :: name) ws [Parsed (Some i) None] ws
| W_long_equal name a i o ws : digit (hd 0 name) \/ letter (hd 0 name) -> long_is os name i o ->
    takes o a -> word lax os free (45 :: 45 :: name ++ 61 :: a) ws [Parsed (Some i) (Some a)] ws
| W_long_next name a i o ws : digit (hd 0 name) \/ letter (hd 0 name) -> long_is os name i o ->
    takes o a -> plain a -> word lax os free (45 :: 45 :: name) (a :: ws) [Parsed (Some i) (Some a)] ws.

(** A whole command line: words up to the end or to a word "--"; the words behind it are left. *)
Inductive cmdline (lax : bool) (os : list opt) (free : bool)
  : list (list N) -> list item -> list (list N) -> Prop :=
| C_end : cmdline lax os free [] [] []
| C_stop s ws : ~ digit (hd 0 s) -> ~ letter (hd 0 s) -> cmdline lax os free ((45 :: 45 :: s) :: ws) [] ws
| C_word w ws es ws' es' rest : word lax os free w ws es ws' -> cmdline lax os free ws' es' rest ->
    cmdline lax os free (w :: ws) (es ++ es') rest.

(** Arguments satisfy the validators of their options. *)
Definition valid_argument (os : list opt) (e : item) : Prop :=
  forall i o a v, p_option e = Some i -> nth_error os i = Some o -> p_argument e = Some a ->
    o_validator o = Some v -> v a = true.

(** How often an option occurs. *)
Definition occurrences (es : list item) (i : nat) : nat :=
  length (filter (fun e => match p_option e with Some j => Nat.eqb i j | None => false end) es).
(** How often it may occur: [max_amount] times, at least once, and without limit if it is negative. *)
Definition amount_ok (o : opt) (n : nat) : Prop := (o_max o < 0 \/ Z.of_nat n <= Z.max 1 (o_max o))%Z.

(** The effect of an occurrence of an option on the objects of the program. *)
Definition effect (os : list opt) (e : item) (m : mem) : mem :=
  match p_option e with
  | Some i =>
      match nth_error os i with
      | Some o => write_output o (snd (count_option o m))
      | None => m
      end
  | None => m
  end.
Definition effects (os : list opt) (es : list item) (m : mem) : mem :=
  fold_left (fun m e => effect os e m) es m.

(** Tables of options the parser is made for: at most 128, each with a long name without '=', short
    names not empty if present. *)
Definition usable (os : list opt) : Prop :=
  (length os <= 128)%nat
  /\ Forall (fun o => (exists n, o_long o = Some n /\ ~ In 61 n /\ ~ In 0 n /\ (n <> [] \/ o_short o <> None))
                      /\ o_short o <> Some []
                      /\ forall s, o_short o <> Some (0 :: s)) os.
(** No byte of an argument is 0. *)
Definition c_strings (argv : list (list N)) : Prop := Forall (fun w => ~ In 0 w) argv.

(** ** Validators *)
Definition digits (s : list N) : Prop := s <> [] /\ Forall digit s.
Definition integer (s : list N) : Prop := digits s \/ exists t, s = 45 :: t /\ digits t.
(** -? (0 | [1-9][0-9]* ) ( . [0-9]+ )? ( [eE] [+-]? [0-9]+ )? *)
Definition decimal (s : list N) : Prop :=
  exists sg i f e, s = sg ++ i ++ f ++ e
    /\ (sg = [] \/ sg = [45])
    /\ (i = [48] \/ (digits i /\ hd 0 i <> 48))
    /\ (f = [] \/ exists ds, f = 46 :: ds /\ digits ds)
    /\ (e = [] \/ exists x g ds, e = x :: g ++ ds /\ (x = 101 \/ x = 69)
                    /\ (g = [] \/ g = [43] \/ g = [45]) /\ digits ds).

(** ** Counters and outputs *)

(** Options with a limit of two or more have a counter of their own that starts at 0. *)
Definition counted (os : list opt) (m : mem) : Prop :=
  forall i o, nth_error os i = Some o -> (2 <= o_max o)%Z ->
    (o_max o < 2147483648)%Z
    /\ exists a, o_counter o = Some a /\ m a = 0
       /\ (forall j o', nth_error os j = Some o' -> j <> i -> o_counter o' <> Some a)
       /\ (forall j o', nth_error os j = Some o' -> o_output o' = Some a -> o_outtype o' = ONone).

(** The options given, in order. *)
Definition given_options (os : list opt) (es : list item) : list opt :=
  flat_map (fun e => match p_option e with
                     | Some i => match nth_error os i with Some o => [o] | None => [] end
                     | None => []
                     end) es.

(** The way an option uses the object [a]. *)
Definition counts_in (a : nat) (o : opt) : Prop := o_counter o = Some a.
Definition writes (a : nat) (k : outtype) (o : opt) : Prop := o_output o = Some a /\ o_outtype o = k.
(** [a] is used in no other way than those listed. *)
Definition only_output (a : nat) (k : outtype) (os : list opt) : Prop :=
  Forall (fun o => o_counter o <> Some a /\ (o_output o = Some a -> o_outtype o = k \/ o_outtype o = ONone)) os.
Definition only_counted (a : nat) (os : list opt) : Prop :=
  Forall (fun o => o_output o = Some a -> o_outtype o = OCounter \/ o_outtype o = ONone) os.
(** The amount by which an occurrence of [o] increases [a]. *)
Definition increase (a : nat) (o : opt) : N :=
  (match o_counter o with Some b => if Nat.eqb a b then 1 else 0 | None => 0 end)
  + match o_output o, o_outtype o with
    | Some b, OCounter => if Nat.eqb a b then o_value o else 0
    | _, _ => 0
    end.
