(** Model of the queries on JSON values, of the conversions of values and of JSON pointers of
    tm_json.h (C++ on an LP64 platform, the conversion functions based on stdlib.h, "C" locale).

    Texts are lists of bytes.  Not modelled: conversions to float and double (strtod). *)
From Coq Require Import Arith NArith ZArith List Bool.
Import ListNotations.
From Verif Require Import Base JsonModel.
Local Open Scope N_scope.

(** ** Values *)

(** tm_json.h 662-710, JsonValue, JsonObject, JsonArray, JsonNode.  [QContent]: every type but
    JVAL_OBJECT and JVAL_ARRAY; the content is [None] for the null string view.  An object has the
    field [lastAccess] of C++ builds. *)
Inductive qv :=
| QContent (t : vtype) (content : option (list N))
| QObject (last : nat) (nodes : list (list N * qv))
| QArray (values : list qv).

(** tm_json.h 3362, the nil value. *)
Definition nil_value : qv := QContent YNull None.

(** A value of a document (JsonModel.v); jsonReadObject zeroes [lastAccess] (tm_json.h 2750).
    [None]: partially written values. *)
Fixpoint of_jv (v : jv) : option qv :=
  match v with
  | VScalar t c => Some (QContent t (Some c))
  | VString c => Some (QContent YString (Some c))
  | VNoString => Some (QContent YString None)
  | VObject n ns =>
      if Nat.eqb n (length ns) then
        ms <- (fix go l := match l with
                           | [] => Some []
                           | (k, x) :: l => y <- of_jv x;; r <- go l;; Some ((k, y) :: r)
                           end) ns;;
        Some (QObject 0 ms)
      else None
  | VArray n vs =>
      if Nat.eqb n (length vs) then
        ws <- (fix go l := match l with
                           | [] => Some []
                           | x :: l => y <- of_jv x;; r <- go l;; Some (y :: r)
                           end) vs;;
        Some (QArray ws)
      else None
  | VUndef => None
  end.

(** tm_json.h 3298-3301, jsonIsNull. *)
Definition is_null (v : qv) : bool :=
  match v with QContent YNull (Some _) => true | _ => false end.
(** tm_json.h 3302, jsonIsIntegral (the order of the types is that of tm_json.h 352-363). *)
Definition is_integral (v : qv) : bool :=
  match v with QContent (YInt | YUInt | YBool | YFloat) _ => true | _ => false end.
(** tm_json.h 3303, jsonIsString. *)
Definition is_string (v : qv) : bool := match v with QContent YString _ => true | _ => false end.
(** tm_json.h 3489-3492, jsonIsValidValue. *)
Definition is_valid_value (v : qv) : bool := match v with QContent YNull _ => false | _ => true end.

(** JsonObject and JsonArray: the null pointer is [None] (nil objects and arrays). *)
Definition qobject : Type := nat * option (list (list N * qv)).
Definition qarray : Type := option (list qv).

(** tm_json.h 3304-3314, jsonGetObject. *)
Definition get_object (v : qv) : qobject :=
  match v with QObject last nodes => (last, Some nodes) | _ => (O, None) end.
(** tm_json.h 3315-3321, jsonGetArray (jsonGetObjectArray, 3322-3329, is the same). *)
Definition get_array (v : qv) : qarray := match v with QArray vs => Some vs | _ => None end.
(** tm_json.h 3481-3488, jsonIsValidObject, jsonIsValidArray. *)
Definition is_valid_object (o : qobject) : bool := match snd o with Some _ => true | None => false end.
Definition is_valid_array (a : qarray) : bool := match a with Some _ => true | None => false end.

(** tm_json.h 924-927, stringEquals. *)
Fixpoint bytes_eqb (a b : list N) : bool :=
  match a, b with
  | [], [] => true
  | x :: a, y :: b => (x =? y) && bytes_eqb a b
  | _, _ => false
  end.

(** The characters of a string up to its null byte. *)
Fixpoint cstr (s : list N) : list N :=
  match s with
  | [] => []
  | c :: s => if c =? 0 then [] else c :: cstr s
  end.

(** A loop of tm_json.h 3382-3389: the index, counted from [i], of the first node called [name]. *)
Fixpoint search (nodes : list (list N * qv)) (i : nat) (name : list N) : option nat :=
  match nodes with
  | [] => None
  | (n, _) :: t => if bytes_eqb n name then Some i else search t (S i) name
  end.

(** tm_json.h 3374-3402 and 3439-3465, jsonQueryMemberCached; [name] are the bytes of the name.
    The result is the index of the node and the new value of [*lastAccess].  A [*lastAccess]
    beyond the number of nodes is undefined behaviour (pointer arithmetic). *)
Definition query_member (last : nat) (nodes : list (list N * qv)) (name : list N)
  : option (option nat * nat) :=
  if Nat.ltb (length nodes) last then None
  else
    match search (skipn last nodes) last name with
    | Some i => Some (Some i, i)
    | None =>
        match search (firstn last nodes) O name with
        | Some i => Some (Some i, i)
        | None => Some (None, last)
        end
    end.

(** tm_json.h 3331-3346, 3365-3373, jsonGetMember and jsonGetMemberCached: the value of the member
    and the new value of [lastAccess] of the object. *)
Definition get_member (o : qobject) (name : list N) : option (qv * nat) :=
  let nodes := match snd o with Some ns => ns | None => [] end in
  ' (r, last) <- query_member (fst o) nodes name;;
  match r with
  | None => Some (nil_value, last)
  | Some i => match nth_error nodes i with Some (_, v) => Some (v, last) | None => None end
  end.

(** A history of calls of jsonGetMember on one object. *)
Fixpoint get_members (o : qobject) (names : list (list N)) : option (list qv) :=
  match names with
  | [] => Some []
  | n :: names =>
      ' (v, last) <- get_member o n;;
      vs <- get_members (last, snd o) names;;
      Some (v :: vs)
  end.

(** tm_json.h 3475-3479, jsonGetEntry. *)
Definition get_entry (a : qarray) (i : nat) : option qv :=
  match a with Some vs => nth_error vs i | None => None end.

(** tm_json.h 849-861, JsonObjectArrayIterator; the pointer is an index. *)
Definition iter_ne (a b : nat) : bool := negb (Nat.eqb a b).
Definition iter_eq (a b : nat) : bool := negb (Nat.eqb a b).

(** ** Conversions *)

Definition is_space (c : N) : bool := (c =? 32) || ((9 <=? c) && (c <=? 13)).
Definition digit_of (base c : N) : option N :=
  let d := if (48 <=? c) && (c <=? 57) then Some (c - 48)
           else if (65 <=? c) && (c <=? 90) then Some (c - 55)
           else if (97 <=? c) && (c <=? 122) then Some (c - 87)
           else None in
  match d with Some d => if d <? base then Some d else None | None => None end.

Fixpoint skip_spaces (s : list N) : list N :=
  match s with c :: t => if is_space c then skip_spaces t else s | [] => [] end.
Fixpoint digits_value (base : N) (s : list N) (acc : N) : N :=
  match s with
  | c :: t => match digit_of base c with Some d => digits_value base t (acc * base + d) | None => acc end
  | [] => acc
  end.
(** The sign and the magnitude that strtol and its relatives (C11 7.22.1.4) read at the beginning
    of a text; 0 if there is no number.  Part of the trusted base: the C library. *)
Definition strto (base : N) (s : list N) : bool * N :=
  let s := skip_spaces s in
  let '(neg, s) := match s with
                   | 45 :: t => (true, t)
                   | 43 :: t => (false, t)
                   | _ => (false, s)
                   end in
  let s := match s with
           | 48 :: x :: c :: t =>
               if (base =? 16) && ((x =? 120) || (x =? 88)) &&
                  match digit_of 16 c with Some _ => true | None => false end
               then c :: t else s
           | _ => s
           end in
  (neg, digits_value base s 0).

(** strtol, strtoll on LP64; [None] is ERANGE. *)
Definition strtol64 (base : N) (s : list N) : option Z :=
  let '(neg, m) := strto base s in
  let z := if neg then (- Z.of_N m)%Z else Z.of_N m in
  if ((z <? - 9223372036854775808) || (9223372036854775807 <? z))%Z then None else Some z.
(** strtoul, strtoull on LP64: a minus sign negates the result in the unsigned type. *)
Definition strtoul64 (base : N) (s : list N) : option N :=
  let '(neg, m) := strto base s in
  if W64 <=? m then None else Some (if neg then sub64 0 m else m).

(** Conversion of a long to int. *)
Definition to_s32 (z : Z) : Z :=
  let m := (z mod 4294967296)%Z in if (m <? 2147483648)%Z then m else (m - 4294967296)%Z.

(** tm_json.h 957-969, tmj_to_int: the text between the pointers, the value before the call. *)
Definition tmj_to_int (s : list N) (value : Z) (base : N) : Z :=
  if Nat.ltb 32 (length s) then value
  else match strtol64 base (cstr s) with None => value | Some z => to_s32 z end.
(** tm_json.h 970-982, tmj_to_uint. *)
Definition tmj_to_uint (s : list N) (value : N) (base : N) : N :=
  if Nat.ltb 32 (length s) then value
  else match strtoul64 base (cstr s) with None => value | Some n => w32 n end.
(** tm_json.h 1004-1016, tmj_to_int64. *)
Definition tmj_to_int64 (s : list N) (value : Z) (base : N) : Z :=
  if Nat.ltb 64 (length s) then value
  else match strtol64 base (cstr s) with None => value | Some z => z end.
(** tm_json.h 1017-1029, tmj_to_uint64. *)
Definition tmj_to_uint64 (s : list N) (value : N) (base : N) : N :=
  if Nat.ltb 64 (length s) then value
  else match strtoul64 base (cstr s) with None => value | Some n => n end.

(** The text from [data + 2] to [data + size - 2] (tm_json.h 1038 and others); its end lies before
    its beginning if the size is 3, which the conversion functions assert against. *)
Definition hex_range (s : list N) : option (list N) :=
  if Nat.ltb (length s) 4 then None else Some (firstn (length s - 4) (skipn 2 s)).

(** The common part of tm_json.h 1034-1057 and 1139-1163, jsonToInt and its relatives. *)
Definition to_number {A} (conv : list N -> A -> N -> A) (s : list N) (def : A) : option A :=
  match s with
  | [] => Some def
  | 48 :: x :: t =>
      if (x =? 120) || (x =? 88) then
        if Nat.eqb (length s) 2 then Some def
        else h <- hex_range s;; Some (conv h def 16)
      else Some (conv s def 10)
  | _ => Some (conv s def 10)
  end.
(** The unsigned versions treat a minus sign first. *)
Definition to_unsigned (conv : list N -> N -> N -> N) (s : list N) (def : N) : option N :=
  match s with
  | 45 :: t => Some (match t with [48] => 0 | _ => def end)
  | _ => to_number conv s def
  end.
(** tm_json.h 1034-1044, jsonToInt. *)
Definition to_int (s : list N) (def : Z) : option Z := to_number tmj_to_int s def.
(** tm_json.h 1045-1058, jsonToUInt. *)
Definition to_uint (s : list N) (def : N) : option N := to_unsigned tmj_to_uint s def.
(** tm_json.h 1139-1149, jsonToInt64. *)
Definition to_int64 (s : list N) (def : Z) : option Z := to_number tmj_to_int64 s def.
(** tm_json.h 1150-1163, jsonToUInt64. *)
Definition to_uint64 (s : list N) (def : N) : option N := to_unsigned tmj_to_uint64 s def.

Definition to_lower (c : N) : N := if (65 <=? c) && (c <=? 90) then c + 32 else c.
(** tm_json.h 928-938, stringEqualsIgnoreCase (the second text is not empty). *)
Definition equals_ignore_case (a b : list N) : bool := bytes_eqb (map to_lower a) b.

(** tm_json.h 1119-1137, jsonToBool. *)
Definition to_bool (s : list N) (def : bool) : bool :=
  match s with
  | [] => def
  | [c] => if c =? 48 then false else if c =? 49 then true else def
  | _ =>
      if equals_ignore_case s [116; 114; 117; 101] then true
      else if equals_ignore_case s [102; 97; 108; 115; 101] then false
      else def
  end.

(** The content of a value that is converted (tm_json.h 3494-3503 and others): [None] for null,
    objects and arrays. *)
Definition converted (v : qv) : option (list N) :=
  match v with
  | QContent YNull _ => None
  | QContent _ c => Some (match c with Some s => s | None => [] end)
  | _ => None
  end.
(** tm_json.h 3494-3577, jsonGetInt, jsonGetUInt, jsonGetBool, jsonGetInt64, jsonGetUInt64. *)
Definition get_int (v : qv) (def : Z) : option Z :=
  match converted v with Some s => to_int s def | None => Some def end.
Definition get_uint (v : qv) (def : N) : option N :=
  match converted v with Some s => to_uint s def | None => Some def end.
Definition get_bool (v : qv) (def : bool) : bool :=
  match converted v with Some s => to_bool s def | None => def end.
Definition get_int64 (v : qv) (def : Z) : option Z :=
  match converted v with Some s => to_int64 s def | None => Some def end.
Definition get_uint64 (v : qv) (def : N) : option N :=
  match converted v with Some s => to_uint64 s def | None => Some def end.
(** tm_json.h 865-870, JsonValueStruct::getString. *)
Definition get_string (v : qv) (def : option (list N)) : option (list N) :=
  match v with
  | QContent YNull (Some (_ :: _) as c) => c
  | QContent YNull _ => def
  | QContent _ c => c
  | _ => def
  end.

(** ** JSON pointers *)

(** Memory cells; [None] has not been written. *)
Definition cells : Type := list (option N).
Definition rd (b : cells) (i : nat) : option N :=
  match nth_error b i with Some (Some c) => Some c | _ => None end.

(** memcpy of [s] to [b], from index [i] on. *)
Fixpoint store (b : cells) (i : nat) (s : list N) : option cells :=
  match s with
  | [] => Some b
  | c :: s => b <- write b i (Some c);; store b (S i) s
  end.

Definition is_digit (c : N) : bool := (48 <=? c) && (c <=? 57).
Definition is_xdigit (c : N) : bool :=
  is_digit c || ((65 <=? c) && (c <=? 70)) || ((97 <=? c) && (c <=? 102)).

(** tm_json.h 3677-3714 (is_fragment) and 3716-3733: the loop that unescapes the segment in the
    buffer.  [inl]: an error; [inr]: the buffer and [out_index]. *)
Fixpoint unescape_loop (fuel : nat) (frag : bool) (b : cells) (len i out : nat)
  : option (unit + cells * nat) :=
  match fuel with
  | O => None
  | S fuel =>
      if Nat.leb len i then Some (inr (b, out))
      else
        c <- rd b i;;
        if frag && (c =? 37) then
          x <- rd b (i + 1);;
          if is_xdigit x then
            y <- rd b (i + 2);;
            if is_xdigit y then
              b <- write b out (Some ((tmj_to_uint [x; y] 0 16) mod 256));;
              unescape_loop fuel frag b len (i + 3) (S out)
            else Some (inl tt)
          else Some (inl tt)
        else if c =? 126 then
          x <- rd b (i + 1);;
          if x =? 48 then
            b <- write b out (Some 126);; unescape_loop fuel frag b len (i + 2) (S out)
          else if x =? 49 then
            b <- write b out (Some 47);; unescape_loop fuel frag b len (i + 2) (S out)
          else Some (inl tt)
        else
          b <- write b out (Some c);; unescape_loop fuel frag b len (i + 1) (S out)
  end.

(** The string at the beginning of the buffer (strlen in jsonQueryMemberCached). *)
Fixpoint cells_str (b : cells) : option (list N) :=
  match b with
  | Some c :: b => if c =? 0 then Some [] else s <- cells_str b;; Some (c :: s)
  | _ => None
  end.

(** Calls of the allocator: the number of bytes and whether the call succeeded. *)
Inductive mem_event := EMalloc (n : nat) (ok : bool) | ERealloc (n : nat) (ok : bool) | EFree.

(** The buffer of jsonResolveJsonPointer: its memory, [buffer_size], whether it is [sbo]; the calls
    of the allocator so far, latest first. *)
Record pstate := PState { p_cells : cells; p_size : nat; p_sbo : bool; p_events : list mem_event }.

(** tm_json.h 3650-3668: the buffer is made large enough.  [or] tells for the calls of the
    allocator by their number whether they succeed.  [inl]: an error. *)
Definition reserve (or : nat -> bool) (st : pstate) (len : nat) : pstate + pstate :=
  if Nat.ltb (p_size st) (len + 1) then
    let n := Nat.max (p_size st * 2) (len + 1) in
    let ok := or (length (p_events st)) in
    if p_sbo st then
      let ev := EMalloc n ok :: p_events st in
      if ok then inr (PState (repeat None n) n false ev)
      else inl (PState (p_cells st) (p_size st) true ev)
    else
      let ev := ERealloc (n * 8) ok :: p_events st in
      if ok then inr (PState (p_cells st ++ repeat None (n * 8 - length (p_cells st))) n false ev)
      else inl (PState (p_cells st) (p_size st) false ev)
  else inr st.

(** The text up to the next slash, and the text from there on (strchr). *)
Fixpoint segment (s : list N) : list N * list N :=
  match s with
  | [] => ([], [])
  | c :: t => if c =? 47 then ([], s) else let '(a, b) := segment t in (c :: a, b)
  end.

(** tm_json.h 3624-3646, 3648-3737: one round of the loop, for the segment [seg].  [None] in the
    result is an error. *)
Definition resolve_step (or : nat -> bool) (frag : bool) (st : pstate) (cur : qv) (seg : list N)
  : option (option qv * pstate) :=
  if match seg with c :: _ => is_digit c | [] => false end then
    match cur with
    | QArray vs =>
        let index := tmj_to_uint64 seg 0 10 in
        if N.of_nat (length vs) <=? index then Some (None, st)
        else v <- nth_error vs (N.to_nat index);; Some (Some v, st)
    | _ => Some (None, st)
    end
  else
    match cur with
    | QObject _ _ =>
        let len := length seg in
        match reserve or st len with
        | inl st => Some (None, st)
        | inr st =>
            b <- store (p_cells st) 0 seg;;
            b <- write b len (Some 0);;
            u <- unescape_loop (S len) frag b len 0 0;;
            match u with
            | inl _ => Some (None, PState b (p_size st) (p_sbo st) (p_events st))
            | inr (b, out) =>
                b <- write b out (Some 0);;
                name <- cells_str b;;
                ' (v, _) <- get_member (get_object cur) name;;
                Some (Some v, PState b (p_size st) (p_sbo st) (p_events st))
            end
        end
    | _ => Some (None, st)
    end.

(** tm_json.h 3632-3756: the loop; [s] is the text behind the slash. *)
Fixpoint resolve_loop (fuel : nat) (or : nat -> bool) (frag : bool) (st : pstate) (cur : qv) (s : list N)
  : option (option qv * pstate) :=
  match fuel with
  | O => None
  | S fuel =>
      let '(seg, next) := segment s in
      ' (r, st) <- resolve_step or frag st cur seg;;
      match r, next with
      | None, _ => Some (None, st)
      | Some v, [] => Some (Some v, st)
      | Some v, _ :: s => resolve_loop fuel or frag st v s
      end
  end.

(** tm_json.h 3581-3772, jsonResolveJsonPointer: the value and the calls of the allocator in
    their order.  [sbo] is an uninitialised array of 64 bytes. *)
Definition resolve (or : nat -> bool) (v : qv) (pointer : list N) : option (qv * list mem_event) :=
  let p := cstr pointer in
  let '(frag, p) := match p with 35 :: t => (true, t) | _ => (false, p) end in
  let st := PState (repeat None 64) 64 true [] in
  ' (r, st) <- (match snd (segment p) with
                | [] => Some (Some v, st)
                | _ :: s => resolve_loop (S (length s)) or frag st v s
                end);;
  let ev := rev (if p_sbo st then p_events st else EFree :: p_events st) in
  Some (match r with Some w => w | None => nil_value end, ev).
