(** Model of the table generator tools/unicode_gen: from parsed Unicode data (src/main.cpp 460-478) to the generated
    lookup program (src/generate.cpp). The generated C source is represented by its meaning: tables, statements of the
    accessor functions, members and initializers of the entries; [run_one], [run_two] and the getters execute it.

    Simplifications: block_size and pruned_size (main.cpp 65-71) are parameters; int32_t indices of blocks and entries do
    not overflow (there are less than 2^31); unused cells of ucd_block.offset behind block_size are left out (all of them
    hold the same value); memcmp of entries compares their members. A failed assertion, fatal_error, an access outside
    of an array and generated text that does not compile are [None]. *)
From Coq Require Import ZArith NArith List Bool.
Import ListNotations.
Local Open Scope Z_scope.

Definition obind {A C} (o : option A) (f : A -> option C) : option C :=
  match o with Some a => f a | None => None end.
Notation "'let!' x := e 'in' k" := (obind e (fun x => k)) (at level 200, x pattern, e at level 100, k at level 200).
Definition guard (b : bool) : option unit := if b then Some tt else None.

(** ** Input (main.cpp 219-264, 318-337, 427-473) *)

(** main.cpp 219-258, the names are those of category_enum_strings (261-264); [Lany] is "L" and so on. *)
Inductive category :=
| Cany | Lu | Ll | Lt | LC | Lm | Lo | Lany | Mn | Mc | Me | Many | Nd | Nl | No | Nany
| Pc | Pd | Ps | Pe | Pi | Pf | Po | Pany | Sm | Sc | Sk | So | Sany | Zs | Zl | Zp | Zany
| Cc | Cf | Cs | Co | Cn.

(** main.cpp 318-337 *)
Inductive grapheme :=
| GOther | GCr | GLf | GControl | GPrepend | GExtend | GRegional | GSpacing | GL | GV | GT | GLV | GLVT | GZwj
| GPictographic.
Definition grapheme_num (g : grapheme) : Z :=
  match g with
  | GOther => 0 | GCr => 1 | GLf => 2 | GControl => 3 | GPrepend => 4 | GExtend => 5 | GRegional => 6 | GSpacing => 7
  | GL => 8 | GV => 9 | GT => 10 | GLV => 11 | GLVT => 12 | GZwj => 13 | GPictographic => 14
  end.

(** main.cpp 435-441; invalid_codepoint is [None]; the turkic folding is not used by the generator. *)
Record simple_case := { s_upper : option Z; s_lower : option Z; s_title : option Z; s_fold : option Z }.
(** main.cpp 443-452; arrays with their counts are lists. *)
Record full_case := { fu_upper : list Z; fu_lower : list Z; fu_title : list Z; fu_fold : list Z }.
(** main.cpp 460-473. [d_white]: the bidirectional category is whitespace; [d_wide]: the width is full or wide;
    [d_tag]: whether the tag is tag_canonical, and the values. *)
Record udata := {
  d_cp : N; d_cat : category; d_white : bool; d_gb : grapheme; d_wide : bool;
  d_simple : option simple_case; d_full : option full_case; d_tag : option (bool * list Z) }.

(** main.cpp 74-101; [f_assert]: an assertion macro is given (option_strings.assert_name). *)
Record flags := {
  f_case_info : bool; f_category : bool; f_grapheme : bool; f_width : bool;
  f_canonical : bool; f_compat : bool;
  f_full : bool; f_full_fold : bool; f_full_toggle : bool;
  f_simple : bool; f_simple_fold : bool; f_simple_toggle : bool;
  f_prune1 : bool; f_prune2 : bool; f_invalid : bool; f_assert : bool }.

(** ** Entries *)

(** ucd_entry::data_t, main.cpp 1243-1262 *)
Record edata := {
  e_flags : Z; e_gb : Z; e_width : Z;
  e_canonical : Z; e_simple_canonical : Z; e_compat : Z; e_simple_compat : Z;
  e_full_upper : Z; e_full_title : Z; e_full_lower : Z; e_full_toggle : Z; e_full_fold : Z;
  e_simple_upper : Z; e_simple_title : Z; e_simple_lower : Z; e_simple_toggle : Z; e_simple_fold : Z }.
Definition edata_cells (e : edata) : list Z :=
  [e_flags e; e_gb e; e_width e; e_canonical e; e_simple_canonical e; e_compat e; e_simple_compat e;
   e_full_upper e; e_full_title e; e_full_lower e; e_full_toggle e; e_full_fold e;
   e_simple_upper e; e_simple_title e; e_simple_lower e; e_simple_toggle e; e_simple_fold e].
Definition edata_zero : edata :=
  {| e_flags := 0; e_gb := 0; e_width := 0; e_canonical := 0; e_simple_canonical := 0; e_compat := 0;
     e_simple_compat := 0; e_full_upper := 0; e_full_title := 0; e_full_lower := 0; e_full_toggle := 0;
     e_full_fold := 0; e_simple_upper := 0; e_simple_title := 0; e_simple_lower := 0; e_simple_toggle := 0;
     e_simple_fold := 0 |}.
Fixpoint zlist_eqb (a b : list Z) : bool :=
  match a, b with
  | [], [] => true
  | x :: a', y :: b' => (x =? y) && zlist_eqb a' b'
  | _, _ => false
  end.
(** ucd_entry::equals, main.cpp 1267 *)
Definition edata_eqb (a b : edata) : bool := zlist_eqb (edata_cells a) (edata_cells b).

(** to_flags, main.cpp 1104-1211: the category (1114-1177) *)
Definition category_class (c : category) : Z :=
  match c with
  | Lu | Ll | Lt | LC | Lm | Lo | Lany => 1
  | Mn | Mc | Me | Many => 2
  | Nd | Nl | No | Nany => 3
  | Pc | Pd | Ps | Pe | Pi | Pf | Po | Pany => 4
  | Sm | Sc | Sk | So | Sany => 5
  | Zs | Zl | Zp | Zany => 6
  | _ => 0
  end.
(** main.cpp 1180-1199 *)
Definition case_class (c : category) : Z := match c with Lu => 1 | Ll => 2 | Lt => 3 | _ => 0 end.
(** main.cpp 1104-1211; masks and shifts from 1076-1098. *)
Definition to_flags (fcat fcase : bool) (c : category) (white : bool) : Z :=
  let ucd_category := if fcat then category_class c else 0 in
  let ucd_whitespace := if fcat then (if white then 64 else 0) else 0 in
  let ucd_case := if fcase then case_class c else 0 in
  Z.lor (Z.lor (Z.shiftl (Z.land ucd_category 7) 0) (Z.shiftl (Z.land ucd_case 3) 3)) ucd_whitespace.

(** ** Unique runs and entries *)

(** unique_ucd::add_unique_run, main.cpp 1425-1440: the loop; [off] is the offset of the first run of [runs]. *)
Fixpoint find_run (runs : list (list Z)) (cps : list Z) (off : Z) : bool * Z :=
  match runs with
  | [] => (false, off)
  | r :: rest => if zlist_eqb r cps then (true, off) else find_run rest cps (off + Z.of_nat (List.length r) + 1)
  end.
Definition add_unique_run (runs : list (list Z)) (cps : list Z) : list (list Z) * Z :=
  match cps with
  | [] => (runs, 0)
  | _ => let (found, off) := find_run runs cps 0 in (if found then runs else runs ++ [cps], off)
  end.
(** unique_ucd::add_unique_ucd_entry, main.cpp 1441-1450 *)
Fixpoint find_entry (es : list edata) (e : edata) (i : nat) : bool * nat :=
  match es with
  | [] => (false, i)
  | x :: rest => if edata_eqb x e then (true, i) else find_entry rest e (S i)
  end.
Definition add_unique_entry (es : list edata) (e : edata) : list edata * nat :=
  let (found, i) := find_entry es e 0 in (if found then es else es ++ [e], i).

(** ** Staged tables *)

(** A block of stage two: [None] are the cells that hold -1 (ucd_block, main.cpp 1294-1304). *)
Definition rawblock := list (option nat).
(** vector<int32_t> stage_one, -1 is [None]; vector<ucd_block> stage_two (main.cpp 1415-1416). *)
Record staged := { one : list (option nat); two : list rawblock }.

Definition set_nth {A} (i : nat) (x : A) (l : list A) : list A :=
  if (i <? List.length l)%nat then firstn i l ++ x :: skipn (S i) l else l.

(** add_to_multistage_table_impl, main.cpp 1473-1487 *)
Definition add_to_table (B : nat) (t : staged) (cp : N) (entry : nat) : option staged :=
  let i := N.to_nat (cp / N.of_nat B) in
  let j := N.to_nat (cp mod N.of_nat B) in
  let one1 := if (List.length (one t) <=? i)%nat
              then one t ++ repeat None (S i - List.length (one t)) else one t in
  let! o := nth_error one1 i in
  let '(one2, two2, index) :=
    match o with
    | None => (set_nth i (Some (List.length (two t))) one1, two t ++ [repeat None B], List.length (two t))
    | Some index => (one1, two t, index)
    end in
  let! block := nth_error two2 index in
  let! cell := nth_error block j in
  let! _ := guard (match cell with None => true | Some _ => false end) in
  Some {| one := one2; two := set_nth index (set_nth j (Some entry) block) two2 |}.

(** ** generate_tables, main.cpp 1893-2001 *)

(** unique_ucd, main.cpp 1402-1426 *)
Record ucd := {
  r_upper : list (list Z); r_title : list (list Z); r_lower : list (list Z); r_fold : list (list Z);
  r_canonical : list (list Z); r_compat : list (list Z);
  r_entries : list edata; r_staged : staged }.
Definition ucd_init (B : nat) : ucd :=
  {| r_upper := [[]]; r_title := [[]]; r_lower := [[]]; r_fold := [[]]; r_canonical := [[]]; r_compat := [[]];
     r_entries := [edata_zero]; r_staged := {| one := []; two := [repeat (Some 0%nat) B] |} |}.

(** main.cpp 1914-1924 *)
Definition width_of (fl : flags) (d : udata) : Z :=
  if f_width fl then
    match d_gb d with
    | GExtend | GPrepend | GZwj | GControl | GCr | GLf => 0
    | _ => if d_wide d then 2 else 1
    end
  else 0.
Definition shift_to (cp : N) (o : option Z) : Z := match o with Some v => v - Z.of_N cp | None => 0 end.

(** The body of the loop, main.cpp 1902-1993. Additions of runs happen in the order of the code: canonical, upper,
    title, lower, toggle, fold. *)
Definition add_data (B : nat) (fl : flags) (u : ucd) (d : udata) : option ucd :=
  let cp := d_cp d in
  let! _ := guard (cp <=? 1114111)%N in
  let case_bits := case_class (d_cat d) in
  (* 1926-1946; runs of canonical and compatibility mappings are only added for tags without values *)
  let tagged := f_canonical fl || f_compat fl in
  let '(canon, s_canon, s_comp) :=
    match d_tag d with
    | Some (true, vs) =>
        if tagged && f_canonical fl then
          match vs with v :: _ => (r_canonical u, v - Z.of_N cp, 0) | [] => (fst (add_unique_run (r_canonical u) vs), 0, 0) end
        else (r_canonical u, 0, 0)
    | Some (false, vs) =>
        if tagged && f_compat fl then
          match vs with v :: _ => (r_canonical u, 0, v - Z.of_N cp) | [] => (fst (add_unique_run (r_canonical u) vs), 0, 0) end
        else (r_canonical u, 0, 0)
    | None => (r_canonical u, 0, 0)
    end in
  (* 1948-1969 *)
  let '(up, i_up, ti, i_ti, lo, i_lo, i_tog, fo, i_fo) :=
    match d_full d with
    | None => (r_upper u, 0, r_title u, 0, r_lower u, 0, 0, r_fold u, 0)
    | Some f =>
        let '(up1, i_up) := if f_full fl then add_unique_run (r_upper u) (fu_upper f) else (r_upper u, 0) in
        let '(ti1, i_ti) := if f_full fl then add_unique_run (r_title u) (fu_title f) else (r_title u, 0) in
        let '(lo1, i_lo) := if f_full fl then add_unique_run (r_lower u) (fu_lower f) else (r_lower u, 0) in
        let '(up2, lo2, i_tog) :=
          if f_full_toggle fl then
            if case_bits =? 2 then let '(r, i) := add_unique_run up1 (fu_upper f) in (r, lo1, i)
            else if case_bits =? 1 then let '(r, i) := add_unique_run lo1 (fu_lower f) in (up1, r, - i)
            else (up1, lo1, 0)
          else (up1, lo1, 0) in
        let '(fo1, i_fo) := if f_full_fold fl then add_unique_run (r_fold u) (fu_fold f) else (r_fold u, 0) in
        (up2, i_up, ti1, i_ti, lo2, i_lo, i_tog, fo1, i_fo)
    end in
  (* 1971-1993 *)
  let s := match d_simple d with Some s => s | None => {| s_upper := None; s_lower := None; s_title := None; s_fold := None |} end in
  let e := {|
    e_flags := to_flags (f_category fl) (f_case_info fl) (d_cat d) (d_white d);
    e_gb := if f_grapheme fl then grapheme_num (d_gb d) else 0;
    e_width := width_of fl d;
    e_canonical := 0; e_simple_canonical := s_canon; e_compat := 0; e_simple_compat := s_comp;
    e_full_upper := i_up; e_full_title := i_ti; e_full_lower := i_lo; e_full_toggle := i_tog; e_full_fold := i_fo;
    e_simple_upper := if f_simple fl then shift_to cp (s_upper s) else 0;
    e_simple_title := if f_simple fl then shift_to cp (s_title s) else 0;
    e_simple_lower := if f_simple fl then shift_to cp (s_lower s) else 0;
    e_simple_toggle := if f_simple_toggle fl then
                         (if case_bits =? 2 then shift_to cp (s_upper s)
                          else if case_bits =? 1 then shift_to cp (s_lower s) else 0) else 0;
    e_simple_fold := if f_simple_fold fl then shift_to cp (s_fold s) else 0 |} in
  (* 1995 *)
  let '(es, index) := add_unique_entry (r_entries u) e in
  let! t := add_to_table B (r_staged u) cp index in
  Some {| r_upper := up; r_title := ti; r_lower := lo; r_fold := fo; r_canonical := canon; r_compat := r_compat u;
          r_entries := es; r_staged := t |}.
Fixpoint add_all (B : nat) (fl : flags) (u : ucd) (ds : list udata) : option ucd :=
  match ds with
  | [] => Some u
  | d :: rest => let! u1 := add_data B fl u d in add_all B fl u1 rest
  end.

(** ** Pruning *)

Fixpoint nlist_eqb (a b : list nat) : bool :=
  match a, b with
  | [], [] => true
  | x :: a', y :: b' => (x =? y)%nat && nlist_eqb a' b'
  | _, _ => false
  end.
(** prune_duplicate_blocks_impl, main.cpp 1497-1559: unallocated cells are bound to the default entry (1505-1510). *)
Definition normalize (b : rawblock) : list nat := map (fun c => match c with Some v => v | None => 0%nat end) b.
(** 1513-1523: the inner and the outer loop; the outer loop at [i] changes only blocks behind [i]. *)
Definition mark (cur : list nat) (i : nat) (l : list (list nat * option nat)) : list (list nat * option nat) :=
  map (fun p => match snd p with
                | Some _ => p
                | None => if nlist_eqb (fst p) cur then (fst p, Some i) else p
                end) l.
Fixpoint mark_from (i : nat) (l : list (list nat * option nat)) (n : nat) : list (list nat * option nat) :=
  match n with
  | O => l
  | S n' => match l with
            | [] => []
            | x :: r => x :: mark_from (S i) (mark (fst x) i r) n'
            end
  end.
Definition mark_all (bs : list (list nat)) : list (list nat * option nat) :=
  mark_from 0 (map (fun b => (b, None)) bs) (List.length bs).
(** 1526-1540: one cell of stage one *)
Definition rebind (marked : list (list nat * option nat)) (o : option nat) : option nat :=
  match o with
  | None => Some 0%nat
  | Some i =>
      let! p := nth_error marked i in
      match snd p with
      | None => Some i
      | Some r => let! q := nth_error marked r in
                  let! _ := guard (match snd q with None => true | Some _ => false end) in
                  Some r
      end
  end.
Fixpoint omap {A C} (f : A -> option C) (l : list A) : option (list C) :=
  match l with
  | [] => Some []
  | x :: r => let! y := f x in let! ys := omap f r in Some (y :: ys)
  end.
(** 1543-1550: blocks without references are dropped; [i] is the index of the first block, [k] the size of the new
    vector. The second component gives the new index of each block, [None] if it was dropped. *)
Fixpoint compact (s1 : list nat) (i k : nat) (l : list (list nat * option nat)) : option (list (list nat) * list (option nat)) :=
  match l with
  | [] => Some ([], [])
  | p :: r =>
      if existsb (Nat.eqb i) s1 then
        let! _ := guard (match snd p with None => true | Some _ => false end) in
        let! (bs, idx) := compact s1 (S i) (S k) r in Some (fst p :: bs, Some k :: idx)
      else
        let! (bs, idx) := compact s1 (S i) k r in Some (bs, snd p :: idx)
  end.
(** 1553-1558 *)
Definition rebind2 (idx : list (option nat)) (i : nat) : option nat :=
  let! o := nth_error idx i in o.
Definition prune_duplicates (t : staged) : option (list nat * list (list nat)) :=
  let marked := mark_all (map normalize (two t)) in
  let! s1 := omap (rebind marked) (one t) in
  let! (bs, idx) := compact s1 0 0 marked in
  let! s1' := omap (rebind2 idx) s1 in
  Some (s1', bs).

(** pruned_block_range, main.cpp 1281-1287 *)
Record range := { rg_first : nat; rg_last : nat; rg_value : nat }.
Definition rg_length (r : range) : nat := (rg_last r - rg_first r)%nat.
(** extractor::next_range, main.cpp 1590-1599: the cells that equal the first one *)
Fixpoint run_length (v : nat) (l : list nat) : nat :=
  match l with
  | x :: r => if (x =? v)%nat then S (run_length v r) else O
  | [] => O
  end.
(** the loop in main.cpp 1610-1612: at most [n] ranges; the rest that is not covered *)
Fixpoint extract (n pos : nat) (l : list nat) : list range * list nat :=
  match n with
  | O => ([], l)
  | S n' =>
      match l with
      | [] => ([], [])
      | v :: r =>
          let k := run_length v r in
          let '(rs, rest) := extract n' (pos + 1 + k) (skipn k r) in
          ({| rg_first := pos; rg_last := pos + 1 + k; rg_value := v |} :: rs, rest)
      end
  end.
(** main.cpp 1613-1661: the ranges of a block that needs no table *)
Definition trivial (b : list nat) : option (list range) :=
  let '(rs, rest) := extract 5 0 b in
  match rest with
  | _ :: _ => None
  | [] =>
      match rs with
      | [_] | [_; _] => Some rs
      | [r0; _; r2] => if (rg_value r0 =? rg_value r2)%nat then Some rs else None
      | [r0; r1; r2; r3] =>
          if (rg_value r0 =? rg_value r2)%nat && (rg_value r1 =? rg_value r3)%nat &&
             (((rg_length r0 =? 1)%nat && (rg_length r2 =? 1)%nat) || ((rg_length r1 =? 1)%nat && (rg_length r3 =? 1)%nat))
          then Some rs else None
      | [r0; r1; r2; r3; r4] =>
          if (rg_value r0 =? rg_value r2)%nat && (rg_value r0 =? rg_value r4)%nat && (rg_value r1 =? rg_value r3)%nat &&
             ((rg_length r1 =? 1)%nat && (rg_length r3 =? 1)%nat)
          then Some rs else None
      | _ => None
      end
  end.
(** A block with its ranges ([None]: ranges.count is 0) and its redirect_index. *)
Record placed := { pl_block : list nat; pl_ranges : option (list range); pl_index : nat }.
(** prune_trivial_blocks, main.cpp 1604-1662 *)
Fixpoint place_one (cur : nat) (bs : list (list nat)) : list placed * nat :=
  match bs with
  | [] => ([], cur)
  | b :: r =>
      let t := trivial b in
      let '(ps, n) := place_one (match t with Some _ => cur | None => S cur end) r in
      ({| pl_block := b; pl_ranges := t; pl_index := cur |} :: ps, n)
  end.
(** 1667-1669 *)
Fixpoint place_two (cur : nat) (ps : list placed) : list placed :=
  match ps with
  | [] => []
  | p :: r =>
      match pl_ranges p with
      | Some _ => {| pl_block := pl_block p; pl_ranges := pl_ranges p; pl_index := cur |} :: place_two (S cur) r
      | None => p :: place_two cur r
      end
  end.
(** 1679-1682 *)
Definition rearrange (ps : list placed) : list placed :=
  fold_left (fun acc p => set_nth (pl_index p) p acc) ps
            (repeat {| pl_block := []; pl_ranges := None; pl_index := 0 |} (List.length ps)).
(** 1583-1686 *)
Definition prune_trivial (s1 : list nat) (bs : list (list nat)) : option (list nat * list placed * nat) :=
  let '(ps1, start) := place_one 0 bs in
  let ps := place_two start ps1 in
  let! s1' := omap (fun i => let! p := nth_error ps i in Some (pl_index p)) s1 in
  Some (s1', rearrange ps, start).

(** main.cpp 1569-1578: pruned_stage_one_size, the loop at index [i] *)
Fixpoint shrink (s1 : list nat) (dflt i : nat) : option nat :=
  match i with
  | O => Some 1%nat
  | S i' => let! v := nth_error s1 i in if (v =? dflt)%nat then shrink s1 dflt i' else Some (S i)
  end.

(** The tables behind prune_duplicate_blocks, main.cpp 1560-1579: stage one, stage two, pruned_stage_two_start,
    pruned_stage_one_size. *)
Record tables := { t_one : list nat; t_two : list placed; t_start : nat; t_one_size : nat }.
Definition prune (P : nat) (fl : flags) (t : staged) : option tables :=
  let! (s1, bs) := prune_duplicates t in
  let! (s1', ps, start) :=
    if f_prune2 fl then prune_trivial s1 bs
    else Some (s1, map (fun b => {| pl_block := b; pl_ranges := None; pl_index := 0 |}) bs, 0%nat) in
  let! size := if f_prune1 fl then shrink s1' start (P - 1) else Some 0%nat in
  Some {| t_one := s1'; t_two := ps; t_start := start; t_one_size := size |}.

(** ** Types of the generated tables *)

(** ucd_min_sizes::pair, main.cpp 1307-1310 *)
Record ctype := { c_signed : bool; c_size : Z }.
(** value_to_size, main.cpp 1796-1824; minimum and maximum start at 0 (1690-1707) *)
Definition fits (t : ctype) (v : Z) : bool :=
  if c_signed t then (- 2 ^ (c_size t - 1) <=? v) && (v <=? 2 ^ (c_size t - 1) - 1)
  else (0 <=? v) && (v <=? 2 ^ (c_size t) - 1).
Definition minmax (vs : list Z) : Z * Z :=
  fold_left (fun '(lo, hi) v => (Z.min v lo, Z.max v hi)) vs (0, 0).
Definition type_choices : list ctype :=
  [{| c_signed := false; c_size := 8 |}; {| c_signed := false; c_size := 16 |}; {| c_signed := false; c_size := 32 |};
   {| c_signed := true; c_size := 8 |}; {| c_signed := true; c_size := 16 |}; {| c_signed := true; c_size := 32 |}].
Definition value_to_size (p : Z * Z) : option ctype :=
  let (lo, hi) := p in
  if lo =? hi then Some {| c_signed := false; c_size := 0 |}
  else let! t := find (fun t => fits t lo && fits t hi) type_choices in
       Some {| c_signed := lo <? 0; c_size := c_size t |}.
(** get_type_from_size, generate.cpp 5-14: there is no type of 0 bits. *)
Definition get_type (t : ctype) : option ctype := if 0 <? c_size t then Some t else None.
(** Conversion of an int to the type of an element or a result. *)
Definition cast (t : ctype) (v : Z) : Z :=
  let m := 2 ^ c_size t in
  let r := v mod m in
  if c_signed t then (if r <? m / 2 then r else r - m) else r.

(** ** The generated program *)

(** Statements of get_stage_one_value_internal, generate.cpp 476-590. *)
Inductive stmt :=
| IfGe (n : nat) (v : Z)               (* if (index >= n) return v; *)
| Assert (n : nat)                     (* assert(index < n); *)
| IfTable (n : nat)                    (* if (index < n) return ucd_stage_one[index]; *)
| Switch (cases : list (nat * nat))    (* switch (index) { case i: return v; ... } *)
| IfRange (first last v : nat)         (* if (index >= first && index < last) return v; *)
| Return (v : Z)                       (* return v; *)
| ReturnTable.                         (* return ucd_stage_one[index]; *)
(** generate.cpp 518-544: outliers and ranges of the part of stage one that is not in the table. *)
Fixpoint collect (fuel : nat) (dflt pos : nat) (l : list nat) : list (nat * nat) * list range :=
  match fuel with
  | O => ([], [])
  | S fuel' =>
      match l with
      | [] => ([], [])
      | v :: r =>
          if (v =? dflt)%nat then collect fuel' dflt (S pos) r
          else
            let k := run_length v r in
            let '(os, rs) := collect fuel' dflt (pos + 1 + k) (skipn k r) in
            if (1 + k <? 5)%nat then (map (fun i => (i, v)) (seq pos (1 + k)) ++ os, rs)
            else (os, {| rg_first := pos; rg_last := pos + 1 + k; rg_value := v |} :: rs)
      end
  end.
(** generate.cpp 546-577: ranges of the same block are joined if only outliers are between them. *)
Fixpoint join (os : list (nat * nat)) (cur : range) (rs : list range) : list range :=
  match rs with
  | [] => [cur]
  | next :: rest =>
      if (rg_value cur =? rg_value next)%nat &&
         forallb (fun gap => existsb (fun o => (fst o =? gap)%nat) os)
                 (seq (rg_last cur) (rg_first next - rg_last cur))
      then join os {| rg_first := rg_first cur; rg_last := rg_last next; rg_value := rg_value cur |} rest
      else cur :: join os next rest
  end.
(** generate.cpp 475-590; [handled]: an index behind the table needs no further statement. *)
Definition one_function (fl : flags) (t : tables) : list stmt :=
  let dflt := t_start t in
  let rest := skipn (t_one_size t) (t_one t) in
  let all_default := forallb (fun v => (v =? dflt)%nat) rest in
  (if f_invalid fl then
     if negb (f_prune1 fl) || negb all_default then [IfGe (List.length (t_one t)) (Z.of_nat dflt)] else []
   else if f_assert fl then [Assert (List.length (t_one t))] else []) ++
  (if f_prune1 fl then
     if all_default then [IfTable (t_one_size t); Return (Z.of_nat dflt)]
     else
       let '(os, rs) := collect (List.length rest) dflt (t_one_size t) rest in
       let rs' := match rs with [] => [] | r :: rs => join os r rs end in
       [IfTable (t_one_size t)] ++ (match os with [] => [] | _ => [Switch os] end) ++
       map (fun r => IfRange (rg_first r) (rg_last r) (rg_value r)) rs' ++ [Return (Z.of_nat dflt)]
   else [ReturnTable]).
Fixpoint run_one (tab : list Z) (ss : list stmt) (i : nat) : option Z :=
  match ss with
  | [] => None
  | IfGe n v :: r => if (n <=? i)%nat then Some v else run_one tab r i
  | Assert n :: r => if (i <? n)%nat then run_one tab r i else None
  | IfTable n :: r => if (i <? n)%nat then nth_error tab i else run_one tab r i
  | Switch cs :: r => match find (fun c => (fst c =? i)%nat) cs with
                      | Some c => Some (Z.of_nat (snd c))
                      | None => run_one tab r i
                      end
  | IfRange a b v :: r => if (a <=? i)%nat && (i <? b)%nat then Some (Z.of_nat v) else run_one tab r i
  | Return v :: _ => Some v
  | ReturnTable :: _ => nth_error tab i
  end.

(** Results of the cases of get_stage_two_value_internal, generate.cpp 603-677. *)
Inductive expr :=
| Const (a : nat)                    (* a *)
| IfEq (i a b : nat)                 (* (offset == i) ? a : b *)
| IfLt (i a b : nat)                 (* (offset < i) ? a : b *)
| IfGeq (i a b : nat)                (* (offset >= i) ? a : b *)
| IfIn (i j a b : nat)               (* (offset >= i && offset < j) ? a : b *)
| IfEq2 (i j a b : nat).             (* (offset == i || offset == j) ? a : b *)
Definition eval (e : expr) (off : nat) : nat :=
  match e with
  | Const a => a
  | IfEq i a b => if (off =? i)%nat then a else b
  | IfLt i a b => if (off <? i)%nat then a else b
  | IfGeq i a b => if (i <=? off)%nat then a else b
  | IfIn i j a b => if (i <=? off)%nat && (off <? j)%nat then a else b
  | IfEq2 i j a b => if (off =? i)%nat || (off =? j)%nat then a else b
  end.
(** print_range, generate.cpp 603-614 *)
Definition range_expr (B first last a b : nat) : expr :=
  if (last - first =? 1)%nat then IfEq first a b
  else if (first =? 0)%nat then IfLt last a b
  else if (last =? B)%nat then IfGeq first a b
  else IfIn first last a b.
(** generate.cpp 627-677 *)
Definition case_expr (B : nat) (rs : list range) : option expr :=
  match rs with
  | [r0] => Some (Const (rg_value r0))
  | [r0; r1] => Some (range_expr B (rg_first r0) (rg_last r0) (rg_value r0) (rg_value r1))
  | [r0; r1; _] => Some (range_expr B (rg_first r1) (rg_last r1) (rg_value r1) (rg_value r0))
  | [r0; r1; r2; r3] =>
      Some (if (rg_length r0 =? 1)%nat then IfEq2 (rg_first r0) (rg_first r2) (rg_value r0) (rg_value r1)
            else IfEq2 (rg_first r1) (rg_first r3) (rg_value r1) (rg_value r0))
  | [r0; r1; r2; r3; _] => Some (IfEq2 (rg_first r1) (rg_first r3) (rg_value r1) (rg_value r0))
  | _ => None
  end.
(** generate.cpp 592-692: number of blocks, start of the blocks without table, their cases. *)
Record two_function := { w_blocks : nat; w_prune : bool; w_start : nat; w_cases : list (nat * expr) }.
Definition two_code (B : nat) (fl : flags) (t : tables) : option two_function :=
  let! cases :=
    if f_prune2 fl then
      omap (fun p => let! e := match pl_ranges p with Some rs => case_expr B rs | None => None end in
                     Some (pl_index p - t_start t, e)%nat)
           (filter (fun p => (t_start t <=? pl_index p)%nat) (t_two t))
    else Some [] in
  Some {| w_blocks := List.length (t_two t); w_prune := f_prune2 fl; w_start := t_start t; w_cases := cases |}.
Definition run_two (B : nat) (asserts : bool) (tab : list Z) (w : two_function) (block off : nat) : option Z :=
  let! _ := guard (negb asserts || ((block <? w_blocks w)%nat && (off <? B)%nat)) in
  if w_prune w then
    if (block <? w_start w)%nat then nth_error tab (block * B + off)
    else match find (fun c => (fst c =? block - w_start w)%nat) (w_cases w) with
         | Some c => Some (Z.of_nat (eval (snd c) off))
         | None => Some 0
         end
  else nth_error tab (block * B + off).

(** Members of ucd_internal, generate.cpp 303-366. *)
Inductive member :=
| Bits0 | Bits1 | FullUpper | FullTitle | FullLower | FullFold | FullToggle | Canonical | Compat
| SimpleUpper | SimpleTitle | SimpleLower | SimpleFold | SimpleToggle | SimpleCanonical | SimpleCompat.
Definition member_num (m : member) : nat :=
  match m with
  | Bits0 => 0 | Bits1 => 1 | FullUpper => 2 | FullTitle => 3 | FullLower => 4 | FullFold => 5 | FullToggle => 6
  | Canonical => 7 | Compat => 8 | SimpleUpper => 9 | SimpleTitle => 10 | SimpleLower => 11 | SimpleFold => 12
  | SimpleToggle => 13 | SimpleCanonical => 14 | SimpleCompat => 15
  end.

(** determine_min_sizes, main.cpp 1688-1848: the values that a member has to hold. *)
Definition run_cells (runs : list (list Z)) : Z :=
  fold_right (fun r n => Z.of_nat (List.length r) + 1 + n) 0 runs.
Definition member_values (u : ucd) (m : member) : list Z :=
  match m with
  | Bits0 | Bits1 => []
  | FullUpper => map e_full_upper (r_entries u)
  | FullTitle => map e_full_title (r_entries u)
  | FullLower => map e_full_lower (r_entries u)
  | FullFold => map e_full_fold (r_entries u)
  | FullToggle => [run_cells (r_upper u) + run_cells (r_lower u)]
  | Canonical => map e_canonical (r_entries u)
  | Compat => map e_compat (r_entries u)
  | SimpleUpper => map e_simple_upper (r_entries u)
  | SimpleTitle => map e_simple_title (r_entries u)
  | SimpleLower => map e_simple_lower (r_entries u)
  | SimpleFold => map e_simple_fold (r_entries u)
  | SimpleToggle => map e_simple_toggle (r_entries u)
  | SimpleCanonical => map e_simple_canonical (r_entries u)
  | SimpleCompat => map e_simple_compat (r_entries u)
  end.
Definition member_size (u : ucd) (m : member) : option ctype :=
  match m with
  | Bits0 | Bits1 => Some {| c_signed := false; c_size := 8 |}
  | _ => value_to_size (minmax (member_values u m))
  end.
Definition has_size (o : option ctype) : bool := match o with Some t => 0 <? c_size t | None => false end.

(** generate.cpp 303-366: the members in order *)
Definition struct_members (fl : flags) (u : ucd) : list member :=
  (if f_category fl || f_case_info fl then [Bits0] else []) ++
  (if f_grapheme fl || f_width fl then [Bits1] else []) ++
  (if f_full fl then [FullUpper; FullTitle; FullLower] else []) ++
  (if f_full_fold fl then [FullFold] else []) ++
  (if f_full_toggle fl then [FullToggle] else []) ++
  (if f_canonical fl && has_size (member_size u Canonical) then [Canonical] else []) ++
  (if f_compat fl && has_size (member_size u Compat) then [Compat] else []) ++
  (if f_simple fl then [SimpleUpper; SimpleTitle; SimpleLower] else []) ++
  (if f_simple_fold fl then [SimpleFold] else []) ++
  (if f_simple_toggle fl then [SimpleToggle] else []) ++
  (if f_canonical fl then [SimpleCanonical] else []) ++
  (if f_compat fl then [SimpleCompat] else []).
(** count_codepoints, generate.cpp 185-194 *)
Definition count_codepoints (runs : list (list Z)) : Z :=
  if (1 <? List.length runs)%nat then run_cells runs else 0.
(** generate.cpp 376-440: the initializers of one entry in order *)
Definition init_values (fl : flags) (u : ucd) (e : edata) : list Z :=
  (if f_category fl || f_case_info fl then [e_flags e] else []) ++
  (if f_grapheme fl then [e_gb e] else []) ++
  (if f_full fl then [e_full_upper e; e_full_title e; e_full_lower e] else []) ++
  (if f_full_fold fl then [e_full_fold e] else []) ++
  (if f_full_toggle fl then
     [if e_full_toggle e <? 0 then - e_full_toggle e + count_codepoints (r_upper u) else e_full_toggle e] else []) ++
  (if f_canonical fl && has_size (member_size u Canonical) then [e_canonical e] else []) ++
  (if f_compat fl && has_size (member_size u Compat) then [e_compat e] else []) ++
  (if f_simple fl then [e_simple_upper e; e_simple_title e; e_simple_lower e] else []) ++
  (if f_simple_fold fl then [e_simple_fold e] else []) ++
  (if f_simple_toggle fl then [e_simple_toggle e] else []) ++
  (if f_canonical fl then [e_simple_canonical e] else []) ++
  (if f_compat fl then [e_simple_compat e] else []).
(** An aggregate in C: members are initialized in order, the remaining ones with 0. *)
Fixpoint aggregate (ms : list (member * ctype)) (vs : list Z) : option (list (member * Z)) :=
  match ms, vs with
  | [], [] => Some []
  | [], _ :: _ => None
  | (m, t) :: ms', [] => let! r := aggregate ms' [] in Some ((m, 0) :: r)
  | (m, t) :: ms', v :: vs' => let! r := aggregate ms' vs' in Some ((m, cast t v) :: r)
  end.

(** print_runs, generate.cpp 247-264: each run is followed by 0. *)
Definition flat_runs (runs : list (list Z)) : list Z :=
  if (1 <? List.length runs)%nat then flat_map (fun r => r ++ [0]) runs else [].
Definition max_size (ts : list ctype) : Z := fold_left (fun m t => Z.max m (c_size t)) ts 0.
Definition array_size (runs : list (list Z)) : option ctype := value_to_size (minmax (concat runs)).

(** The generated source file. *)
Record program := {
  p_one : list Z; p_one_type : ctype; p_one_code : list stmt;
  p_two : list Z; p_two_type : ctype; p_two_code : two_function;
  p_entries : list (list (member * Z));
  p_runs : list Z;
  p_upper_offset : Z; p_lower_offset : Z; p_title_offset : Z; p_fold_offset : Z }.
Definition zs (l : list nat) : list Z := map Z.of_nat l.

(** generate_source_file, generate.cpp 176-478 *)
Definition emit (B : nat) (fl : flags) (u : ucd) (t : tables) : option program :=
  (* main.cpp 1752-1787, 1841-1843 and generate.cpp 57-88 *)
  let one_cells := if f_prune1 fl then firstn (t_one_size t) (t_one t) else t_one t in
  let! one_table := obind (value_to_size (minmax (zs one_cells))) get_type in
  let! one_result := obind (value_to_size (minmax (zs (t_one t)))) get_type in
  let! two_type := obind (value_to_size (minmax (zs (flat_map pl_block (t_two t))))) get_type in
  let two_cells := flat_map pl_block (filter (fun p => match pl_ranges p with None => true | Some _ => false end) (t_two t)) in
  let! w := two_code B fl t in
  (* main.cpp 1846-1856 *)
  let! sizes := omap array_size [r_upper u; r_title u; r_lower u; r_fold u; r_canonical u; r_compat u] in
  let all_arrays := {| c_signed := false; c_size := max_size sizes |} in
  let runs :=
    (if f_full fl || f_full_toggle fl then flat_runs (r_upper u) ++ flat_runs (r_lower u) ++ flat_runs (r_title u) else []) ++
    (if f_full_fold fl then flat_runs (r_fold u) else []) ++
    (if f_canonical fl then flat_runs (r_canonical u) else []) ++
    (if f_compat fl then flat_runs (r_compat u) else []) in
  (* accessors of runs need the array: generate.cpp 267, 735-780 *)
  let! _ := guard ((0 <? c_size all_arrays) || negb (f_full fl || f_full_fold fl || f_full_toggle fl)) in
  let! types := omap (fun m => let! s := member_size u m in let! ty := get_type s in Some (m, ty)) (struct_members fl u) in
  let! entries := omap (fun e => aggregate types (init_values fl u e)) (r_entries u) in
  let upper_count := count_codepoints (r_upper u) in
  let lower_count := count_codepoints (r_lower u) in
  let title_count := count_codepoints (r_title u) in
  Some {| p_one := map (cast one_table) (zs one_cells); p_one_type := one_result; p_one_code := one_function fl t;
          p_two := map (cast two_type) (zs two_cells); p_two_type := two_type; p_two_code := w;
          p_entries := entries; p_runs := map (cast all_arrays) runs;
          p_upper_offset := 0; p_lower_offset := upper_count; p_title_offset := upper_count + lower_count;
          p_fold_offset := upper_count + lower_count + title_count |}.

(** generate_tables and generate_source_file, main.cpp 2290-2331 *)
Definition generate (B P : nat) (fl : flags) (ds : list udata) : option program :=
  let! u := add_all B fl (ucd_init B) ds in
  let! t := prune P fl (r_staged u) in
  emit B fl u t.

(** ** Execution of the generated functions *)

(** get_ucd_internal, generate.cpp 694-709. [asserts]: the assertion macro checks. *)
Definition get_internal (B : nat) (asserts : bool) (p : program) (cp : N) : option (list (member * Z)) :=
  let! _ := guard (negb asserts || (cp <=? 1114111)%N) in
  let i := N.to_nat (cp / N.of_nat B) in
  let j := N.to_nat (cp mod N.of_nat B) in
  let! b := run_one (p_one p) (p_one_code p) i in
  let block := cast (p_one_type p) b in
  let! e := run_two B asserts (p_two p) (p_two_code p) (Z.to_nat block) j in
  let entry := cast (p_two_type p) e in
  nth_error (p_entries p) (Z.to_nat entry).
Definition read (s : list (member * Z)) (m : member) : option Z :=
  let! x := find (fun x => (member_num (fst x) =? member_num m)%nat) s in Some (snd x).
(** generate.cpp 785-810: ucd_get_category, ucd_is_whitespace, ucd_get_case_info, ucd_get_width; 711-733: the members
    grapheme_break and simple_* of ucd_get_entry (uint32_t) *)
Definition get_bits (m : member) (shift mask : Z) (B : nat) (asserts : bool) (p : program) (cp : N) : option Z :=
  let! s := get_internal B asserts p cp in
  let! b := read s m in Some (Z.land (Z.shiftr b shift) mask).
Definition get_category := get_bits Bits0 0 7.
Definition get_case_info := get_bits Bits0 3 3.
Definition get_grapheme := get_bits Bits1 0 15.
Definition get_width := get_bits Bits1 4 7.
Definition is_whitespace (B : nat) (asserts : bool) (p : program) (cp : N) : option bool :=
  let! s := get_internal B asserts p cp in
  let! b := read s Bits0 in Some (negb (Z.land b 64 =? 0)).
Definition get_simple (m : member) (B : nat) (asserts : bool) (p : program) (cp : N) : option Z :=
  let! s := get_internal B asserts p cp in
  let! v := read s m in Some ((Z.of_N cp + v) mod 2 ^ 32).
(** The cells from a position up to the next 0: what a caller reads through the pointers full_* (generate.cpp 735-780). *)
Fixpoint read_run (runs : list Z) : option (list Z) :=
  match runs with
  | [] => None
  | v :: r => if v =? 0 then Some [] else let! x := read_run r in Some (v :: x)
  end.
Definition get_full (m : member) (B : nat) (asserts : bool) (p : program) (cp : N) : option (list Z) :=
  let! s := get_internal B asserts p cp in
  let! v := read s m in
  let offset := match m with
                | FullUpper => p_upper_offset p | FullTitle => p_title_offset p | FullLower => p_lower_offset p
                | FullFold => p_fold_offset p | _ => 0
                end in
  read_run (skipn (Z.to_nat (offset + v)) (p_runs p)).
