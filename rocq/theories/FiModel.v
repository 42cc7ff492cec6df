(** Model of the file functions of tm_unicode.h in the Unix variant (tm_unicode.h:6702-6910, 6932-7200, 7342-7375,
    7484-7726), on top of a small model of the operating system.
    Octets are [N], sizes are [nat] (no file of this model comes near 2^63 octets, so that no size wraps).
    [None] is undefined behaviour or a failed TM_ASSERT. *)
From Coq Require Import Arith NArith ZArith List Bool.
From Verif Require Import Base CodecModel UniModel BytesModel.
Import ListNotations.
Local Open Scope N_scope.

(** ** The environment: POSIX system calls and the allocator (not code of the repository) *)
(** Error numbers (Linux); the values of tm_errc are the same, tm_unicode.h:160-240. *)
Definition F_OK : N := 0.
Definition F_ENOENT : N := 2.
Definition F_EIO : N := 5.
Definition F_ENOMEM : N := 12.
Definition F_EEXIST : N := 17.
Definition F_ENOTDIR : N := 20.
Definition F_EISDIR : N := 21.
Definition F_EINVAL : N := 22.
Definition F_ERANGE : N := 34.
Definition F_ENOTEMPTY : N := 39.

(** A path names a directory entry by its components: empty components and "." are dropped; ".." and symbolic links are
    not modelled, neither is the position of the working directory below the root. *)
Definition path := list N.
Definition key := (bool * list (list N))%type.
Definition is_slash (c : N) : bool := c =? 47.
Fixpoint split_slash (p : path) : list (list N) :=
  match p with
  | [] => [[]]
  | c :: r => if is_slash c then [] :: split_slash r
              else match split_slash r with s :: ss => (c :: s) :: ss | [] => [[c]] end
  end.
Definition real_name (s : list N) : bool := match s with [] => false | [46] => false | _ => true end.
Definition components (p : path) : list (list N) := filter real_name (split_slash p).
Definition absolute (p : path) : bool := match p with c :: _ => is_slash c | [] => false end.
Definition key_of (p : path) : key := (absolute p, components p).

Inductive node := File (bytes : list N) | Dir.
Definition tree := list (key * node).
Definition name_eq_dec : forall x y : list N, {x = y} + {x <> y} := list_eq_dec N.eq_dec.
Definition key_eq_dec (x y : key) : {x = y} + {x <> y}.
Proof. decide equality; [apply (list_eq_dec name_eq_dec)|apply Bool.bool_dec]. Defined.
Definition key_eqb (x y : key) : bool := if key_eq_dec x y then true else false.
Fixpoint find_key (t : tree) (k : key) : option node :=
  match t with [] => None | (k', n) :: t' => if key_eqb k' k then Some n else find_key t' k end.
(** The root and the working directory always exist. *)
Definition lookup (t : tree) (k : key) : option node := match snd k with [] => Some Dir | _ => find_key t k end.
Definition erase (t : tree) (k : key) : tree := filter (fun e => negb (key_eqb (fst e) k)) t.
Definition put (t : tree) (k : key) (n : node) : tree := (k, n) :: erase t k.
Definition parent (k : key) : key := (fst k, removelast (snd k)).
(** Why a name does not resolve. *)
Fixpoint blocked (t : tree) (a : bool) (before after : list (list N)) : bool :=
  match after with
  | [] => false
  | c :: after' => match lookup t (a, before ++ [c]) with
                   | Some (File _) => match after' with [] => false | _ => true end
                   | _ => blocked t a (before ++ [c]) after'
                   end
  end.
Definition missing (t : tree) (k : key) : N := if blocked t (fst k) [] (snd k) then F_ENOTDIR else F_ENOENT.

(** An injected failure of one call: the error number and how much was done before. A failing call sets errno to something
    other than 0, and never to one of the numbers that the state of the tree decides. *)
Definition fault := option (N * nat).
Definition fault_errno (e : N) : N :=
  if (e =? 0) || (e =? F_ENOENT) || (e =? F_EEXIST) || (e =? F_ENOTDIR) then F_EIO else e.
(** The file tree, the failures of the calls to come (an empty list: none), the answers of the allocator (an empty list: it
    grants everything), the number of live blocks and of open handles. *)
Record os := Os { o_tree : tree; o_faults : list fault; o_mem : list bool; o_live : nat; o_handles : nat }.
Definition with_tree (s : os) (t : tree) : os := Os t (o_faults s) (o_mem s) (o_live s) (o_handles s).
Definition take_fault (s : os) : fault * os :=
  match o_faults s with
  | [] => (None, s)
  | f :: fs => (f, Os (o_tree s) fs (o_mem s) (o_live s) (o_handles s))
  end.
Definition grant (s : os) : bool * os :=
  match o_mem s with
  | [] => (true, s)
  | b :: bs => (b, Os (o_tree s) (o_faults s) bs (o_live s) (o_handles s))
  end.
Definition live_up (s : os) : os := Os (o_tree s) (o_faults s) (o_mem s) (S (o_live s)) (o_handles s).
(** Fresh memory holds an arbitrary pattern. *)
Definition fresh_cells (n : nat) : list N := repeat 205 n.
Definition malloc (s : os) (n : nat) : option (list N) * os :=
  let (b, s) := grant s in if b then (Some (fresh_cells n), live_up s) else (None, s).
(** realloc of a live block: the old contents are kept as far as they fit. *)
Definition realloc (s : os) (cells : list N) (n : nat) : option (list N) * os :=
  let (b, s) := grant s in
  if b then (Some (firstn n (cells ++ fresh_cells (n - length cells))), s) else (None, s).
Definition free (s : os) : option os :=
  match o_live s with O => None | S n => Some (Os (o_tree s) (o_faults s) (o_mem s) n (o_handles s)) end.

(** stat *)
Definition sys_stat (p : path) (s : os) : (N + node) * os :=
  let (f, s) := take_fault s in
  (match f with
   | Some (e, _) => inl (fault_errno e)
   | None => match p with
             | [] => inl F_ENOENT
             | _ => match lookup (o_tree s) (key_of p) with Some n => inr n | None => inl (missing (o_tree s) (key_of p)) end
             end
   end, s).
(** mkdir; the result is 0 or errno *)
Definition sys_mkdir (p : path) (s : os) : N * os :=
  let (f, s) := take_fault s in
  match f with
  | Some (e, _) => (fault_errno e, s)
  | None => match p with
            | [] => (F_ENOENT, s)
            | _ => let k := key_of p in
                   match lookup (o_tree s) k with
                   | Some _ => (F_EEXIST, s)
                   | None => match lookup (o_tree s) (parent k) with
                             | Some Dir => (F_OK, with_tree s (put (o_tree s) k Dir))
                             | _ => (missing (o_tree s) k, s)
                             end
                   end
            end
  end.
(** remove of a file or of an empty directory *)
Definition below (k k' : key) : bool := (* k' lies strictly below the directory k *)
  Bool.eqb (fst k) (fst k') && (length (snd k) <? length (snd k'))%nat && (if list_eq_dec name_eq_dec (firstn (length (snd k)) (snd k')) (snd k) then true else false).
Definition sys_remove (p : path) (s : os) : N * os :=
  let (f, s) := take_fault s in
  match f with
  | Some (e, _) => (fault_errno e, s)
  | None => match p with
            | [] => (F_ENOENT, s)
            | _ => let k := key_of p in
                   match lookup (o_tree s) k with
                   | None => (missing (o_tree s) k, s)
                   | Some (File _) => (F_OK, with_tree s (erase (o_tree s) k))
                   | Some Dir => match snd k with
                                 | [] => (F_EINVAL, s)
                                 | _ => if existsb (fun e => below k (fst e)) (o_tree s) then (F_ENOTEMPTY, s)
                                        else (F_OK, with_tree s (erase (o_tree s) k))
                                 end
                   end
            end
  end.
(** rename of a file; that of a directory is not modelled and refused here with EINVAL. *)
Definition sys_rename (p q : path) (s : os) : N * os :=
  let (f, s) := take_fault s in
  match f with
  | Some (e, _) => (fault_errno e, s)
  | None =>
      match p, q with
      | [], _ | _, [] => (F_ENOENT, s)
      | _, _ =>
          let k := key_of p in let k' := key_of q in
          match lookup (o_tree s) k with
          | None => (missing (o_tree s) k, s)
          | Some Dir => (F_EINVAL, s)
          | Some (File bs) =>
              match lookup (o_tree s) k', lookup (o_tree s) (parent k') with
              | Some Dir, _ => (F_EISDIR, s)
              | _, Some Dir => if key_eqb k k' then (F_OK, s) else (F_OK, with_tree s (put (erase (o_tree s) k) k' (File bs)))
              | _, _ => (missing (o_tree s) k', s)
              end
          end
      end
  end.

(** A stream open for reading: the octets ahead, or a directory, which can be opened but not read. *)
Inductive reader := Octets (ahead : list N) | Directory.
Definition handle_up (s : os) : os := Os (o_tree s) (o_faults s) (o_mem s) (o_live s) (S (o_handles s)).
Definition sys_fopen_rb (p : path) (s : os) : (N + reader) * os :=
  let (f, s) := take_fault s in
  match f with
  | Some (e, _) => (inl (fault_errno e), s)
  | None => match p with
            | [] => (inl F_ENOENT, s)
            | _ => match lookup (o_tree s) (key_of p) with
                   | Some (File bs) => (inr (Octets bs), handle_up s)
                   | Some Dir => (inr Directory, handle_up s)
                   | None => (inl (missing (o_tree s) (key_of p)), s)
                   end
            end
  end.
(** fread of at most n octets: what was read, the stream afterwards, and errno if the read failed. *)
Definition sys_fread (r : reader) (n : nat) (s : os) : list N * reader * option N * os :=
  let (f, s) := take_fault s in
  match r with
  | Directory => ([], Directory, Some F_EISDIR, s)
  | Octets bs => match f with
                 | Some (e, k) => (firstn (min k n) bs, Octets (skipn (min k n) bs), Some (fault_errno e), s)
                 | None => (firstn n bs, Octets (skipn n bs), None, s)
                 end
  end.
(** fclose of a stream that was only read. *)
Definition sys_fclose_r (s : os) : option os :=
  match o_handles s with O => None | S n => Some (Os (o_tree s) (o_faults s) (o_mem s) (o_live s) n) end.
(** fopen with "wb": creates the file or empties it. *)
Definition sys_fopen_wb (p : path) (s : os) : (N + key) * os :=
  let (f, s) := take_fault s in
  match f with
  | Some (e, _) => (inl (fault_errno e), s)
  | None => match p with
            | [] => (inl F_ENOENT, s)
            | _ => let k := key_of p in
                   match lookup (o_tree s) k, lookup (o_tree s) (parent k) with
                   | Some Dir, _ => (inl F_EISDIR, s)
                   | _, Some Dir => (inr k, handle_up (with_tree s (put (o_tree s) k (File []))))
                   | _, _ => (inl (missing (o_tree s) k), s)
                   end
            end
  end.
(** fwrite into the stream's buffer: the octets taken and errno if it failed. *)
Definition sys_fwrite (data : list N) (s : os) : list N * option N * os :=
  let (f, s) := take_fault s in
  match f with
  | Some (e, k) => (firstn k data, Some (fault_errno e), s)
  | None => (data, None, s)
  end.
(** fclose of a stream that was written: the buffered octets reach the file, on a failure (full disk, quota, network) only
    the first k of them do. The result is 0 or errno. *)
Definition sys_fclose_w (k : key) (taken : list N) (s : os) : option (N * os) :=
  let (f, s) := take_fault s in
  match o_handles s with
  | O => None
  | S n => let done bs := Os (put (o_tree s) k (File bs)) (o_faults s) (o_mem s) (o_live s) n in
           Some (match f with
                 | Some (e, m) => (fault_errno e, done (firstn m taken))
                 | None => (F_OK, done taken)
                 end)
  end.

(** ** The code *)
(** tmu_contents: the cells of the block, [None] for a null pointer, and the fields size and capacity. *)
Record contents := FContents { f_data : option (list N); f_size : nat; f_capacity : nat }.
Definition no_contents := FContents None 0 0.
(** tm_unicode.h:7571-7581 *)
Definition tmu_destroy_contents (c : contents) (s : os) : option (contents * os) :=
  match f_data c with
  | Some _ => if (0 <? f_capacity c)%nat then s <- free s ;; Some (no_contents, s) else None
  | None => Some (no_contents, s)
  end.
(** tm_unicode.h:7493-7508: whether there is room, the contents and the state. *)
Definition tmu_grow_by (c : contents) (amount : nat) (s : os) : option (bool * contents * os) :=
  if (f_size c <=? f_capacity c)%nat then
    if (amount <=? f_capacity c - f_size c)%nat then Some (true, c, s)
    else
      let n := (f_capacity c + f_capacity c / 2)%nat in
      let n := if (n <? f_size c + amount)%nat then (f_size c + amount)%nat else n in
      cells <- f_data c ;;
      match realloc s cells n with
      | (None, s) => Some (false, c, s)
      | (Some cells, s) => Some (true, FContents (Some cells) (f_size c) n, s)
      end
  else None.
(** The memcpy to data + size of tm_unicode.h:7022-7023 and 7029-7031. *)
Definition append_chunk (c : contents) (chunk : list N) : option contents :=
  cells <- f_data c ;;
  cells <- write_list cells (f_size c) chunk ;;
  Some (FContents (Some cells) (f_size c + length chunk) (f_capacity c)).
Definition errno_after (en : N) (e : option N) : N := match e with Some e => e | None => en end.
Definition had_error (b : bool) (e : option N) : bool := match e with Some _ => true | None => b end.
(** tm_unicode.h:7013 *)
Definition BUFFER_SIZE : nat := 1024.
(** tm_unicode.h:7024-7032: the loop; [en] is errno, [bad] is ferror, [ec] the field of the result. A refused realloc sets errno. *)
Fixpoint read_loop (fuel : nat) (r : reader) (c : contents) (en : N) (bad : bool) (s : os) : option (contents * N * N * bool * os) :=
  match fuel with
  | O => None
  | S fuel =>
      let '(chunk, r, e, s) := sys_fread r BUFFER_SIZE s in
      let en := errno_after en e in let bad := had_error bad e in
      match chunk with
      | [] => Some (c, F_OK, en, bad, s)
      | _ => ' (ok, c, s) <- tmu_grow_by c (length chunk) s ;;
             if ok : bool then c <- append_chunk c chunk ;; read_loop fuel r c en bad s
             else ' (c, s) <- tmu_destroy_contents c s ;; Some (c, F_ENOMEM, F_ENOMEM, bad, s)
      end
  end.
(** tm_unicode.h:7005-7042; the fuel is more than the number of octets. *)
Definition tmu_read_file_t (fuel : nat) (p : path) (s : os) : option (contents * N * os) :=
  match sys_fopen_rb p s with
  | (inl e, s) => Some (no_contents, if e =? 0 then F_EIO else e, s)
  | (inr r, s) =>
      let '(chunk, r, e, s) := sys_fread r BUFFER_SIZE s in
      let en := errno_after 0 e in let bad := had_error false e in
      ' (c, ec, en, bad, s) <-
        match chunk with
        | [] => Some (no_contents, F_OK, en, bad, s)
        | _ => let n := length chunk in
               let capacity := if (n <? BUFFER_SIZE)%nat then n else (BUFFER_SIZE * 2)%nat in
               match malloc s capacity with
               | (None, s) => Some (FContents None 0 capacity, F_ENOMEM, F_ENOMEM, bad, s)
               | (Some cells, s) =>
                   c <- append_chunk (FContents (Some cells) 0 capacity) chunk ;;
                   read_loop fuel r c en bad s
               end
        end ;;
      let ec := if negb (en =? 0) || bad then (if negb (en =? 0) then en else F_EIO) else ec in
      s <- sys_fclose_r s ;;
      Some (c, ec, s)
  end.
(** tm_unicode.h:7583-7590 ff.: tmu_to_platform_path (6710-6715) only borrows the pointer, so the wrappers add nothing. *)
Definition tmu_read_file := tmu_read_file_t.

(** tm_unicode.h:7664-7682 with the conversion of BytesModel, whose allocator is the oracle [mem]. [Zeroed]: the conversion took the
    block over; [Kept]: it is still the caller's; [Dangling]: the conversion has freed it but the caller's struct still points to it.
    The result is the code, the block of the text with its size and capacity. *)
Definition tmu_read_file_as_utf8_ex (fuel : nat) (mem : nat -> nat -> option (list N)) (p : path) (enc : encoding) (v : validate) (rep : list N)
    (s : os) : option (N * option conversion * contents * os) :=
  let v := match v, rep with V_replace, [] => V_skip | _, _ => v end in
  ' (c, ec, s) <- tmu_read_file fuel p s ;;
  if ec =? 0 then
    let cells := match f_data c with Some cells => cells | None => [] end in
    ' (conv, data, cap, after) <- tmu_utf8_convert_from_bytes_dynamic mem cells (f_size c) enc v rep true ;;
    let out := match data with Null => FContents None (v_size conv) cap | Block _ cells => FContents (Some cells) (v_size conv) cap end in
    (* the blocks that the conversion has left: its own, unless it is the one taken over *)
    let s := match data with Block false _ => live_up s | _ => s end in
    s <- match after with
         | Kept _ => ' (_, s) <- tmu_destroy_contents c s ;; Some s
         | Zeroed => match data with Block true _ => Some s | _ => match f_data c with Some _ => free s | None => Some s end end
         | Dangling => None
         end ;;
    Some (0, Some conv, out, s)
  else Some (ec, None, no_contents, s).

(** ** Directories *)
(** tm_unicode.h:6970-7003: 1 = it exists, and the error code. *)
Definition tmu_directory_exists_t (p : path) (s : os) : bool * N * os :=
  match sys_stat p s with
  | (inr n, s) => (match n with Dir => true | _ => false end, F_OK, s)
  | (inl e, s) => (false, if (e =? F_ENOENT) || (e =? F_ENOTDIR) then F_OK else e, s)
  end.
(** tm_unicode.h:6935-6968 *)
Definition tmu_file_exists_t (p : path) (s : os) : bool * N * os :=
  match sys_stat p s with
  | (inr n, s) => (match n with File _ => true | _ => false end, F_OK, s)
  | (inl e, s) => (false, if (e =? F_ENOENT) || (e =? F_ENOTDIR) then F_OK else e, s)
  end.
(** tm_unicode.h:7178-7188 *)
Definition tmu_create_single_directory_t (p : path) (s : os) : N * os :=
  let (e, s) := sys_mkdir p s in (if e =? F_OK then F_OK else if e =? F_EEXIST then F_OK else e, s).
(** tm_unicode.h:7190-7194 *)
Definition tmu_delete_directory_t (p : path) (s : os) : N * os :=
  match sys_stat p (Os (o_tree s) [] [] 0 0) with
  | (inr (File _), _) => let (f, s) := take_fault s in (match f with Some (e, _) => fault_errno e | None => F_ENOTDIR end, s)
  | _ => sys_remove p s
  end.
(** strchr for the delimiter, from position i. *)
Fixpoint next_slash (p : path) (i : nat) : option nat :=
  match p with
  | [] => None
  | c :: r => match i with
              | O => if is_slash c then Some 0%nat else option_map S (next_slash r 0)
              | S i => option_map S (next_slash r i)
              end
  end.
(** tm_unicode.h:7543-7556: the terminator written at [end] cuts the text there; it is undone before the next round. *)
Fixpoint create_loop (fuel : nat) (p : path) (stop : option nat) (s : os) : option (N * os) :=
  match fuel with
  | O => None
  | S fuel =>
      match stop with
      | None => Some (tmu_create_single_directory_t p s)
      | Some i => let (e, s) := tmu_create_single_directory_t (firstn i p) s in
                  if negb (e =? F_OK) then Some (e, s)
                  else if (S i =? length p)%nat then Some (F_OK, s)
                  else create_loop fuel p (next_slash p (S i)) s
      end
  end.
(** tm_unicode.h:7528-7558 with tmu_to_platform_path_t (7510-7526) and tmu_destroy_platform_path (7366-7375). *)
Definition tmu_create_directory_internal (dir : path) (len : nat) (s : os) : option (N * os) :=
  let p := firstn len dir in
  if (len =? 0)%nat then Some (F_OK, s)
  else if (len =? 1)%nat && match p with [c] => is_slash c | _ => false end then Some (F_OK, s)
  else if (len =? 2)%nat && match p with [c; d] => ((c =? 46) || (c =? 126)) && is_slash d | _ => false end then Some (F_OK, s)
  else
    let (buffer, s1) := if (len <? 260)%nat then (Some [], s) else malloc s (S len) in
    match buffer with
    | None => Some (F_ENOMEM, s1)
    | Some _ =>
        let destroy s := if (len <? 260)%nat then Some s else free s in
        let '(yes, _, s1) := tmu_directory_exists_t p s1 in
        if yes : bool then s1 <- destroy s1 ;; Some (F_OK, s1)
        else ' (e, s1) <- create_loop (S (S (length p))) p (next_slash p 0) s1 ;;
             s1 <- destroy s1 ;; Some (e, s1)
    end.
(** tm_unicode.h:7560-7562, 7613-7621 *)
Definition tmu_create_directory (dir : path) (s : os) : option (N * os) := tmu_create_directory_internal dir (length dir) s.
(** tm_unicode.h:7484-7491; the octet at the length is the terminator. *)
Definition path_mark (c : N) : bool := is_slash c || (c =? 92) || (c =? 58) || (c =? 126).
Fixpoint path_len_from (filename : path) (i : nat) : nat :=
  match i with
  | O => O
  | S j => if path_mark (nth i filename 0) then i else path_len_from filename j
  end.
Definition tmu_get_path_len_internal (filename : path) : nat := path_len_from filename (length filename).

(** ** Writing, renaming, deleting *)
Record flags := Flags { w_tree : bool; w_overwrite : bool; w_bom : bool; w_atomic : bool }.
(** tm_unicode.h:7044-7083; the number of octets written and the code. The flag for the byte order mark has no part in it. *)
Definition tmu_write_file_ex_internal (p : path) (data : list N) (fl : flags) (s : os) : option (nat * N * os) :=
  ' (e, s) <- (if w_tree fl then tmu_create_directory_internal p (tmu_get_path_len_internal p) s else Some (F_OK, s)) ;;
  if negb (e =? F_OK) then Some (0%nat, e, s)
  else
    let '(refuse, e, s) := if w_overwrite fl then (false, F_OK, s) else tmu_file_exists_t p s in
    if negb (e =? F_OK) then Some (0%nat, e, s)
    else if refuse : bool then Some (0%nat, F_EEXIST, s)
    else
      match sys_fopen_wb p s with
      | (inl e, s) => Some (0%nat, if e =? 0 then F_EIO else e, s)
      | (inr k, s) =>
          let '(taken, er, s) := sys_fwrite data s in
          let en := errno_after 0 er in let bad := had_error false er in
          let ec := if negb (length taken =? length data)%nat || negb (en =? 0) || bad then (if negb (en =? 0) then en else F_EIO) else F_OK in
          ' (_, s) <- sys_fclose_w k taken s ;;
          Some (length taken, ec, s)
      end.
(** tm_unicode.h:7122-7155 *)
Definition tmu_write_file_ex_t (p : path) (data : list N) (fl : flags) (s : os) : option (nat * N * os) :=
  if w_atomic fl then Some (0%nat, F_EIO, s) else tmu_write_file_ex_internal p data fl s.
(** tm_unicode.h:7646-7656, 7684-7693, 7640-7645 *)
Definition tmu_write_file_ex (p : path) (data : list N) (fl : flags) (s : os) := tmu_write_file_ex_t p data (Flags (w_tree fl) (w_overwrite fl) false (w_atomic fl)) s.
Definition tmu_write_file_as_utf8_ex (p : path) (data : list N) (fl : flags) (s : os) := tmu_write_file_ex_t p data fl s.
Definition tmu_write_file (p : path) (data : list N) (s : os) := tmu_write_file_ex p data (Flags false true false false) s.
Definition tmu_write_file_as_utf8 (p : path) (data : list N) (s : os) := tmu_write_file_as_utf8_ex p data (Flags false true true false) s.
(** tm_unicode.h:7085-7089, 7707-7715 *)
Definition tmu_delete_file_t (p : path) (s : os) : N * os := let (e, s) := sys_remove p s in (e, s).
Definition tmu_delete_file := tmu_delete_file_t.
(** tm_unicode.h:7091-7120 *)
Definition tmu_rename_file_ex_t (from to : path) (fl : flags) (s : os) : option (N * os) :=
  let '(there, e, s) := if w_overwrite fl then (false, F_OK, s) else tmu_file_exists_t to s in
  if negb (e =? F_OK) then Some (e, s)
  else if there : bool then Some (F_EEXIST, s)
  else
    ' (e, s) <- (if w_tree fl then tmu_create_directory_internal to (tmu_get_path_len_internal to) s else Some (F_OK, s)) ;;
    if negb (e =? F_OK) then Some (e, s)
    else
      let (e, s) := sys_rename from to s in
      if e =? F_OK then Some (F_OK, s)
      else if w_overwrite fl then
        let '(a, _, s) := tmu_file_exists_t from s in
        if a : bool then
          let '(b, _, s) := tmu_file_exists_t to s in
          if b : bool then
            let (d, s) := tmu_delete_file_t to s in
            if d =? F_OK then let (e, s) := sys_rename from to s in Some (e, s) else Some (d, s)
          else Some (e, s)
        else Some (e, s)
      else Some (e, s).
(** tm_unicode.h:7695-7705 *)
Definition tmu_rename_file_ex := tmu_rename_file_ex_t.
Definition tmu_rename_file (from to : path) (s : os) := tmu_rename_file_ex from to (Flags false false false false) s.

(** tm_unicode.h:7564-7569: the unsigned difference read as a signed number. *)
Definition tmu_compare_file_time (a b : N) : Z :=
  let d := (a + 2^64 - b) mod 2^64 in
  if 2^63 <=? d then (-1)%Z else if d =? 0 then 0%Z else 1%Z.
