(** Model of the working directory, the path of the program, the listing of directories and the command line of tm_unicode.h,
    Unix variant (tm_unicode.h:6730-6910, 7342-7364, 7716-7832). *)
From Coq Require Import Arith NArith List Bool.
From Verif Require Import Base CodecModel UniModel FiModel.
Import ListNotations.
Local Open Scope N_scope.

(** ** The working directory *)
(** getcwd (environment): the text of the working directory with its terminator if it fits, otherwise ERANGE. *)
Definition sys_getcwd (cwd : list N) (cells : list N) (s : os) : option (N * list N * os) :=
  let (f, s) := take_fault s in
  match f with
  | Some (e, _) => Some (fault_errno e, cells, s)
  | None => if (length cwd <? length cells)%nat then cells <- write_list cells 0 (cwd ++ [0]) ;; Some (F_OK, cells, s)
            else Some (F_ERANGE, cells, s)
  end.
(** strlen *)
Fixpoint text_len (cells : list N) : option nat :=
  match cells with [] => None | c :: r => if c =? 0 then Some 0%nat else option_map S (text_len r) end.
(** tm_unicode.h:7342-7364 *)
Definition tmu_to_tmu_path (c : contents) (is_dir : bool) : option contents :=
  match f_data c with
  | None => None (* data[0] or data[size] of a null pointer *)
  | Some cells =>
      if (0 <? f_capacity c)%nat then
        ' (cells, size) <-
          (if is_dir && (0 <? f_size c)%nat && negb (nth (f_size c - 1) cells 0 =? 47) then
             if (f_size c + 1 <? f_capacity c)%nat then cells <- write cells (f_size c) 47 ;; Some (cells, S (f_size c)) else None
           else Some (cells, f_size c)) ;;
        if (size <? f_capacity c)%nat then cells <- write cells size 0 ;; Some (FContents (Some cells) size (f_capacity c)) else None
      else None
  end.
(** tm_unicode.h:6735 *)
Definition INCREMENT : nat := 200.
(** tm_unicode.h:6741-6759 *)
Fixpoint getcwd_loop (fuel : nat) (cwd : list N) (c : contents) (s : os) : option (contents * N * os) :=
  match fuel with
  | O => None
  | S fuel =>
      cells <- f_data c ;;
      ' (e, cells, s) <- sys_getcwd cwd cells s ;;
      let c := FContents (Some cells) (f_size c) (f_capacity c) in
      if e =? F_OK then Some (c, F_OK, s)
      else if e =? F_ERANGE then
        let n := (f_capacity c + INCREMENT)%nat in
        match realloc s cells n with
        | (None, s) => ' (c, s) <- tmu_destroy_contents c s ;; Some (c, F_ENOMEM, s)
        | (Some cells, s) => getcwd_loop fuel cwd (FContents (Some cells) (f_size c) n) s
        end
      else Some (c, e, s)
  end.
(** tm_unicode.h:6730-6781 *)
Definition tmu_current_working_directory (fuel : nat) (cwd : list N) (extra : nat) (s : os) : option (contents * N * os) :=
  ' (c, ec, s) <-
    match malloc s INCREMENT with
    | (None, s) => Some (no_contents, F_ENOMEM, s)
    | (Some cells, s) => getcwd_loop fuel cwd (FContents (Some cells) 0 INCREMENT) s
    end ;;
  ' (c, ec, s) <-
    (if ec =? F_OK then
       cells <- f_data c ;;
       size <- text_len cells ;;
       let n := (size + extra + 1)%nat in
       if (f_capacity c <? n)%nat then
         match realloc s cells n with
         | (None, s) => ' (c, s) <- tmu_destroy_contents (FContents (Some cells) size (f_capacity c)) s ;; Some (c, F_ENOMEM, s)
         | (Some cells, s) => Some (FContents (Some cells) size n, F_OK, s)
         end
       else Some (FContents (Some cells) size (f_capacity c), F_OK, s)
     else Some (c, ec, s)) ;;
  if ec =? F_OK then c <- tmu_to_tmu_path c true ;; Some (c, ec, s) else Some (c, ec, s).

(** ** The program *)
(** readlink (environment): as much of the text as fits, without a terminator. *)
Definition sys_readlink (link : list N) (size : nat) (s : os) : (N + list N) * os :=
  let (f, s) := take_fault s in
  (match f with Some (e, _) => inl (fault_errno e) | None => inr (firstn size link) end, s).
(** tm_unicode.h:6786 *)
Definition SBO : nat := 260.
(** tm_unicode.h:6803-6818; the result is the block with its text or the error. *)
Fixpoint readlink_loop (fuel : nat) (link : list N) (cells : list N) (s : os) : option (list N * (N + list N) * N * os) :=
  match fuel with
  | O => None
  | S fuel =>
      match sys_readlink link (length cells) s with
      | (inl e, s) => Some (cells, inl e, F_OK, s)
      | (inr t, s) =>
          cells <- write_list cells 0 t ;;
          if (length cells <=? length t)%nat then
            match realloc s cells (length cells * 2) with
            | (None, s) => Some (cells, inr t, F_ENOMEM, s)
            | (Some cells, s) => readlink_loop fuel link cells s
            end
          else Some (cells, inr t, F_OK, s)
      end
  end.
(** tm_unicode.h:6783-6845. [free] of the buffer on the stack (6842 when filename is still sbo) is undefined. *)
Definition tmu_module_filename (fuel : nat) (link : list N) (s : os) : option (contents * N * os) :=
  match sys_readlink link SBO s with
  | (inl e, s) => None
  | (inr t, s) =>
      if (SBO <=? length t)%nat then
        match malloc s (SBO * 2) with
        | (None, s) => Some (no_contents, F_ENOMEM, s)
        | (Some cells, s) =>
            ' (cells, r, ec, s) <- readlink_loop fuel link cells s ;;
            let ec := match r with inl e => e | inr _ => ec end in
            match r with
            | inr t => if ec =? F_OK then cells <- write cells (length t) 0 ;; Some (FContents (Some cells) (length t) (length cells), F_OK, s)
                       else s <- free s ;; Some (no_contents, ec, s)
            | inl _ => if ec =? F_OK then None else s <- free s ;; Some (no_contents, ec, s)
            end
        end
      else
        match malloc s (length t + 1) with
        | (None, s) => Some (no_contents, F_ENOMEM, s)
        | (Some cells, s) => cells <- write_list cells 0 t ;; cells <- write cells (length t) 0 ;;
                             Some (FContents (Some cells) (length t) (length t + 1), F_OK, s)
        end
  end.
(** tm_unicode.h:7719-7721: the loop back to the last slash. *)
Fixpoint cut_back (cells : list N) (i : nat) : nat :=
  match i with O => O | S j => if nth j cells 0 =? 47 then i else cut_back cells j end.
(** tm_unicode.h:7716-7726 *)
Definition tmu_module_directory (fuel : nat) (link : list N) (s : os) : option (contents * N * os) :=
  ' (c, ec, s) <- tmu_module_filename fuel link s ;;
  if ec =? F_OK then
    match f_data c with
    | None => Some (c, ec, s)
    | Some cells => let size := cut_back cells (f_size c) in
                    cells <- write cells size 0 ;; Some (FContents (Some cells) size (f_capacity c), ec, s)
    end
  else Some (c, ec, s).

(** ** Listing a directory *)
(** What readdir (environment) still has to say: entries with name and d_type, then the end, possibly with an error. *)
Record entry := Entry { e_name : list N; e_type : N }.
Inductive stream := Entries (es : list entry) (err : N).
Definition dot_name (n : list N) : bool := match n with [46] => true | [46; 46] => true | _ => false end.
(** tm_unicode.h:6882-6910: the entry reported with its is_file, or the end with the error code (0: none). *)
Fixpoint read_entries (es : list entry) (err : N) : (N + list N * bool) * list entry :=
  match es with
  | [] => (inl err, [])
  | e :: es => if dot_name (e_name e) then read_entries es err else (inr (e_name e, N.land (e_type e) 4 =? 0), es)
  end.
Record opened := Opened { d_ec : N; d_stream : option stream }.
Definition tmu_read_directory (d : opened) : option (list N * bool) * opened :=
  match d_stream d with
  | None => (None, d)
  | Some (Entries es err) =>
      match read_entries es err with
      | (inl e, es) => (None, Opened (if e =? 0 then d_ec d else e) (Some (Entries es err)))
      | (inr r, es) => (Some r, Opened (d_ec d) (Some (Entries es err)))
      end
  end.
(** A caller that reads until the end: what it is told, and the directory. *)
Fixpoint list_all (fuel : nat) (d : opened) : option (list (list N * bool) * opened) :=
  match fuel with
  | O => None
  | S fuel => match tmu_read_directory d with
              | (None, d) => Some ([], d)
              | (Some r, d) => ' (rs, d) <- list_all fuel d ;; Some (r :: rs, d)
              end
  end.

(** ** The command line, tm_unicode.h:7728-7832 *)
(** 7743-7754: the sizes of the strings with their terminators. A string is given as its units without the terminator. *)
Fixpoint measure_args (fuel : nat) (args : list (list N)) (total : nat) : option (errc * nat) :=
  match args with
  | [] => Some (OK, total)
  | a :: args => match tmu_utf8_from_utf16_ex fuel a V_error [] true [] with
                 | Done (r, _) => match r_ec r with ERANGE => measure_args fuel args (total + r_size r) | e => Some (e, total) end
                 | _ => None
                 end
  end.
(** 7778-7796: the offsets of the strings in the pool, the position and the pool. *)
Fixpoint convert_args (fuel : nat) (args : list (list N)) (pool : list N) (cur : nat) (offsets : list nat) : option (errc * list nat * nat * list N) :=
  match args with
  | [] => Some (OK, offsets, cur, pool)
  | a :: args =>
      match tmu_utf8_from_utf16_ex fuel a V_error [] true (skipn cur pool) with
      | Done (r, out) =>
          let pool := firstn cur pool ++ out in
          match r_ec r with
          | OK => if (r_size r + 1 <=? length pool - cur)%nat then
                    let next := (cur + r_size r + 1)%nat in
                    if (length pool - next =? 0)%nat then Some (ERANGE, offsets ++ [cur], next, pool)
                    else convert_args fuel args pool next (offsets ++ [cur])
                  else None
          | e => Some (e, offsets, cur, pool)
          end
      | _ => None
      end
  end.
(** 7728-7825: the code, the offsets of the arguments (one more than there are) and the pool; the array of pointers in front of
    the pool is not laid out. *)
Definition tmu_utf8_command_line_from_utf16 (fuel : nat) (args : list (list N)) (s : os) : option (errc * option (list nat * list N) * os) :=
  ' (ec, total) <- measure_args fuel args 0 ;;
  match ec with
  | OK =>
      match malloc s (total + 1) with
      | (None, s) => Some (ENOMEM, None, s)
      | (Some pool, s) =>
          ' (ec, offsets, cur, pool) <- convert_args fuel args pool 0 [] ;;
          match ec with
          | OK => if (length pool - cur =? 0)%nat then s <- free s ;; Some (ERANGE, None, s)
                  else pool <- write pool cur 0 ;;
                       if (length pool - (cur + 1) =? 0)%nat then Some (OK, Some (offsets ++ [cur], pool), s) else None
          | e => s <- free s ;; Some (e, None, s)
          end
      end
  | e => Some (e, None, s)
  end.
(** 7826-7835 *)
Definition tmu_utf8_destroy_command_line (line : option (list nat * list N)) (s : os) : option os :=
  match line with Some _ => free s | None => Some s end.
