(** Reading, writing, renaming files and creating directories: the properties C178 to C183. *)
From Coq Require Import Arith NArith ZArith List Bool Lia.
From Verif Require Import Base CodecModel CodecProofs UniModel UniSpec UniText BytesModel BytesSpec BytesProofs BytesTop BytesDynTop BytesProps FiModel FiSpec FiRead FiText FiDir FiWrite FiRename.
Import ListNotations.
Local Open Scope N_scope.

(** ** C178: reading a file *)
Theorem C178_read_file : forall fuel p s, (forall bs, found s p = Some (File bs) -> (length bs < fuel)%nat) ->
  exists c ec s', tmu_read_file fuel p s = Some (c, ec, s') /\
    o_tree s' = o_tree s /\ o_handles s' = o_handles s /\ o_live s' = (o_live s + owned c)%nat /\
    (ec = F_OK -> exists bs, found s p = Some (File bs) /\ holds_bytes c bs) /\
    (calm s -> match found s p with
               | Some (File bs) => ec = F_OK
               | Some Dir => ec = F_EISDIR /\ c = no_contents
               | None => (ec = F_ENOENT \/ ec = F_ENOTDIR) /\ c = no_contents
               end).
Proof. exact read_file_spec. Qed.
(** "a" holds A, B; "d" is a directory with a file "d/x". *)
Definition sample (faults : list fault) (mem : list bool) : os :=
  Os [((false, [[97]]), File [65; 66]); ((false, [[100]]), Dir); ((false, [[100]; [120]]), File [7])] faults mem 0 0.
Lemma sample_sound : sound_tree (o_tree (sample [] [])).
Proof.
  intros a cs c. destruct cs as [|d cs]; [reflexivity|]. unfold lookup. cbn [snd o_tree sample find_key app].
  destruct (key_eqb_spec (false, [[97]]) (a, d :: cs ++ [c])) as [E|_]; [injection E as _ _ E; destruct cs; discriminate E|].
  destruct (key_eqb_spec (false, [[100]]) (a, d :: cs ++ [c])) as [E|_]; [injection E as _ _ E; destruct cs; discriminate E|].
  destruct (key_eqb_spec (false, [[100]; [120]]) (a, d :: cs ++ [c])) as [E|_]; [|intros X; exfalso; apply X; reflexivity].
  injection E as <- <- E. destruct cs as [|x cs]; [reflexivity|]. injection E as _ E. destruct cs; discriminate E.
Qed.
Lemma sample_calm : calm (sample [] []). Proof. split; constructor. Qed.
Example C178_example :
  tmu_read_file 9 [97] (sample [] []) = Some (FContents (Some [65; 66]) 2 2, F_OK, live_up (sample [] [])) /\
  tmu_read_file 9 [100] (sample [] []) = Some (no_contents, F_EISDIR, sample [] []) /\
  tmu_read_file 9 [97; 47; 98] (sample [] []) = Some (no_contents, F_ENOTDIR, sample [] []).
Proof. repeat split; vm_compute; reflexivity. Qed.

(** ** C179: reading a file as text *)
(** A failing read leaks what had been read; a file that needs one more octet for the terminator is freed twice when there is none. *)
Theorem C179_leak_refuted : exists s c s', tmu_read_file_as_utf8_ex 9 (fun _ n => Some (repeat 0 n)) [97] E_utf8 V_error [] s = Some (F_EIO, None, c, s') /\ c = no_contents /\ o_live s' = S (o_live s).
Proof. exists (sample [None; None; Some (F_EIO, 0%nat)] []). eexists _, _. vm_compute. repeat split. Qed.
Theorem C179_double_free_refuted : exists s, calm s /\ found s [97] = Some (File [65; 66]) /\ tmu_read_file_as_utf8_ex 9 (fun _ _ => None) [97] E_utf8 V_error [] s = None.
Proof. exists (sample [] []). split; [apply sample_calm|]. split; reflexivity. Qed.
(** With memory: a file with well-formed UTF-8, with or without a mark, gives its text with a terminator, in one block. *)
Theorem C179_utf8_partial : forall fuel mem p enc e v rep s bs us vs, calm s -> found s p = Some (File bs) -> (length bs < fuel)%nat ->
  (forall k n c, mem k n = Some c -> length c = n) -> (forall k n, mem k n <> None) ->
  encodes utf8_seq vs us -> us <> [] -> valid_rep v rep -> (v = V_replace -> rep <> []) -> handed F8 us enc bs e ->
  exists conv c s', tmu_read_file_as_utf8_ex fuel mem p enc v rep s = Some (F_OK, Some conv, c, s') /\ v_ec conv = OK /\ v_enc conv = e /\ v_inv conv = false /\
    f_size c = length us /\ (exists more, f_data c = Some (us ++ 0 :: more) /\ length (us ++ 0 :: more) = f_capacity c) /\
    o_tree s' = o_tree s /\ o_handles s' = o_handles s /\ o_live s' = S (o_live s).
Proof.
  intros fuel mem p enc e v rep s bs us vs C F Fu Ml Mg E Ne Vr Rp H. unfold tmu_read_file_as_utf8_ex.
  replace (match v, rep with V_replace, [] => V_skip | _, _ => v end) with v by (destruct v, rep; try reflexivity; exfalso; apply Rp; reflexivity).
  destruct (read_file_spec fuel p s) as (c & ec & s1 & -> & R1 & R2 & R3 & R4 & R5); [intros b X; rewrite F in X; injection X as <-; exact Fu|].
  specialize (R5 C). rewrite F in R5. subst ec. destruct (R4 eq_refl) as (b & X & Hz & Hb). rewrite F in X. injection X as <-. cbv beta iota. change (F_OK =? 0) with true. cbv beta iota.
  assert (Nb : bs <> []) by (inversion H; subst; [exact Ne|destruct us; [congruence|destruct (mark F8); discriminate]|exact Ne]).
  assert (exists cells, f_data c = Some cells /\ length cells = f_capacity c /\ firstn (length bs) cells = bs) as (cells & D & Lc & Fc) by (destruct bs; [congruence|exact Hb]). clear Hb.
  rewrite D. assert (Le : (f_size c <= length cells)%nat) by (rewrite Hz, <- Fc; rewrite firstn_length; lia).
  destruct (C84_utf8_partial mem us vs v rep true enc e cells (f_size c) Ml E Ne Vr Le) as (conv & data & cap & after & -> & V1 & V2); [rewrite Hz, Fc; exact H|]. cbv beta iota.
  destruct V2 as [(K1 & K2 & K3 & [K4 [more K5]] & ->)|(_ & _ & _ & k & n & X)]; [|exfalso; exact (Mg k n X)].
  assert (Ow : o_live s1 = S (o_live s)) by (rewrite R3; unfold owned; rewrite D; lia).
  destruct data as [|taken cells']; [destruct us; [congruence|discriminate K5]|]. unfold mem_cells in K4, K5. cbn [app] in K5.
  assert (Fin : exists s', (if taken then Some s1 else free (live_up s1)) = Some s' /\ o_tree s' = o_tree s1 /\ o_handles s' = o_handles s1 /\ o_live s' = o_live s1) by (destruct taken; [exists s1|eexists]; repeat split).
  destruct Fin as (s' & Q & F1 & F2 & F3).
  exists conv, (FContents (Some cells') (v_size conv) cap), s'. split; [destruct taken; [injection Q as <-; reflexivity|rewrite Q; reflexivity]|].
  split; [exact K1|]. split; [exact V1|]. split; [exact K2|]. split; [exact K3|]. split; [exists more; cbn [f_data f_capacity]; rewrite <- K5; split; [reflexivity|exact K4]|]. split; [congruence|]. split; [congruence|]. congruence.
Qed.
Example C179_example : exists conv c s', tmu_read_file_as_utf8_ex 9 (fun _ n => Some (repeat 0 n)) [97] E_utf8 V_error [] (sample [] []) = Some (F_OK, Some conv, c, s') /\ f_data c = Some [65; 66; 0] /\ o_live s' = 1%nat.
Proof. eexists _, _, _. vm_compute. repeat split. Qed.
(** UTF-16 and UTF-32, whether memory runs out or not: the text is in a block of its own and the file's block is given back. *)
Theorem C179_other_forms_partial : forall fuel mem p f us rest v rep enc e s bs, calm s -> found s p = Some (File bs) -> (length bs < fuel)%nat ->
  (forall k n c, mem k n = Some c -> length c = n) -> f <> F8 -> Forall (fun u => u < unit_bound f) us -> (length rest < width f)%nat -> no_cut f us -> valid_rep v rep -> (v = V_replace -> rep <> []) ->
  serialise f us ++ rest <> [] -> handed f (serialise f us ++ rest) enc bs e ->
  exists conv c s', tmu_read_file_as_utf8_ex fuel mem p enc v rep s = Some (F_OK, Some conv, c, s') /\ v_enc conv = e /\ o_tree s' = o_tree s /\ o_handles s' = o_handles s /\ o_live s' = (o_live s + owned c)%nat /\
    ((v_ec conv = ENOMEM /\ c = no_contents /\ exists k n, mem k n = None) \/
     ((v_inv conv = false <-> well_formed (seq_of f) us) /\
      ((v = V_error -> well_formed (seq_of f) us) /\ rest = [] /\ v_ec conv = OK /\
         (exists t more, replaced (seq_of f) utf8_seq (replacement v rep) us t /\ f_size c = length t /\ f_data c = Some (t ++ 0 :: more) /\ length (t ++ 0 :: more) = f_capacity c) \/
       (v = V_error /\ ~ well_formed (seq_of f) us \/ rest <> []) /\ v_ec conv = EINVAL /\ c = no_contents))).
Proof. exact read_other_forms. Qed.
(** U+20AC in UTF-16 with a mark; the same with an odd octet behind it. *)
Definition sample16 (more : list N) : os := Os [((false, [[97]]), File ([0xFF; 0xFE; 0xAC; 0x20] ++ more))] [] [] 0 0.
Example C179_other_forms_case : handed F16le (serialise F16le [0x20AC] ++ []) E_unknown [0xFF; 0xFE; 0xAC; 0x20] E_utf16le_bom /\ calm (sample16 []) /\ found (sample16 []) [97] = Some (File [0xFF; 0xFE; 0xAC; 0x20]) /\ no_cut F16le [0x20AC].
Proof. split; [apply (H_mark F16le [0xAC; 0x20] E_unknown); right; right; split; [reflexivity|intros [_ [t X]]; discriminate X]|]. split; [split; constructor|]. split; [reflexivity|]. intros [|x [|y q]] c d r X; discriminate X. Qed.
Example C179_other_forms_example :
  (exists conv c s', tmu_read_file_as_utf8_ex 9 (fun _ n => Some (repeat 0 n)) [97] E_unknown V_error [] (sample16 []) = Some (F_OK, Some conv, c, s') /\ v_ec conv = OK /\ f_data c = Some [0xE2; 0x82; 0xAC; 0] /\ o_live s' = 1%nat) /\
  (exists conv c s', tmu_read_file_as_utf8_ex 9 (fun _ n => Some (repeat 0 n)) [97] E_unknown V_error [] (sample16 [7]) = Some (F_OK, Some conv, c, s') /\ v_ec conv = EINVAL /\ c = no_contents /\ o_live s' = 0%nat).
Proof. split; eexists _, _, _; vm_compute; repeat split. Qed.

(** ** C180: writing a file *)
(** The last octets are lost without a report when the error shows up on closing; the function that is to write a mark writes none. *)
Theorem C180_lost_refuted : exists s n s', sound_tree (o_tree s) /\ tmu_write_file [97] [1; 2; 3] s = Some (n, F_OK, s') /\ found s' [97] <> Some (File [1; 2; 3]).
Proof.
  exists (sample [None; None; Some (F_EIO, 1%nat)] []). eexists _, _. split; [exact sample_sound|]. split; [vm_compute; reflexivity|]. vm_compute. discriminate.
Qed.
Theorem C180_mark_refuted : exists s s', calm s /\ sound_tree (o_tree s) /\ tmu_write_file_as_utf8 [97] [65] s = Some (1%nat, F_OK, s') /\ found s' [97] = Some (File [65]).
Proof. exists (sample [] []). eexists. split; [apply sample_calm|]. split; [exact sample_sound|]. split; vm_compute; reflexivity. Qed.
Theorem C180_write_partial : forall p data fl s, sound_tree (o_tree s) -> w_atomic fl = false ->
  exists n ec s', tmu_write_file_ex p data fl s = Some (n, ec, s') /\ o_handles s' = o_handles s /\ o_live s' = o_live s /\ sound_tree (o_tree s') /\
    (forall k, k <> key_of p -> kept (if w_tree fl then Some (dir_part p) else None) (o_tree s) (o_tree s') k) /\
    (ec = F_OK -> n = length data /\ exists bs, found s' p = Some (File bs) /\ (bs = data \/ exists e m, In (Some (e, m)) (o_faults s) /\ bs = firstn m data)) /\
    (w_overwrite fl = false -> forall bs, found s p = Some (File bs) -> ec <> F_OK /\ found s' p = Some (File bs)) /\
    (calm s -> p <> [] -> w_tree fl = false -> found s p <> Some Dir -> (forall bs, found s p = Some (File bs) -> w_overwrite fl = true) -> lookup (o_tree s) (parent (key_of p)) = Some Dir -> ec = F_OK).
Proof.
  intros p data fl s So At. destruct (write_spec p data (Flags (w_tree fl) (w_overwrite fl) false (w_atomic fl)) s So At) as (n & ec & s' & Q & H1 & H2 & H3 & H4 & H5 & H6 & H7 & H8 & H9).
  exists n, ec, s'. split; [exact Q|]. cbn [w_tree w_overwrite] in *. auto 10.
Qed.
(** What was written without trouble is read back. *)
Theorem C180_round_trip : forall fuel p data s n s', sound_tree (o_tree s) -> calm s -> tmu_write_file p data s = Some (n, F_OK, s') -> (length data < fuel)%nat ->
  n = length data /\ exists c s'', tmu_read_file fuel p s' = Some (c, F_OK, s'') /\ holds_bytes c data /\ o_tree s'' = o_tree s' /\ o_handles s'' = o_handles s /\ o_live s'' = (o_live s + owned c)%nat.
Proof.
  intros fuel p data s n s' So C Q Fu. destruct (write_spec p data (Flags false true false false) s So eq_refl) as (n' & ec & s1 & Q' & H1 & H2 & H3 & _ & H5 & _ & _ & H8 & _).
  change (tmu_write_file_ex_t p data (Flags false true false false) s) with (tmu_write_file p data s) in Q'. rewrite Q in Q'. injection Q' as <- <- <-.
  destruct (H5 eq_refl) as (A & bs & B & D). assert (bs = data) as -> by (destruct D as [D|(e & m & I & _)]; [exact D|pose proof (calm_faults s C _ I); discriminate]). split; [exact A|].
  destruct (read_file_spec fuel p s') as (c & ec & s2 & R & R1 & R2 & R3 & R4 & R5); [intros b X; rewrite B in X; injection X as <-; exact Fu|]. specialize (R5 (H8 C)). rewrite B in R5. subst ec.
  destruct (R4 eq_refl) as (b & X & Hb). rewrite B in X. injection X as <-. exists c, s2. split; [exact R|]. split; [exact Hb|]. split; [exact R1|]. split; congruence.
Qed.
Example C180_example : exists s', tmu_write_file [100; 47; 110] [1; 2; 3] (sample [] []) = Some (3%nat, F_OK, s') /\ found s' [100; 47; 110] = Some (File [1; 2; 3]) /\ found s' [97] = Some (File [65; 66]) /\
  exists s2, tmu_write_file_ex [97] [9] (Flags false false false false) (sample [] []) = Some (0%nat, F_EEXIST, s2) /\ found s2 [97] = Some (File [65; 66]).
Proof. eexists. split; [vm_compute; reflexivity|]. split; [reflexivity|]. split; [reflexivity|]. eexists. split; vm_compute; reflexivity. Qed.

(** ** C181: renaming *)
(** Two failing renames around a successful delete: the file under the new name is gone, and the call has failed. *)
Theorem C181_lost_refuted : exists s e s', sound_tree (o_tree s) /\ found s [100; 47; 120] = Some (File [7]) /\ tmu_rename_file_ex [97] [100; 47; 120] (Flags false true false false) s = Some (e, s') /\ e <> F_OK /\ found s' [100; 47; 120] = None.
Proof. exists (sample [Some (F_EIO, 0%nat); None; None; None; Some (F_EIO, 0%nat)] []). eexists _, _. split; [exact sample_sound|]. split; [reflexivity|]. split; [vm_compute; reflexivity|]. split; [discriminate|reflexivity]. Qed.
(** The same from a file onto itself loses the only copy. *)
Theorem C181_self_refuted : exists s e s', found s [97] = Some (File [65; 66]) /\ tmu_rename_file_ex [97] [97] (Flags false true false false) s = Some (e, s') /\ found s' [97] = None.
Proof. exists (sample [Some (F_EIO, 0%nat); None; None; None; None] []). eexists _, _. split; [reflexivity|]. split; [vm_compute; reflexivity|reflexivity]. Qed.
Theorem C181_rename_partial : forall p q fl s, sound_tree (o_tree s) ->
  let d := if w_tree fl then Some (dir_part q) else None in
  exists e s', tmu_rename_file_ex p q fl s = Some (e, s') /\ o_handles s' = o_handles s /\ o_live s' = o_live s /\ sound_tree (o_tree s') /\
    (e = F_OK -> p <> [] /\ q <> [] /\ moved_kept d (o_tree s) (o_tree s') (key_of p) (key_of q)) /\
    (w_overwrite fl = false -> forall bs, found s q = Some (File bs) -> e <> F_OK /\ o_tree s' = o_tree s) /\
    (w_overwrite fl = false -> e <> F_OK -> forall x, kept d (o_tree s) (o_tree s') x) /\
    (e <> F_OK -> (forall x, x <> key_of q -> kept d (o_tree s) (o_tree s') x) /\ (kept d (o_tree s) (o_tree s') (key_of q) \/ lookup (o_tree s') (key_of q) = None)) /\
    (calm s -> calm s' /\ forall bs, found s p = Some (File bs) -> q <> [] -> w_tree fl = false -> found s q <> Some Dir -> (forall old, found s q = Some (File old) -> w_overwrite fl = true) -> lookup (o_tree s) (parent (key_of q)) = Some Dir -> e = F_OK) /\
    (calm s -> e <> F_OK -> forall x, kept d (o_tree s) (o_tree s') x).
Proof. exact rename_spec. Qed.
Example C181_example : exists s', tmu_rename_file_ex [97] [100; 47; 120] (Flags false true false false) (sample [] []) = Some (F_OK, s') /\ found s' [97] = None /\ found s' [100; 47; 120] = Some (File [65; 66]) /\
  exists s2, tmu_rename_file [97] [100; 47; 120] (sample [] []) = Some (F_EEXIST, s2) /\ found s2 [100; 47; 120] = Some (File [7]).
Proof. eexists. split; [vm_compute; reflexivity|]. split; [reflexivity|]. split; [reflexivity|]. eexists. split; vm_compute; reflexivity. Qed.

(** ** C182: creating directories *)
(** An absolute path that does not exist is never created: the first cut leaves the empty text. *)
Theorem C182_absolute_refuted : forall p s, sound_tree (o_tree s) -> absolute p = true -> p <> [47] -> lookup (o_tree s) (key_of p) <> Some Dir ->
  exists e s', tmu_create_directory p s = Some (e, s') /\ e <> F_OK /\ o_tree s' = o_tree s.
Proof.
  intros p s So A N L. destruct (create_internal_spec p (length p) s So (le_n _)) as (e & s' & Q & _ & _ & _ & _ & _ & _ & H & _). rewrite firstn_all in H. destruct (H A) as [T X]. exists e, s'. split; [exact Q|]. split; [|exact T].
  intros E. destruct (X E) as [[Sc|[Sc|[Sc|Sc]]]|Y]; [subst p; discriminate A|apply N; exact Sc|subst p; discriminate A|subst p; discriminate A|exact (L Y)].
Qed.
(** A file of that name counts as success; so does the home directory's shorthand, with nothing created. *)
Theorem C182_file_refuted : (exists s s', calm s /\ found s [97] = Some (File [65; 66]) /\ tmu_create_directory [97] s = Some (F_OK, s') /\ found s' [97] = Some (File [65; 66])) /\
  (forall s, tmu_create_directory [126; 47] s = Some (F_OK, s)).
Proof. split; [|reflexivity]. exists (sample [] []). eexists. split; [apply sample_calm|]. split; [reflexivity|]. split; vm_compute; reflexivity. Qed.
Theorem C182_create_partial : forall p s, sound_tree (o_tree s) ->
  exists e s', tmu_create_directory p s = Some (e, s') /\ o_handles s' = o_handles s /\ o_live s' = o_live s /\ sound_tree (o_tree s') /\
    made p (o_tree s) (o_tree s') /\
    (e = F_OK -> p <> [126; 47] -> lookup (o_tree s') (key_of p) <> None) /\
    (calm s -> absolute p = false -> no_files p (o_tree s) -> e = F_OK /\ (p <> [126; 47] -> lookup (o_tree s') (key_of p) = Some Dir)) /\
    (calm s -> lookup (o_tree s) (key_of p) = Some Dir -> e = F_OK /\ o_tree s' = o_tree s).
Proof.
  intros p s So. destruct (create_internal_spec p (length p) s So (le_n _)) as (e & s' & Q & H1 & H2 & H3 & H4 & H5 & H6 & _ & H8 & H9). rewrite firstn_all in *.
  assert (Ex : e = F_OK -> p <> [126; 47] -> lookup (o_tree s') (key_of p) <> None).
  { intros E N. destruct (list_eq_dec N.eq_dec p []) as [->|A]; [discriminate|]. destruct (list_eq_dec N.eq_dec p [47]) as [->|B]; [discriminate|]. destruct (list_eq_dec N.eq_dec p [46; 47]) as [->|D]; [discriminate|].
    apply (H5 E). intros [X|[X|[X|X]]]; contradiction. }
  exists e, s'. split; [exact Q|]. split; [exact H1|]. split; [exact H2|]. split; [exact H3|]. split; [exact H4|]. split; [exact Ex|]. split; [|exact H9].
  intros C A N. destruct (H8 C) as [_ K]. specialize (K A N). split; [exact K|]. intros X. specialize (Ex K X). pose proof (no_files_made p _ _ H4 N (length (components p))) as Nf. rewrite firstn_all in Nf.
  change (absolute p, components p) with (key_of p) in Nf. destruct (lookup (o_tree s') (key_of p)) as [[bs|]|]; [exfalso; exact (Nf bs eq_refl)|reflexivity|congruence].
Qed.
Example C182_example : exists s', tmu_create_directory [100; 47; 101; 47; 102] (sample [] []) = Some (F_OK, s') /\ found s' [100; 47; 101] = Some Dir /\ found s' [100; 47; 101; 47; 102] = Some Dir /\ found s' [97] = Some (File [65; 66]).
Proof. eexists. split; [vm_compute; reflexivity|]. repeat split. Qed.

(** ** C183: the directories of a file to be written *)
(** A tilde, colon or backslash inside of a name counts as the end of a directory. *)
Theorem C183_refuted : exists s s', calm s /\ found s [110] = None /\ tmu_write_file_ex [110; 126; 98] [1] (Flags true true false false) s = Some (1%nat, F_OK, s') /\ found s' [110] = Some Dir.
Proof. exists (sample [] []). eexists. split; [apply sample_calm|]. split; [reflexivity|]. split; vm_compute; reflexivity. Qed.
Definition plain_name (name : list N) : Prop := real_name name = true /\ Forall (fun c => c <> 0 /\ path_mark c = false) name.
Lemma path_len_plain d name : d <> [] -> plain_name name -> tmu_get_path_len_internal (d ++ 47 :: name) = length d.
Proof.
  intros Nd [_ Fn]. unfold tmu_get_path_len_internal.
  assert (H : forall k, (k <= S (length name))%nat -> path_len_from (d ++ 47 :: name) (length d + k) = length d).
  { induction k as [|k IH]; intros L.
    - rewrite Nat.add_0_r. destruct d as [|x d]; [congruence|]. cbn [length path_len_from]. change (S (length d)) with (length (x :: d)). rewrite app_nth2, Nat.sub_diag by lia. reflexivity.
    - rewrite Nat.add_succ_r. cbn [path_len_from]. rewrite app_nth2 by lia. replace (S (length d + k) - length d)%nat with (S k) by lia. cbn [nth].
      assert (path_mark (nth k name 0) = false) as -> by (destruct (Nat.lt_ge_cases k (length name)) as [X|X]; [rewrite Forall_forall in Fn; apply Fn, nth_In; exact X|rewrite nth_overflow by exact X; reflexivity]). apply IH. lia. }
  rewrite app_length. cbn [length]. apply H. lia.
Qed.
Theorem C183_tree_partial : forall d name data s, sound_tree (o_tree s) -> calm s -> d <> [] -> last d 0 <> 47 -> absolute d = false -> no_files d (o_tree s) -> plain_name name ->
  found s (d ++ 47 :: name) <> Some Dir ->
  exists s', tmu_write_file_ex (d ++ 47 :: name) data (Flags true true false false) s = Some (length data, F_OK, s') /\ found s' (d ++ 47 :: name) = Some (File data) /\ lookup (o_tree s') (key_of d) = Some Dir /\
    forall k, k <> key_of (d ++ 47 :: name) -> lookup (o_tree s') k = lookup (o_tree s) k \/ (lookup (o_tree s) k = None /\ lookup (o_tree s') k = Some Dir /\ exists j, k = (false, firstn j (components d))).
Proof.
  intros d name data s So C Nd Ls Ab Nf Pn Fd. set (p := d ++ 47 :: name) in *. assert (Pl : tmu_get_path_len_internal p = length d) by (apply path_len_plain; assumption).
  assert (Np : p <> []) by (unfold p; destruct d; discriminate). assert (Df : firstn (length d) p = d) by apply firstn_app_l.
  unfold tmu_write_file_ex, tmu_write_file_ex_t, tmu_write_file_ex_internal. cbn [w_tree w_overwrite w_atomic]. rewrite Pl.
  destruct (create_internal_spec p (length d) s So ltac:(unfold p; rewrite app_length; lia)) as (e & s1 & -> & P1 & P2 & P3 & P4 & P5 & _ & _ & P8 & _). rewrite Df in *. destruct (P8 C) as [C1 K]. specialize (K Ab Nf). subst e. cbv beta iota. change (F_OK =? F_OK) with true. cbn [negb]. cbv beta iota.
  assert (Ns : ~ shortcut d) by (intros [X|[X|[X|X]]]; [exact (Nd X)| | |]; rewrite X in Ls; apply Ls; reflexivity).
  assert (Dd : lookup (o_tree s1) (key_of d) = Some Dir).
  { specialize (P5 eq_refl Ns). pose proof (no_files_made d _ _ P4 Nf (length (components d))) as Y. rewrite firstn_all in Y. change (absolute d, components d) with (key_of d) in Y. destruct (lookup (o_tree s1) (key_of d)) as [[bs|]|]; [exfalso; exact (Y bs eq_refl)|reflexivity|congruence]. }
  assert (Sf : slash_free name) by (destruct Pn as [_ Fn]; unfold slash_free; rewrite Forall_forall in *; intros x X; destruct (Fn x X) as [_ M]; unfold path_mark in M; destruct (is_slash x); [discriminate M|reflexivity]).
  assert (Kp : key_of p = (false, components d ++ [name])).
  { unfold key_of, p. rewrite components_app, (components_free name Sf), (proj1 Pn), absolute_app by exact Nd. rewrite Ab. reflexivity. }
  assert (Kd : key_of d = (false, components d)) by (unfold key_of; rewrite Ab; reflexivity).
  assert (Pp : parent (key_of p) = key_of d) by (rewrite Kp, Kd; unfold parent; cbn [fst snd]; rewrite removelast_last; reflexivity).
  change (match sys_fopen_wb p s1 with (inl e, s0) => _ | (inr k, s0) => _ end) with (store p data s1).
  destruct (store_spec p data s1 P3) as (n & ec & s' & Q & G1 & G2 & G3 & G4 & G5 & G6 & G7). destruct (G7 C1) as [_ G8].
  assert (ec = F_OK) as ->.
  { apply G8; [exact Np| |rewrite Pp; exact Dd]. rewrite found_key by exact Np. rewrite found_key in Fd by exact Np. intros X. destruct P4 as [A B]. destruct (lookup (o_tree s) (key_of p)) as [nd|] eqn:Y; [rewrite A in X; congruence|].
    destruct (B _ Y) as [Z|[_ [j Z]]]; [congruence|]. rewrite Kp in Z. injection Z as _ Z. apply (f_equal (@length _)) in Z. rewrite app_length, firstn_length in Z. cbn [length] in Z. lia. }
  destruct (G5 eq_refl) as (-> & bs & B & D). assert (bs = data) as -> by (destruct D as [D|(e & m & I & _)]; [exact D|pose proof (calm_faults s1 C1 _ I); discriminate]).
  exists s'. split; [exact Q|]. split; [exact B|]. split.
  - rewrite G4; [exact Dd|]. rewrite Kp, Kd. intros X. injection X as X. apply (f_equal (@length _)) in X. rewrite app_length in X. cbn [length] in X. lia.
  - intros k Nk. rewrite (G4 k Nk). destruct P4 as [A B']. destruct (lookup (o_tree s) k) as [nd|] eqn:Y; [left; rewrite A; congruence|]. destruct (B' _ Y) as [Z|[Z [j W]]]; [left; congruence|]. right. split; [reflexivity|]. split; [exact Z|]. exists j. rewrite W, Ab. reflexivity.
Qed.
Example C183_example : exists s', tmu_write_file_ex [101; 47; 102; 47; 110] [1] (Flags true true false false) (sample [] []) = Some (1%nat, F_OK, s') /\ found s' [101; 47; 102] = Some Dir /\ found s' [101; 47; 102; 47; 110] = Some (File [1]).
Proof. eexists. split; [vm_compute; reflexivity|]. split; reflexivity. Qed.

(** ** C188: comparing the times of files *)
(** Far apart, the order is turned around: a before b before c before a. *)
Theorem C188_refuted : exists a b c, a < 2^64 /\ b < 2^64 /\ c < 2^64 /\ tmu_compare_file_time a b = (-1)%Z /\ tmu_compare_file_time b c = (-1)%Z /\ tmu_compare_file_time a c = 1%Z.
Proof. exists 0, (2^62), (2^63 + 1). repeat split. Qed.
Theorem C188_partial : forall a b, a < 2^64 -> b < 2^64 -> a < b + 2^63 -> b < a + 2^63 ->
  tmu_compare_file_time a b = match a ?= b with Lt => (-1)%Z | Eq => 0%Z | Gt => 1%Z end.
Proof.
  intros a b A B C D. unfold tmu_compare_file_time. cbv zeta. change (2^64) with 18446744073709551616 in *. change (2^63) with 9223372036854775808 in *.
  destruct (N.compare_spec a b) as [->|L|G].
  - replace (b + 18446744073709551616 - b) with 18446744073709551616 by lia. reflexivity.
  - rewrite N.mod_small by lia. destruct (N.leb_spec 9223372036854775808 (a + 18446744073709551616 - b)); [reflexivity|lia].
  - replace (a + 18446744073709551616 - b) with (a - b + 1 * 18446744073709551616) by lia. rewrite N.mod_add by lia. rewrite N.mod_small by lia. destruct (N.leb_spec 9223372036854775808 (a - b)); [lia|]. destruct (N.eqb_spec (a - b) 0); [lia|reflexivity].
Qed.
Example C188_example : tmu_compare_file_time 1700000000 1700000001 = (-1)%Z /\ tmu_compare_file_time 5 5 = 0%Z /\ tmu_compare_file_time 7 5 = 1%Z.
Proof. repeat split. Qed.

Print Assumptions C178_read_file.
Print Assumptions C179_leak_refuted.
Print Assumptions C179_double_free_refuted.
Print Assumptions C179_utf8_partial.
Print Assumptions C179_other_forms_partial.
Print Assumptions C180_lost_refuted.
Print Assumptions C180_mark_refuted.
Print Assumptions C180_write_partial.
Print Assumptions C180_round_trip.
Print Assumptions C181_lost_refuted.
Print Assumptions C181_self_refuted.
Print Assumptions C181_rename_partial.
Print Assumptions C182_absolute_refuted.
Print Assumptions C182_file_refuted.
Print Assumptions C182_create_partial.
Print Assumptions C183_refuted.
Print Assumptions C183_tree_partial.
Print Assumptions C188_refuted.
Print Assumptions C188_partial.
