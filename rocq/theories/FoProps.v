(** The working directory, the program's path, listings and the command line: the properties C184 to C187. *)
From Coq Require Import Arith NArith List Bool Lia.
From Verif Require Import Base CodecModel CodecProofs UniModel UniSpec UniText FiModel FiSpec FiRead FoModel FoProofs.
Import ListNotations.
Local Open Scope N_scope.

(** An environment without files, with the failures and refusals given. *)
Definition world (faults : list fault) (mem : list bool) : os := Os [] faults mem 0 0.

(** ** C184: the working directory *)
(** A path of 199 octets fills the block; there is no room for the slash, and the assertion fails. *)
Theorem C184_full_refuted : exists cwd, nonzero_text cwd /\ cwd <> [] /\ calm (world [] []) /\ tmu_current_working_directory 300 cwd 0 (world [] []) = None.
Proof. exists (47 :: repeat 97 198). split; [constructor; [discriminate|apply Forall_forall; intros x X; apply repeat_spec in X; subst; discriminate]|]. split; [discriminate|]. split; [split; constructor|]. vm_compute. reflexivity. Qed.
(** A failure other than a short block leaves the block to the caller, with the error. *)
Theorem C184_leak_refuted : exists c s', tmu_current_working_directory 9 [47; 97] 0 (world [Some (F_EIO, 0%nat)] []) = Some (c, F_EIO, s') /\ owned c = 1%nat /\ o_live s' = 1%nat.
Proof. eexists _, _. split; [vm_compute; reflexivity|]. split; reflexivity. Qed.
(** Otherwise: the text with one slash at its end and a terminator, room for what was asked. *)
Theorem C184_cwd_partial : forall fuel cwd extra s, nonzero_text cwd -> cwd <> [] -> (length cwd + length (o_faults s) < fuel)%nat ->
  (extra = 0%nat -> last cwd 0 = 47 \/ forall m, (length cwd + 1 <> INCREMENT * m)%nat) ->
  exists c ec s', tmu_current_working_directory fuel cwd extra s = Some (c, ec, s') /\ o_tree s' = o_tree s /\ o_handles s' = o_handles s /\ o_live s' = (o_live s + owned c)%nat /\
    (ec = F_OK -> f_size c = length (dir_text cwd) /\ (f_size c + extra <= f_capacity c)%nat /\ exists rest, f_data c = Some (dir_text cwd ++ 0 :: rest) /\ length (dir_text cwd ++ 0 :: rest) = f_capacity c) /\
    (calm s -> ec = F_OK).
Proof. exact cwd_spec. Qed.
Example C184_example : exists c s', tmu_current_working_directory 300 (47 :: repeat 97 250) 3 (world [] []) = Some (c, F_OK, s') /\ f_size c = 252%nat /\ f_capacity c = 400%nat /\ nth 251 (match f_data c with Some d => d | None => [] end) 0 = 47.
Proof. eexists _, _. split; [vm_compute; reflexivity|]. repeat split. Qed.

(** ** C185: the path of the program *)
(** When the link cannot be read at all, the buffer on the stack is freed. *)
Theorem C185_refuted : forall fuel link s e k, fst (take_fault s) = Some (e, k) -> tmu_module_filename fuel link s = None.
Proof. intros fuel link s e k F. unfold tmu_module_filename, sys_readlink. destruct (take_fault s) as [f s1]. cbn [fst] in F. subst f. reflexivity. Qed.
Theorem C185_file_partial : forall fuel link s, (length link < fuel)%nat -> fst (take_fault s) = None ->
  exists c ec s', tmu_module_filename fuel link s = Some (c, ec, s') /\ o_tree s' = o_tree s /\ o_handles s' = o_handles s /\ o_live s' = (o_live s + owned c)%nat /\
    (ec = F_OK -> holds_text c link) /\ (ec <> F_OK -> c = no_contents) /\ (calm s -> ec = F_OK).
Proof. exact module_spec. Qed.
Theorem C185_directory_partial : forall fuel link s, (length link < fuel)%nat -> fst (take_fault s) = None ->
  exists c ec s', tmu_module_directory fuel link s = Some (c, ec, s') /\ o_tree s' = o_tree s /\ o_handles s' = o_handles s /\ o_live s' = (o_live s + owned c)%nat /\
    (ec = F_OK -> exists d, up_to_slash link d /\ holds_text c d) /\ (ec <> F_OK -> c = no_contents) /\ (calm s -> ec = F_OK).
Proof. exact module_dir_spec. Qed.
Example C185_example : exists c s', tmu_module_directory 9 [47; 98; 47; 112] (world [] []) = Some (c, F_OK, s') /\ f_data c = Some [47; 98; 47; 0; 0] /\ f_size c = 3%nat /\
  exists c2 s2, tmu_module_filename 700 (47 :: repeat 97 599) (world [] []) = Some (c2, F_OK, s2) /\ f_size c2 = 600%nat /\ f_capacity c2 = 1040%nat /\ o_live s2 = 1%nat.
Proof. eexists _, _. split; [vm_compute; reflexivity|]. split; [reflexivity|]. split; [reflexivity|]. eexists _, _. split; [vm_compute; reflexivity|]. repeat split. Qed.

(** ** C186: listing a directory *)
(** The kinds of entries of readdir; 4 is a directory. *)
Definition is_directory (e : entry) : Prop := e_type e = 4.
(** A socket (12) and a block device (6) are taken for directories. *)
Theorem C186_kind_refuted : exists e, ~ is_directory e /\ list_all 9 (Opened 0 (Some (Entries [e] 0))) = Some ([(e_name e, false)], Opened 0 (Some (Entries [] 0))).
Proof. exists (Entry [115] 12). split; [discriminate|]. vm_compute. reflexivity. Qed.
(** A caller that reads to the end sees the entries other than "." and "..", each once, in the order of readdir, and its error. *)
Definition self_or_parent (n : list N) : Prop := n = [46] \/ n = [46; 46].
Inductive listed : list entry -> list entry -> Prop :=
| L_nil : listed [] []
| L_skip e es r : self_or_parent (e_name e) -> listed es r -> listed (e :: es) r
| L_keep e es r : ~ self_or_parent (e_name e) -> listed es r -> listed (e :: es) (e :: r).
Lemma dot_name_spec n : dot_name n = true <-> self_or_parent n.
Proof.
  unfold self_or_parent, dot_name. split.
  - destruct n as [|a [|b [|c n]]]; try discriminate; repeat (match goal with |- context [match ?x with _ => _ end] => destruct x; try discriminate end); auto.
  - intros [->| ->]; reflexivity.
Qed.
Theorem C186_listing_partial : forall fuel es err ec, (length es < fuel)%nat ->
  exists seen told_, listed es seen /\ list_all fuel (Opened ec (Some (Entries es err))) = Some (told_, Opened (if err =? 0 then ec else err) (Some (Entries [] err))) /\ map fst told_ = map e_name seen /\
    Forall2 (fun e t => In (e_type e) [1; 2; 4; 8; 10] -> (snd t = false <-> is_directory e)) seen told_.
Proof.
  intros fuel es err ec Fu. exists (filter visible es), (map told (filter visible es)). split; [|split; [apply list_all_spec; exact Fu|]].
  - clear Fu. induction es as [|e es IH]; [constructor|]. cbn [filter]. unfold visible at 1. destruct (dot_name (e_name e)) eqn:D; cbn [negb].
    + apply L_skip; [apply dot_name_spec; exact D|exact IH].
    + apply L_keep; [intros X; apply dot_name_spec in X; congruence|exact IH].
  - split; [rewrite map_map; reflexivity|]. induction (filter visible es) as [|e l IH]; [constructor|]. cbn [map]. constructor; [|exact IH]. intros I. unfold told, is_directory. cbn [snd In] in *.
    destruct I as [I|[I|[I|[I|[I|[]]]]]]; rewrite <- I; split; intros X; try discriminate X; reflexivity.
Qed.
Example C186_example : list_all 9 (Opened 0 (Some (Entries [Entry [46] 4; Entry [97] 8; Entry [46; 46] 4; Entry [100] 4; Entry [46; 97] 10] 0))) = Some ([([97], true); ([100], false); ([46; 97], true)], Opened 0 (Some (Entries [] 0))).
Proof. vm_compute. reflexivity. Qed.

(** ** C187: the command line *)
Theorem C187_command_line : forall fuel args texts s, converted args texts -> fits fuel args ->
  exists ec line s', tmu_utf8_command_line_from_utf16 fuel args s = Some (ec, line, s') /\ o_tree s' = o_tree s /\ o_handles s' = o_handles s /\
    ((ec = OK /\ o_live s' = S (o_live s) /\ exists offsets pool, line = Some (offsets, pool) /\ length offsets = S (length texts) /\
        (forall i t, nth_error (texts ++ [[]]) i = Some t -> exists o more, nth_error offsets i = Some o /\ skipn o pool = t ++ 0 :: more) /\
        exists s2, tmu_utf8_destroy_command_line line s' = Some s2 /\ o_live s2 = o_live s) \/
     (ec = ENOMEM /\ line = None /\ o_live s' = o_live s /\ ~ calm s)).
Proof.
  intros fuel args texts s C F. destruct (command_line_ok fuel args texts s C F) as (ec & line & s' & Q & H1 & H2 & H). exists ec, line, s'. split; [exact Q|]. split; [exact H1|]. split; [exact H2|].
  destruct H as [(E & -> & L)|H]; [left|right; exact H]. split; [exact E|]. split; [exact L|]. eexists _, _. split; [reflexivity|].
  assert (Lo : forall ts cur, length (offsets_of ts cur) = length ts) by (induction ts as [|t ts IH]; intros cur; cbn [offsets_of length]; [reflexivity|rewrite IH; reflexivity]).
  split; [rewrite app_length, Lo; cbn [length]; lia|]. split.
  - intros i t E2. destruct (Nat.lt_ge_cases i (length texts)) as [Li|Li].
    + rewrite nth_error_app1 in E2 by exact Li. destruct (offsets_find texts 0 i t E2) as (o & N & more & K). exists o, (more ++ [0]). rewrite nth_error_app1 by (rewrite Lo; exact Li). split; [exact N|].
      rewrite skipn_app, K, <- app_assoc. cbn [app]. f_equal. f_equal. f_equal.
      assert (o < length (pool_of texts))%nat by (apply (f_equal (@length _)) in K; rewrite skipn_length, app_length in K; cbn [length] in K; lia). replace (o - length (pool_of texts))%nat with 0%nat by lia. reflexivity.
    + rewrite nth_error_app2 in E2 by exact Li. destruct (i - length texts)%nat as [|k] eqn:Ek; [|destruct k; discriminate E2]. injection E2 as <-. exists (length (pool_of texts)), []. rewrite nth_error_app2 by (rewrite Lo; exact Li). rewrite Lo, Ek. split; [reflexivity|].
      rewrite skipn_app, skipn_all, Nat.sub_diag. reflexivity.
  - unfold tmu_utf8_destroy_command_line, free. rewrite L. eexists. split; reflexivity.
Qed.
Theorem C187_ill_formed : forall fuel before texts vs us rest after s, converted before texts -> fits fuel before -> rest <> [] -> (length us < fuel)%nat -> units16 rest -> encodes utf16_seq vs us -> ill_formed_at utf16_seq rest ->
  tmu_utf8_command_line_from_utf16 fuel (before ++ (us ++ rest) :: after) s = Some (EINVAL, None, s).
Proof. exact command_line_bad. Qed.
Example C187_example : tmu_utf8_command_line_from_utf16 9 [[112]; [0x20AC; 65]] (world [] []) = Some (OK, Some ([0%nat; 2%nat; 7%nat], [112; 0; 0xE2; 0x82; 0xAC; 65; 0; 0]), live_up (world [] [])) /\
  tmu_utf8_command_line_from_utf16 9 [[112]; [0xD800; 65]; [66]] (world [] []) = Some (EINVAL, None, world [] []).
Proof. split; vm_compute; reflexivity. Qed.

Print Assumptions C184_full_refuted.
Print Assumptions C184_leak_refuted.
Print Assumptions C184_cwd_partial.
Print Assumptions C185_refuted.
Print Assumptions C185_file_partial.
Print Assumptions C185_directory_partial.
Print Assumptions C186_kind_refuted.
Print Assumptions C186_listing_partial.
Print Assumptions C187_command_line.
Print Assumptions C187_ill_formed.
