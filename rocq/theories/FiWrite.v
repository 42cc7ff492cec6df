(** Writing, renaming and deleting. *)
From Coq Require Import Arith NArith List Bool Lia.
From Verif Require Import Base FiModel FiSpec FiRead FiDir.
Import ListNotations.
Local Open Scope N_scope.

Lemma file_exists_spec p s b e s' : tmu_file_exists_t p s = (b, e, s') -> frame s s' /\
  (b = true -> exists bs, found s p = Some (File bs)) /\ (e = F_OK -> b = false -> forall bs, found s p <> Some (File bs)) /\
  (calm s -> calm s' /\ e = F_OK).
Proof.
  unfold tmu_file_exists_t. destruct (sys_stat p s) as [r s1] eqn:St. destruct (stat_frame _ _ _ _ St) as (Fr & Ca & D1 & D2). intros E.
  destruct r as [e1|n].
  - injection E as <- <- <-. split; [exact Fr|]. split; [discriminate|]. split.
    + destruct (e1 =? F_ENOENT) eqn:E1; [intros _ _ bs; apply N.eqb_eq in E1; rewrite (D2 _ eq_refl (or_introl E1)); discriminate|].
      destruct (e1 =? F_ENOTDIR) eqn:E2; [intros _ _ bs; apply N.eqb_eq in E2; rewrite (D2 _ eq_refl (or_intror E2)); discriminate|]. cbn [orb]. intros X. exfalso.
      unfold sys_stat in St. destruct (take_fault s) as [[[e k]|] s2]; [injection St as <- <-; exact (fault_errno_pos e X)|]. destruct p; [injection St as <- <-; discriminate X|].
      destruct (lookup _ _); [discriminate St|]. injection St as <- <-. destruct (missing_nonzero (o_tree s2) (key_of (n :: p))) as [Y _]. exact (Y X).
    + intros C. destruct (Ca C) as [C1 R]. split; [exact C1|]. destruct (found s p); [discriminate R|]. injection R as ->. unfold missing. destruct p; [reflexivity|]. destruct (blocked _ _ _ _); reflexivity.
  - injection E as <- <- <-. specialize (D1 _ eq_refl). split; [exact Fr|]. split; [destruct n; [intros _; eexists; exact D1|discriminate]|]. split; [intros _ X bs Y; rewrite D1 in Y; injection Y as ->; discriminate X|]. intros C. split; [apply (Ca C)|reflexivity].
Qed.

Lemma found_key s p : p <> [] -> found s p = lookup (o_tree s) (key_of p).
Proof. destruct p; [congruence|reflexivity]. Qed.
Lemma found_file s p bs : found s p = Some (File bs) -> p <> [] /\ lookup (o_tree s) (key_of p) = Some (File bs).
Proof. unfold found. destruct p; [discriminate|]. split; [discriminate|assumption]. Qed.
Lemma file_key s p bs : found s p = Some (File bs) -> snd (key_of p) <> [].
Proof. intros F. destruct (found_file _ _ _ F) as [_ L]. apply (lookup_none_snd (o_tree s)). congruence. Qed.

Lemma calm_faults s : calm s -> forall f, In f (o_faults s) -> f = None.
Proof. intros [C _]. rewrite Forall_forall in C. exact C. Qed.
Lemma take_fault_in s f s' : take_fault s = (f, s') -> (f = None \/ In f (o_faults s)) /\ incl (o_faults s') (o_faults s).
Proof. unfold take_fault. destruct (o_faults s) eqn:E; intros [= <- <-]; [rewrite E; split; [left; reflexivity|apply incl_refl]|]. cbn [o_faults]. split; [right; left; reflexivity|apply incl_tl, incl_refl]. Qed.

(** The part after the checks: open, write, close. *)
Definition store (p : path) (data : list N) (s : os) : option (nat * N * os) :=
  match sys_fopen_wb p s with
  | (inl e, s) => Some (0%nat, if e =? 0 then F_EIO else e, s)
  | (inr k, s) =>
      let '(taken, er, s) := sys_fwrite data s in
      let en := errno_after 0 er in let bad := had_error false er in
      let ec := if negb (length taken =? length data)%nat || negb (en =? 0) || bad then (if negb (en =? 0) then en else F_EIO) else F_OK in
      ' (_, s) <- sys_fclose_w k taken s ;;
      Some (length taken, ec, s)
  end.
Lemma store_spec p data s : sound_tree (o_tree s) ->
  exists n ec s', store p data s = Some (n, ec, s') /\ o_handles s' = o_handles s /\ o_live s' = o_live s /\ sound_tree (o_tree s') /\
    (forall k, k <> key_of p -> lookup (o_tree s') k = lookup (o_tree s) k) /\
    (ec = F_OK -> n = length data /\ exists bs, found s' p = Some (File bs) /\ (bs = data \/ exists e m, In (Some (e, m)) (o_faults s) /\ bs = firstn m data)) /\
    (found s' p = found s p \/ exists m, found s' p = Some (File (firstn m data))) /\
    (calm s -> calm s' /\ (p <> [] -> found s p <> Some Dir -> lookup (o_tree s) (parent (key_of p)) = Some Dir -> ec = F_OK)).
Proof.
  intros So. unfold store, sys_fopen_wb. destruct (take_fault s) as [f s1] eqn:T. destruct (take_fault_spec _ _ _ T) as [(Ft & Fh & Fl) Ca]. pose proof (take_fault_in _ _ _ T) as [_ In1].
  assert (Stop : forall e1 : N, e1 <> 0 -> (calm s -> p <> [] -> found s p <> Some Dir -> lookup (o_tree s) (parent (key_of p)) = Some Dir -> False) -> (calm s -> calm s1) ->
    exists n ec s', Some (0%nat, if e1 =? 0 then F_EIO else e1, s1) = Some (n, ec, s') /\ o_handles s' = o_handles s /\ o_live s' = o_live s /\ sound_tree (o_tree s') /\
    (forall k, k <> key_of p -> lookup (o_tree s') k = lookup (o_tree s) k) /\
    (ec = F_OK -> n = length data /\ exists bs, found s' p = Some (File bs) /\ (bs = data \/ exists e m, In (Some (e, m)) (o_faults s) /\ bs = firstn m data)) /\
    (found s' p = found s p \/ exists m, found s' p = Some (File (firstn m data))) /\
    (calm s -> calm s' /\ (p <> [] -> found s p <> Some Dir -> lookup (o_tree s) (parent (key_of p)) = Some Dir -> ec = F_OK))).
  { intros e1 N1 X Cs. destruct (e1 =? 0) eqn:E1; [apply N.eqb_eq in E1; contradiction|]. exists 0%nat, e1, s1. split; [reflexivity|]. split; [exact Fh|]. split; [exact Fl|]. rewrite Ft. split; [exact So|]. split; [reflexivity|].
    split; [intros Y; contradiction|]. split; [left; unfold found; rewrite Ft; reflexivity|]. intros C. split; [apply Cs; exact C|]. intros A B D. exfalso. exact (X C A B D). }
  destruct f as [[e k]|]; [apply Stop; [apply fault_errno_pos|intros C; destruct (Ca C); discriminate|intros C; destruct (Ca C); discriminate]|].
  destruct p as [|c p]; [apply Stop; [discriminate|congruence|intros C; apply (Ca C)]|]. set (q := c :: p) in *. clearbody q. rewrite Ft.
  assert (Fk : forall s0, found s0 q = lookup (o_tree s0) (key_of q) \/ q = []) by (intros s0; destruct q; [right|left]; reflexivity).
  assert (Go : snd (key_of q) <> [] -> lookup (o_tree s) (key_of q) <> Some Dir -> lookup (o_tree s) (parent (key_of q)) = Some Dir -> q <> [] ->
    exists n ec s', (let '(taken, er, s3) := sys_fwrite data (handle_up (with_tree s1 (put (o_tree s) (key_of q) (File [])))) in
       ' (_, s0) <- sys_fclose_w (key_of q) taken s3 ;;
       Some (length taken, if negb (length taken =? length data)%nat || negb (errno_after 0 er =? 0) || had_error false er then (if negb (errno_after 0 er =? 0) then errno_after 0 er else F_EIO) else F_OK, s0)) = Some (n, ec, s') /\ o_handles s' = o_handles s /\ o_live s' = o_live s /\ sound_tree (o_tree s') /\
    (forall k, k <> key_of q -> lookup (o_tree s') k = lookup (o_tree s) k) /\
    (ec = F_OK -> n = length data /\ exists bs, found s' q = Some (File bs) /\ (bs = data \/ exists e m, In (Some (e, m)) (o_faults s) /\ bs = firstn m data)) /\
    (found s' q = found s q \/ exists m, found s' q = Some (File (firstn m data))) /\
    (calm s -> calm s' /\ ec = F_OK)).
  { intros R Nd Pd Nq. unfold sys_fwrite. destruct (take_fault (handle_up _)) as [f2 s3] eqn:T2. destruct (take_fault_spec _ _ _ T2) as [(Gt & Gh & Gl) Cb]. pose proof (take_fault_in _ _ _ T2) as [_ In2]. cbn [o_tree o_handles o_live o_faults handle_up with_tree] in Gt, Gh, Gl, In2.
    assert (exists taken er, (match f2 with Some (e, k) => (firstn k data, Some (fault_errno e), s3) | None => (data, None, s3) end) = (taken, er, s3) /\ (f2 = None -> er = None) /\ (er = None -> taken = data) /\ (exists m, taken = firstn m data) /\ (er <> None -> errno_after 0 er <> 0)) as (taken & er & -> & W1 & W2 & (m & W3) & W4).
    { destruct f2 as [[e k]|]; eexists _, _; (split; [reflexivity|]).
      - split; [discriminate|]. split; [discriminate|]. split; [eexists; reflexivity|]. intros _. apply fault_errno_pos.
      - split; [reflexivity|]. split; [reflexivity|]. split; [exists (length data); rewrite firstn_all; reflexivity|congruence]. }
    unfold sys_fclose_w. destruct (take_fault s3) as [f3 s4] eqn:T3. destruct (take_fault_spec _ _ _ T3) as [(Ht & Hh & Hl) Cc]. pose proof (take_fault_in _ _ _ T3) as [In3 In4].
    rewrite Hh, Gh. cbv beta iota.
    assert (exists m', forall e0 s0, (match f3 with Some (e, m) => (fault_errno e, Os (put (o_tree s4) (key_of q) (File (firstn m taken))) (o_faults s4) (o_mem s4) (o_live s4) (o_handles s1))
        | None => (F_OK, Os (put (o_tree s4) (key_of q) (File taken)) (o_faults s4) (o_mem s4) (o_live s4) (o_handles s1)) end) = (e0, s0) ->
        s0 = Os (put (o_tree s4) (key_of q) (File (firstn m' taken))) (o_faults s4) (o_mem s4) (o_live s4) (o_handles s1) /\ (f3 = None -> firstn m' taken = taken) /\ (forall e2 k2, f3 = Some (e2, k2) -> m' = k2)) as (m' & Cl).
    { destruct f3 as [[e k]|].
      - exists k. intros e0 s0 [= <- <-]. split; [reflexivity|]. split; [discriminate|]. intros e2 k2 [= _ ->]. reflexivity.
      - exists (length taken). intros e0 s0 [= <- <-]. rewrite firstn_all. split; [reflexivity|]. split; [reflexivity|]. discriminate. }
    destruct (match f3 with Some _ => _ | None => _ end) as [e0 s0] eqn:Q0. destruct (Cl _ _ eq_refl) as (-> & Cl1 & Cl2). clear Q0 Cl.
    eexists _, _, _. split; [reflexivity|]. cbn [o_tree o_handles o_live]. split; [congruence|]. split; [congruence|].
    assert (Et : forall k, lookup (put (o_tree s4) (key_of q) (File (firstn m' taken))) k = if key_eqb (key_of q) k then Some (File (firstn m' taken)) else lookup (o_tree s) k).
    { intros k. rewrite lookup_put by exact R. destruct (key_eqb_spec (key_of q) k) as [_|Nk]; [reflexivity|]. rewrite Ht, Gt, lookup_put by exact R. destruct (key_eqb_spec (key_of q) k); [contradiction|reflexivity]. }
    split.
    { intros a cs c0. rewrite !Et. destruct (key_eqb_spec (key_of q) (a, cs ++ [c0])) as [E|E].
      - intros _. destruct (key_eqb_spec (key_of q) (a, cs)) as [E2|E2]; [rewrite E in E2; injection E2 as E2; apply (f_equal (@length _)) in E2; rewrite app_length in E2; cbn in E2; lia|].
        rewrite E in Pd. unfold parent in Pd. cbn [fst snd] in Pd. rewrite removelast_last in Pd. exact Pd.
      - intros H. pose proof (So _ _ _ H) as D. destruct (key_eqb_spec (key_of q) (a, cs)) as [E2|E2]; [rewrite E2 in Nd; congruence|exact D]. }
    split; [intros k Nk; rewrite Et; destruct (key_eqb_spec (key_of q) k); [congruence|reflexivity]|].
    assert (Fq : found (Os (put (o_tree s4) (key_of q) (File (firstn m' taken))) (o_faults s4) (o_mem s4) (o_live s4) (o_handles s1)) q = Some (File (firstn m' taken))) by (rewrite found_key by exact Nq; cbn [o_tree]; rewrite Et, key_eqb_refl; reflexivity).
    rewrite Fq. split; [|split; [right; rewrite W3, firstn_firstn; eexists; reflexivity|]].
    - destruct er as [er|].
      { specialize (W4 ltac:(discriminate)). destruct (errno_after 0 (Some er) =? 0) eqn:E; [apply N.eqb_eq in E; contradiction|]. cbn [negb]. rewrite orb_true_r. cbn [orb]. intros X. contradiction. }
      specialize (W2 eq_refl). subst taken. rewrite Nat.eqb_refl. cbn [negb errno_after orb had_error N.eqb]. intros _. split; [reflexivity|]. eexists. split; [reflexivity|].
      destruct f3 as [[e k]|]; [|left; apply Cl1; reflexivity]. right. exists e, k. split; [|rewrite (Cl2 _ _ eq_refl); reflexivity]. destruct In3 as [X|X]; [discriminate|]. apply In1. apply In2. exact X.
    - intros C. destruct (Ca C) as [_ C1]. destruct (Cb C1) as [-> C2]. destruct (Cc C2) as [-> C3]. split; [exact C3|]. rewrite (W1 eq_refl). rewrite (W2 (W1 eq_refl)), Nat.eqb_refl. reflexivity. }
  clear Stop. assert (Stop : forall e1 : N, e1 <> 0 -> (calm s -> q <> [] -> found s q <> Some Dir -> lookup (o_tree s) (parent (key_of q)) = Some Dir -> False) -> (calm s -> calm s1) ->
    exists n ec s', Some (0%nat, if e1 =? 0 then F_EIO else e1, s1) = Some (n, ec, s') /\ o_handles s' = o_handles s /\ o_live s' = o_live s /\ sound_tree (o_tree s') /\
    (forall k, k <> key_of q -> lookup (o_tree s') k = lookup (o_tree s) k) /\
    (ec = F_OK -> n = length data /\ exists bs, found s' q = Some (File bs) /\ (bs = data \/ exists e m, In (Some (e, m)) (o_faults s) /\ bs = firstn m data)) /\
    (found s' q = found s q \/ exists m, found s' q = Some (File (firstn m data))) /\
    (calm s -> calm s' /\ (q <> [] -> found s q <> Some Dir -> lookup (o_tree s) (parent (key_of q)) = Some Dir -> ec = F_OK))).
  { intros e1 N1 X Cs. destruct (e1 =? 0) eqn:E1; [apply N.eqb_eq in E1; contradiction|]. exists 0%nat, e1, s1. split; [reflexivity|]. split; [exact Fh|]. split; [exact Fl|]. rewrite Ft. split; [exact So|]. split; [reflexivity|].
    split; [intros Y; contradiction|]. split; [left; unfold found; rewrite Ft; reflexivity|]. intros C. split; [apply Cs; exact C|]. intros A B D. exfalso. exact (X C A B D). }
  destruct (list_eq_dec N.eq_dec q []) as [Eq|Nq].
  { (* not reached: the empty name was handled above *)
    subst q. cbn [key_of components split_slash filter real_name snd fst absolute lookup]. apply Stop; [discriminate|congruence|intros C; apply (Ca C)]. }
  assert (Fq : found s q = lookup (o_tree s) (key_of q)) by (apply found_key; exact Nq).
  destruct (lookup (o_tree s) (key_of q)) as [[old|]|] eqn:L.
  - assert (R : snd (key_of q) <> []) by (apply (lookup_none_snd (o_tree s)); congruence).
    pose proof (parent_dir _ _ So R ltac:(rewrite L; discriminate)) as Pd. rewrite Pd. destruct (Go R ltac:(discriminate) Pd Nq) as (n & ec & s' & Q & G1 & G2 & G3 & G4 & G5 & G6 & G7).
    exists n, ec, s'. split; [exact Q|]. split; [exact G1|]. split; [exact G2|]. split; [exact G3|]. split; [exact G4|]. split; [exact G5|]. split; [exact G6|]. intros C. destruct (G7 C). split; [assumption|]. intros; assumption.
  - apply Stop; [discriminate|intros _ _ X; congruence|intros C; apply (Ca C)].
  - assert (R : snd (key_of q) <> []) by (apply (lookup_none_snd (o_tree s)); congruence).
    destruct (lookup (o_tree s) (parent (key_of q))) as [[bs|]|] eqn:Pd.
    + apply Stop; [apply missing_nonzero|intros _ _ _ X; discriminate|intros C; apply (Ca C)].
    + destruct (Go R ltac:(discriminate) eq_refl Nq) as (n & ec & s' & Q & G1 & G2 & G3 & G4 & G5 & G6 & G7).
      exists n, ec, s'. split; [exact Q|]. split; [exact G1|]. split; [exact G2|]. split; [exact G3|]. split; [exact G4|]. split; [exact G5|]. split; [exact G6|]. intros C. destruct (G7 C). split; [assumption|]. intros; assumption.
    + apply Stop; [apply missing_nonzero|intros _ _ _ X; discriminate|intros C; apply (Ca C)].
Qed.

(** The directory part of a file name as the library sees it. *)
Definition dir_part (p : path) : path := firstn (tmu_get_path_len_internal p) p.
Lemma path_len_le p : (tmu_get_path_len_internal p <= length p)%nat.
Proof. unfold tmu_get_path_len_internal. induction (length p) as [|n IH]; cbn [path_len_from]; [lia|]. destruct (path_mark _); lia. Qed.

(** A key whose entry was not touched, or a directory made on the way. *)
Definition kept (d : option path) (t t' : tree) (k : key) : Prop :=
  lookup t' k = lookup t k \/ (exists q, d = Some q /\ lookup t k = None /\ lookup t' k = Some Dir /\ exists j, k = (absolute q, firstn j (components q))).

Lemma prepare_spec (tr : bool) p s : sound_tree (o_tree s) ->
  exists e s', (if tr then tmu_create_directory_internal p (tmu_get_path_len_internal p) s else Some (F_OK, s)) = Some (e, s') /\
    o_handles s' = o_handles s /\ o_live s' = o_live s /\ sound_tree (o_tree s') /\ (forall k, kept (if tr then Some (dir_part p) else None) (o_tree s) (o_tree s') k) /\
    (forall k bs, lookup (o_tree s) k = Some (File bs) -> lookup (o_tree s') k = Some (File bs)) /\
    (forall k bs, lookup (o_tree s') k = Some (File bs) -> lookup (o_tree s) k = Some (File bs)) /\
    (tr = false -> e = F_OK /\ s' = s) /\
    (calm s -> calm s' /\ (absolute (dir_part p) = false -> no_files (dir_part p) (o_tree s) -> e = F_OK)).
Proof.
  intros So. destruct tr.
  - destruct (create_internal_spec p (tmu_get_path_len_internal p) s So (path_len_le p)) as (e & s' & Q & H1 & H2 & H3 & [H4 H4'] & H5 & H6 & H7 & H8 & H9). exists e, s'. split; [exact Q|]. split; [exact H1|]. split; [exact H2|]. split; [exact H3|].
    split; [|split; [|split; [|split; [discriminate|exact H8]]]].
    + intros k. destruct (lookup (o_tree s) k) eqn:L; [left; rewrite H4; congruence|]. destruct (H4' k L) as [X|[X J]]; [left; congruence|]. right. eexists. split; [reflexivity|]. split; [exact L|]. split; [exact X|exact J].
    + intros k bs X. rewrite H4; [exact X|congruence].
    + intros k bs X. destruct (lookup (o_tree s) k) eqn:L; [rewrite <- X; symmetry; rewrite <- L; apply H4; congruence|]. destruct (H4' k L) as [Y|[Y _]]; congruence.
  - exists F_OK, s. split; [reflexivity|]. split; [reflexivity|]. split; [reflexivity|]. split; [exact So|]. split; [intros k; left; reflexivity|]. split; [auto|]. split; [auto|]. split; [auto|]. intros C. split; [exact C|reflexivity].
Qed.

Lemma single_faults q s e s' : tmu_create_single_directory_t q s = (e, s') -> incl (o_faults s') (o_faults s).
Proof.
  unfold tmu_create_single_directory_t, sys_mkdir. destruct (take_fault s) as [f s1] eqn:T. destruct (take_fault_in _ _ _ T) as [_ I]. destruct f as [[e1 k]|]; [intros [= _ <-]; exact I|].
  destruct q as [|c q]; [intros [= _ <-]; exact I|]. destruct (lookup _ (key_of _)); [intros [= _ <-]; exact I|]. destruct (lookup _ (parent _)) as [[bs|]|]; intros [= _ <-]; exact I.
Qed.
Lemma loop_faults : forall fuel p stop s e s', create_loop fuel p stop s = Some (e, s') -> incl (o_faults s') (o_faults s).
Proof.
  induction fuel as [|fuel IH]; intros p stop s e s'; cbn [create_loop]; [discriminate|]. destruct stop as [i|].
  - destruct (tmu_create_single_directory_t (firstn i p) s) as [e1 s1] eqn:Q. apply single_faults in Q. destruct (negb _); [intros [= _ <-]; exact Q|]. destruct (_ =? _)%nat; [intros [= _ <-]; exact Q|]. intros X. apply IH in X. exact (incl_tran X Q).
  - destruct (tmu_create_single_directory_t p s) as [e1 s1] eqn:Q. intros [= _ <-]. exact (single_faults _ _ _ _ Q).
Qed.
Lemma prepare_faults (tr : bool) p s e s' : (if tr then tmu_create_directory_internal p (tmu_get_path_len_internal p) s else Some (F_OK, s)) = Some (e, s') -> incl (o_faults s') (o_faults s).
Proof.
  destruct tr; [|intros [= _ <-]; apply incl_refl]. unfold tmu_create_directory_internal. set (len := tmu_get_path_len_internal p). clearbody len.
  destruct (len =? 0)%nat; [intros [= _ <-]; apply incl_refl|]. destruct (_ && _); [intros [= _ <-]; apply incl_refl|]. destruct (_ && _); [intros [= _ <-]; apply incl_refl|].
  assert (G : forall s b s1, malloc s (S len) = (b, s1) -> o_faults s1 = o_faults s) by (intros s0 b s1; unfold malloc, grant; destruct (o_mem s0) as [|[] ?]; intros [= _ <-]; reflexivity).
  assert (D : forall s2 s3, (if (len <? 260)%nat then Some s2 else free s2) = Some s3 -> o_faults s3 = o_faults s2) by (intros s2 s3; destruct (len <? 260)%nat; [intros [= <-]; reflexivity|]; unfold free; destruct (o_live s2); [discriminate|]; intros [= <-]; reflexivity).
  destruct (if (len <? 260)%nat then (Some [], s) else malloc s (S len)) as [b s1] eqn:B. assert (E1 : o_faults s1 = o_faults s) by (destruct (len <? 260)%nat; [injection B as _ <-; reflexivity|exact (G _ _ _ B)]). clear B G.
  destruct b as [b|]; [|intros [= _ <-]; rewrite E1; apply incl_refl].
  destruct (tmu_directory_exists_t _ s1) as [[yes e2] s2] eqn:X.
  assert (I2 : incl (o_faults s2) (o_faults s1)).
  { unfold tmu_directory_exists_t, sys_stat in X. destruct (take_fault s1) as [f s3] eqn:T. destruct (take_fault_in _ _ _ T) as [_ Y]. assert (s2 = s3) as ->; [|exact Y]. destruct (match f with Some _ => _ | None => _ end); injection X as _ _ ->; reflexivity. }
  destruct yes.
  - destruct (if (len <? 260)%nat then Some s2 else free s2) as [s3|] eqn:F; [|discriminate]. intros [= _ <-]. rewrite (D _ _ F), <- E1. exact I2.
  - destruct (create_loop _ _ _ s2) as [[e3 s3]|] eqn:L; [|discriminate]. apply loop_faults in L. destruct (if (len <? 260)%nat then Some s3 else free s3) as [s4|] eqn:F; [|discriminate]. intros [= _ <-]. rewrite (D _ _ F), <- E1. exact (incl_tran L I2).
Qed.

Lemma kept_trans d t1 t2 t3 k : kept d t1 t2 k -> lookup t3 k = lookup t2 k -> kept d t1 t3 k.
Proof. intros [E|(q & D & L & L' & J)] X; [left; congruence|]. right. exists q. rewrite X. auto. Qed.

Theorem write_spec : forall p data fl s, sound_tree (o_tree s) -> w_atomic fl = false ->
  exists n ec s', tmu_write_file_ex_t p data fl s = Some (n, ec, s') /\ o_handles s' = o_handles s /\ o_live s' = o_live s /\ sound_tree (o_tree s') /\
    (forall k, k <> key_of p -> kept (if w_tree fl then Some (dir_part p) else None) (o_tree s) (o_tree s') k) /\
    (ec = F_OK -> n = length data /\ exists bs, found s' p = Some (File bs) /\ (bs = data \/ exists e m, In (Some (e, m)) (o_faults s) /\ bs = firstn m data)) /\
    (kept (if w_tree fl then Some (dir_part p) else None) (o_tree s) (o_tree s') (key_of p) \/ exists m, found s' p = Some (File (firstn m data))) /\
    (w_overwrite fl = false -> forall bs, found s p = Some (File bs) -> ec <> F_OK /\ found s' p = Some (File bs)) /\
    (calm s -> calm s') /\
    (calm s -> p <> [] -> w_tree fl = false -> found s p <> Some Dir -> (forall bs, found s p = Some (File bs) -> w_overwrite fl = true) -> lookup (o_tree s) (parent (key_of p)) = Some Dir -> ec = F_OK).
Proof.
  intros p data fl s So At. unfold tmu_write_file_ex_t. rewrite At. unfold tmu_write_file_ex_internal.
  destruct (prepare_spec (w_tree fl) p s So) as (e & s1 & Q & P1 & P2 & P3 & P4 & P5 & P6 & P7 & P8). rewrite Q. pose proof (prepare_faults _ _ _ _ _ Q) as In1. clear Q. cbv beta iota.
  assert (F16 : forall bs, found s p = Some (File bs) -> found s1 p = Some (File bs)) by (intros bs X; destruct (found_file _ _ _ X) as [Np Y]; rewrite found_key by exact Np; apply P5; exact Y).
  assert (F61 : forall bs, found s1 p = Some (File bs) -> found s p = Some (File bs)) by (intros bs X; destruct (found_file _ _ _ X) as [Np Y]; rewrite found_key by exact Np; apply P6; exact Y).
  destruct (e =? F_OK) eqn:E; cbn [negb].
  2:{ apply N.eqb_neq in E. exists 0%nat, e, s1. split; [reflexivity|]. split; [exact P1|]. split; [exact P2|]. split; [exact P3|]. split; [intros k _; apply P4|]. split; [intros X; contradiction|]. split; [left; apply P4|].
      split; [intros _ bs X; split; [exact E|apply F16; exact X]|]. split; [intros C; apply (P8 C)|]. intros _ _ W. exfalso. apply E. apply (P7 W). }
  apply N.eqb_eq in E. subst e.
  assert (exists refuse e2 s2, (if w_overwrite fl then (false, F_OK, s1) else tmu_file_exists_t p s1) = (refuse, e2, s2) /\ frame s1 s2 /\ (calm s1 -> calm s2 /\ e2 = F_OK) /\ (w_overwrite fl = false -> e2 = F_OK -> refuse = false -> forall bs, found s1 p <> Some (File bs)) /\ (refuse = true -> w_overwrite fl = false /\ exists bs, found s1 p = Some (File bs)) /\ incl (o_faults s2) (o_faults s1)) as (refuse & e2 & s2 & -> & (Ft & Fh & Fl) & C2 & R1 & R2 & In2).
  { destruct (w_overwrite fl).
    - exists false, F_OK, s1. split; [reflexivity|]. split; [apply frame_refl|]. split; [auto|]. split; [discriminate|]. split; [discriminate|apply incl_refl].
    - destruct (tmu_file_exists_t p s1) as [[b e2] s2] eqn:X. destruct (file_exists_spec _ _ _ _ _ X) as (X1 & X2 & X3 & X4). exists b, e2, s2. split; [reflexivity|]. split; [exact X1|]. split; [exact X4|]. split; [auto|]. split; [auto|].
      unfold tmu_file_exists_t, sys_stat in X. destruct (take_fault s1) as [f s3] eqn:T. destruct (take_fault_in _ _ _ T) as [_ Y]. assert (s2 = s3) as ->; [|exact Y]. destruct (match f with Some _ => _ | None => _ end); injection X as _ _ ->; reflexivity. }
  cbv beta iota. assert (Fd : found s2 p = found s1 p) by (unfold found; rewrite Ft; reflexivity).
  destruct (e2 =? F_OK) eqn:E2; cbn [negb].
  2:{ apply N.eqb_neq in E2. exists 0%nat, e2, s2. split; [reflexivity|]. split; [congruence|]. split; [congruence|]. split; [rewrite Ft; exact P3|]. rewrite Ft. split; [intros k _; apply P4|]. split; [intros X; contradiction|]. split; [left; apply P4|].
      split; [intros _ bs X; split; [exact E2|rewrite Fd; apply F16; exact X]|]. split; [intros C; apply C2, P8, C|]. intros C _ _ _ _ _. apply C2, P8, C. }
  apply N.eqb_eq in E2. subst e2. destruct refuse.
  { destruct (R2 eq_refl) as [W [bs X]]. exists 0%nat, F_EEXIST, s2. split; [reflexivity|]. split; [congruence|]. split; [congruence|]. split; [rewrite Ft; exact P3|]. rewrite Ft. split; [intros k _; apply P4|]. split; [discriminate|]. split; [left; apply P4|].
    split; [intros _ bs' X'; split; [discriminate|rewrite Fd; apply F16; exact X']|]. split; [intros C; apply C2, P8, C|]. intros C _ _ _ Wr _. rewrite (Wr bs (F61 _ X)) in W. discriminate W. }
  change (match sys_fopen_wb p s2 with (inl e, s0) => _ | (inr k, s0) => _ end) with (store p data s2).
  assert (So2 : sound_tree (o_tree s2)) by (rewrite Ft; exact P3). destruct (store_spec p data s2 So2) as (n & ec & s' & Q & G1 & G2 & G3 & G4 & G5 & G6 & G7).
  exists n, ec, s'. split; [exact Q|]. split; [congruence|]. split; [congruence|]. split; [exact G3|]. rewrite Ft in G4.
  split; [intros k Nk; apply (kept_trans _ _ _ _ _ (P4 k)), G4; exact Nk|].
  split; [|split; [|split; [|split]]].
  - intros X. destruct (G5 X) as (A & bs & B & D). split; [exact A|]. exists bs. split; [exact B|]. destruct D as [D|(e & m & I & D)]; [left; exact D|]. right. exists e, m. split; [|exact D]. apply In2 in I.
    apply In1. exact I.
  - destruct G6 as [X|X]; [|right; exact X]. left. unfold found in X. destruct p as [|c p'].
    + left. reflexivity.
    + apply (kept_trans _ _ _ _ _ (P4 _)). rewrite X, Ft. reflexivity.
  - intros W bs X. exfalso. apply (R1 W eq_refl eq_refl bs). apply F16. exact X.
  - intros C. apply G7, C2, P8, C.
  - intros C Np W Nd Wr Pd. destruct (P7 W) as [_ ->]. apply G7; [apply C2; exact C|exact Np|congruence|rewrite Ft; exact Pd].
Qed.
