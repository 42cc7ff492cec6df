(** The working directory, the program's path, directory listings and the command line. *)
From Coq Require Import Arith NArith List Bool Lia.
From Verif Require Import Base Tactics CodecModel CodecProofs UniModel UniSpec UniText UniProps2 FiModel FiSpec FiRead FoModel.
Import ListNotations.
Local Open Scope N_scope.

(** ** Working directory *)
Lemma increment_pos : (0 < INCREMENT)%nat. Proof. unfold INCREMENT. lia. Qed.
Opaque INCREMENT.
Definition nonzero_text (t : list N) : Prop := Forall (fun c => c <> 0) t.
Lemma text_len_app t rest : nonzero_text t -> text_len (t ++ 0 :: rest) = Some (length t).
Proof. induction t as [|c t IH]; intros F; [reflexivity|]. inversion F; subst. cbn [app text_len length]. destruct (c =? 0) eqn:E; [apply N.eqb_eq in E; contradiction|]. rewrite IH by assumption. reflexivity. Qed.
Lemma take_fault_len s f s' : take_fault s = (f, s') -> (length (o_faults s') <= length (o_faults s))%nat /\ (f <> None -> (length (o_faults s') < length (o_faults s))%nat).
Proof. unfold take_fault. destruct (o_faults s) eqn:E; intros [= <- <-]; [rewrite E; split; [lia|congruence]|]. cbn [o_faults length]. split; [lia|lia]. Qed.
Lemma grant_faults s b s' : grant s = (b, s') -> o_faults s' = o_faults s.
Proof. unfold grant. destruct (o_mem s); intros [= _ <-]; reflexivity. Qed.

Lemma realloc_spec s cells n r s' : realloc s cells n = (r, s') -> (length cells <= n)%nat -> frame s s' /\ o_faults s' = o_faults s /\ (calm s -> r <> None /\ calm s') /\
  (forall c', r = Some c' -> length c' = n /\ forall m, (m <= length cells)%nat -> firstn m c' = firstn m cells).
Proof.
  unfold realloc. destruct (grant s) as [b s1] eqn:G. destruct (grant_spec _ _ _ G) as [Fr Ca]. pose proof (grant_faults _ _ _ G) as Gf. intros E L. destruct b; injection E as <- <-.
  - split; [exact Fr|]. split; [exact Gf|]. split; [intros C; split; [discriminate|apply (Ca C)]|]. intros c' [= <-]. unfold fresh_cells. split; [rewrite firstn_length, app_length, repeat_length; lia|].
    intros m Lm. rewrite firstn_firstn, Nat.min_l by lia. rewrite firstn_app. replace (m - length cells)%nat with 0%nat by lia. rewrite firstn_O, app_nil_r. reflexivity.
  - split; [exact Fr|]. split; [exact Gf|]. split; [intros C; destruct (Ca C); discriminate|]. discriminate.
Qed.

Lemma getcwd_loop_spec : forall fuel cwd c cells s, f_data c = Some cells -> length cells = f_capacity c -> (0 < f_capacity c)%nat -> (0 < o_live s)%nat ->
  (exists m, f_capacity c = (INCREMENT * m)%nat) -> ((length cwd + 1 - f_capacity c) + length (o_faults s) < fuel)%nat ->
  exists c' ec s', getcwd_loop fuel cwd c s = Some (c', ec, s') /\ o_tree s' = o_tree s /\ o_handles s' = o_handles s /\ (o_live s' + 1 = o_live s + owned c')%nat /\
    (ec = F_OK -> f_size c' = f_size c /\ exists rest, f_data c' = Some (cwd ++ 0 :: rest) /\ length (cwd ++ 0 :: rest) = f_capacity c' /\ (exists m, f_capacity c' = (INCREMENT * m)%nat)) /\
    (calm s -> calm s' /\ ec = F_OK).
Proof.
  induction fuel as [|fuel IH]; intros cwd c cells s D L P Lv Mu Fu; [lia|]. cbn [getcwd_loop]. rewrite D. unfold sys_getcwd. pose proof increment_pos as Ip.
  destruct (take_fault s) as [f s1] eqn:T. destruct (take_fault_spec _ _ _ T) as [(Ft & Fh & Fl) Ca]. destruct (take_fault_len _ _ _ T) as [Tl Tl'].
  assert (Grow : forall cells2, length cells2 = f_capacity c -> ((length cwd + 1 - (f_capacity c + INCREMENT)) + length (o_faults s1) < fuel)%nat ->
    exists c' ec s', (match realloc s1 cells2 (f_capacity c + INCREMENT) with
        | (None, s0) => ' (c0, s2) <- tmu_destroy_contents (FContents (Some cells2) (f_size c) (f_capacity c)) s0 ;; Some (c0, F_ENOMEM, s2)
        | (Some cells0, s0) => getcwd_loop fuel cwd (FContents (Some cells0) (f_size c) (f_capacity c + INCREMENT)) s0
        end) = Some (c', ec, s') /\ o_tree s' = o_tree s /\ o_handles s' = o_handles s /\ (o_live s' + 1 = o_live s + owned c')%nat /\
    (ec = F_OK -> f_size c' = f_size c /\ exists rest, f_data c' = Some (cwd ++ 0 :: rest) /\ length (cwd ++ 0 :: rest) = f_capacity c' /\ (exists m, f_capacity c' = (INCREMENT * m)%nat)) /\
    (calm s1 -> calm s' /\ ec = F_OK)).
  { intros cells2 L2 Fu2. destruct (realloc s1 cells2 (f_capacity c + INCREMENT)) as [r s2] eqn:R. destruct (realloc_spec _ _ _ _ _ R ltac:(lia)) as ((Rt & Rh & Rl) & Rf & Rc & Rd).
    destruct r as [cells3|].
    - destruct (Rd _ eq_refl) as [L3 _]. destruct (IH cwd (FContents (Some cells3) (f_size c) (f_capacity c + INCREMENT)) cells3 s2) as (c' & ec & s' & Q & I1 & I2 & I3 & I4 & I5); cbn [f_data f_capacity f_size] in *.
      + reflexivity. + exact L3. + lia. + lia. + destruct Mu as [m Em]. exists (S m). rewrite Em. lia. + rewrite Rf. exact Fu2.
      + exists c', ec, s'. split; [exact Q|]. split; [congruence|]. split; [congruence|]. split; [lia|]. split; [exact I4|]. intros C. apply I5. apply (Rc C).
    - unfold tmu_destroy_contents. cbn [f_data f_capacity]. destruct (Nat.ltb_spec 0 (f_capacity c)); [|lia]. unfold free. destruct (o_live s2) as [|n] eqn:N; [lia|]. cbv beta iota. eexists _, _, _. split; [reflexivity|]. cbn [o_tree o_handles o_live owned f_data no_contents].
      split; [congruence|]. split; [congruence|]. split; [lia|]. split; [discriminate|]. intros C. destruct (Rc C) as [X _]. congruence. }
  destruct f as [[e k]|].
  - specialize (Tl' ltac:(discriminate)). cbv beta iota. pose proof (fault_errno_pos e) as Pe. destruct (fault_errno e =? F_OK) eqn:E1; [apply N.eqb_eq in E1; contradiction|]. cbn [f_capacity f_size].
    destruct (fault_errno e =? F_ERANGE) eqn:E2.
    + destruct (Grow cells L ltac:(lia)) as (c' & ec & s' & Q & G1 & G2 & G3 & G4 & G5). exists c', ec, s'. split; [exact Q|]. split; [exact G1|]. split; [exact G2|]. split; [exact G3|]. split; [exact G4|]. intros C. destruct (Ca C). discriminate.
    + eexists _, _, _. split; [reflexivity|]. cbn [owned f_data]. split; [exact Ft|]. split; [exact Fh|]. split; [lia|]. split; [intros X; contradiction|]. intros C. destruct (Ca C). discriminate.
  - destruct (Nat.ltb_spec (length cwd) (length cells)) as [Lc|Lc].
    + rewrite write_list_splice by (rewrite app_length; cbn; lia). cbv beta iota. unfold splice. rewrite firstn_O. cbn [app Nat.add]. rewrite <- app_assoc. cbn [app]. eexists _, _, _. split; [reflexivity|]. cbn [owned f_data f_capacity f_size].
      split; [exact Ft|]. split; [exact Fh|]. split; [lia|]. split.
      * intros _. split; [reflexivity|]. eexists. split; [reflexivity|]. split; [|exact Mu]. rewrite app_length. cbn [length]. rewrite skipn_length, app_length. cbn [length]. lia.
      * intros C. split; [apply (Ca C)|reflexivity].
    + cbv beta iota. cbn [f_capacity f_size]. change (F_ERANGE =? F_OK) with false. rewrite N.eqb_refl. cbv beta iota.
      destruct (Grow cells L ltac:(lia)) as (c' & ec & s' & Q & G1 & G2 & G3 & G4 & G5). exists c', ec, s'. split; [exact Q|]. split; [exact G1|]. split; [exact G2|]. split; [exact G3|]. split; [exact G4|]. intros C. apply G5. apply (Ca C).
Qed.

(** The text of a directory ends with a slash. *)
Definition dir_text (cwd : list N) : list N := if last cwd 0 =? 47 then cwd else cwd ++ [47].
Lemma nth_last (cwd rest : list N) : cwd <> [] -> nth (length cwd - 1) (cwd ++ rest) 0 = last cwd 0.
Proof. intros N. destruct (exists_last N) as (l & x & ->). rewrite app_length, <- app_assoc. cbn [length app]. rewrite Nat.add_sub, app_nth2, Nat.sub_diag, last_last by lia. reflexivity. Qed.

Lemma write_at (a : list N) x b y : write (a ++ x :: b) (length a) y = Some (a ++ y :: b).
Proof. rewrite write_splice by (rewrite app_length; cbn; lia). unfold splice. rewrite firstn_app, Nat.sub_diag, firstn_all. cbn [firstn app]. rewrite app_nil_r. cbn [length]. rewrite skipn_app. rewrite skipn_all2 by lia. replace (length a + 1 - length a)%nat with 1%nat by lia. reflexivity. Qed.

Theorem cwd_spec : forall fuel cwd extra s, nonzero_text cwd -> cwd <> [] -> (length cwd + length (o_faults s) < fuel)%nat ->
  (extra = 0%nat -> last cwd 0 = 47 \/ forall m, (length cwd + 1 <> INCREMENT * m)%nat) ->
  exists c ec s', tmu_current_working_directory fuel cwd extra s = Some (c, ec, s') /\ o_tree s' = o_tree s /\ o_handles s' = o_handles s /\ o_live s' = (o_live s + owned c)%nat /\
    (ec = F_OK -> f_size c = length (dir_text cwd) /\ (f_size c + extra <= f_capacity c)%nat /\ exists rest, f_data c = Some (dir_text cwd ++ 0 :: rest) /\ length (dir_text cwd ++ 0 :: rest) = f_capacity c) /\
    (calm s -> ec = F_OK).
Proof.
  intros fuel cwd extra s Nz Ne Fu Ex. unfold tmu_current_working_directory, malloc. pose proof increment_pos as Ip.
  destruct (grant s) as [b s1] eqn:G. destruct (grant_spec _ _ _ G) as [(Gt & Gh & Gl) Gc]. pose proof (grant_faults _ _ _ G) as Gf. destruct b.
  2:{ change (F_ENOMEM =? F_OK) with false. cbv beta iota. eexists _, _, _. split; [reflexivity|]. cbn [owned f_data no_contents]. split; [exact Gt|]. split; [exact Gh|]. split; [lia|]. split; [discriminate|]. intros C. destruct (Gc C). discriminate. }
  destruct (getcwd_loop_spec fuel cwd (FContents (Some (fresh_cells INCREMENT)) 0 INCREMENT) (fresh_cells INCREMENT) (live_up s1)) as (c & ec & s2 & Q & H1 & H2 & H3 & H4 & H5); cbn [f_data f_capacity f_size o_live o_faults live_up] in *.
  { reflexivity. } { apply repeat_length. } { exact Ip. } { lia. } { exists 1%nat. lia. } { rewrite Gf. lia. }
  rewrite Q. clear Q. cbv beta iota. cbn [o_tree o_handles live_up] in H1, H2. destruct (ec =? F_OK) eqn:E.
  2:{ cbv beta iota. rewrite E. apply N.eqb_neq in E. exists c, ec, s2. split; [reflexivity|]. split; [congruence|]. split; [congruence|]. split; [lia|]. split; [intros X; contradiction|]. intros C. exfalso. apply E. apply H5. apply (Gc C). }
  apply N.eqb_eq in E. subst ec. destruct (H4 eq_refl) as (Hz & rest & Hd & Hl & m & Hm). rewrite Hd. rewrite text_len_app by exact Nz. cbv beta iota.
  assert (Ow : owned c = 1%nat) by (unfold owned; rewrite Hd; reflexivity).
  assert (Lc : (length cwd + 1 + length rest = f_capacity c)%nat) by (rewrite <- Hl, app_length; cbn [length]; lia).
  (* the last step *)
  assert (Path : forall rest2 cap, length (cwd ++ 0 :: rest2) = cap -> (extra + length cwd + 1 <= cap)%nat -> (last cwd 0 = 47 \/ (length cwd + 1 < cap)%nat) ->
    exists rest3, tmu_to_tmu_path (FContents (Some (cwd ++ 0 :: rest2)) (length cwd) cap) true = Some (FContents (Some (dir_text cwd ++ 0 :: rest3)) (length (dir_text cwd)) cap) /\ length (dir_text cwd ++ 0 :: rest3) = cap /\ (length (dir_text cwd) + extra <= cap)%nat).
  { intros rest2 cap L2 Le Or. unfold tmu_to_tmu_path. cbn [f_data f_capacity f_size]. destruct (Nat.ltb_spec 0 cap); [|lia]. assert (0 < length cwd)%nat by (destruct cwd; [congruence|cbn; lia]). destruct (Nat.ltb_spec 0 (length cwd)); [|lia]. cbn [andb].
    rewrite nth_last by exact Ne. unfold dir_text. destruct (last cwd 0 =? 47) eqn:El; cbn [negb]; cbv beta iota.
    - destruct (Nat.ltb_spec (length cwd) cap); [|lia]. rewrite write_at. cbv beta iota. exists rest2. split; [reflexivity|]. split; [exact L2|lia].
    - destruct Or as [Or|Or]; [rewrite Or in El; discriminate El|]. destruct (Nat.ltb_spec (length cwd + 1) cap); [|lia]. rewrite write_at. cbv beta iota.
      destruct (Nat.ltb_spec (S (length cwd)) cap); [|lia]. destruct rest2 as [|y rest2]; [rewrite app_length in L2; cbn [length] in L2; lia|].
      replace (S (length cwd)) with (length (cwd ++ [47])) by (rewrite app_length; cbn; lia). replace (cwd ++ 47 :: y :: rest2) with ((cwd ++ [47]) ++ y :: rest2) by (rewrite <- app_assoc; reflexivity).
      rewrite write_at. cbv beta iota. exists rest2. split; [reflexivity|]. split; [|rewrite app_length; cbn [length]; lia]. rewrite <- L2, !app_length. cbn [length]. lia. }
  destruct (Nat.ltb_spec (f_capacity c) (length cwd + extra + 1)) as [Lt|Ge].
  - destruct (realloc s2 (cwd ++ 0 :: rest) (length cwd + extra + 1)) as [r s3] eqn:R. destruct (realloc_spec _ _ _ _ _ R ltac:(lia)) as ((Rt & Rh & Rl) & Rf & Rc & Rd). destruct r as [cells3|].
    + destruct (Rd _ eq_refl) as [L3 P3]. cbv beta iota. change (F_OK =? F_OK) with true. cbv beta iota.
      assert (exists rest2, cells3 = cwd ++ 0 :: rest2) as [rest2 ->].
      { exists (skipn (length cwd + 1) cells3). rewrite <- (firstn_skipn (length cwd + 1) cells3) at 1. rewrite P3 by lia. replace (cwd ++ 0 :: rest) with ((cwd ++ [0]) ++ rest) by (rewrite <- app_assoc; reflexivity).
        replace (length cwd + 1)%nat with (length (cwd ++ [0])) at 1 by (rewrite app_length; reflexivity). rewrite firstn_app, Nat.sub_diag, firstn_all, firstn_O, app_nil_r, <- app_assoc. reflexivity. }
      destruct (Path rest2 (length cwd + extra + 1)%nat L3 ltac:(lia) ltac:(right; lia)) as (rest3 & -> & Y1 & Y2). cbv beta iota. eexists _, _, _. split; [reflexivity|]. cbn [owned f_data f_size f_capacity]. split; [congruence|]. split; [congruence|]. split; [lia|]. split; [|reflexivity].
      intros _. split; [reflexivity|]. split; [exact Y2|]. exists rest3. split; [reflexivity|exact Y1].
    + unfold tmu_destroy_contents. cbn [f_data f_capacity]. destruct (Nat.ltb_spec 0 (f_capacity c)); [|lia]. unfold free. destruct (o_live s3) as [|n] eqn:N; [lia|]. cbv beta iota. change (F_ENOMEM =? F_OK) with false. cbv beta iota. eexists _, _, _. split; [reflexivity|]. cbn [o_tree o_handles o_live owned f_data no_contents].
      split; [congruence|]. split; [congruence|]. split; [lia|]. split; [discriminate|]. intros C. destruct (H5 (proj2 (Gc C))) as [C2 _]. destruct (Rc C2) as [X _]. congruence.
  - cbv beta iota. change (F_OK =? F_OK) with true. cbv beta iota.
    destruct (Path rest (f_capacity c) Hl ltac:(lia)) as (rest3 & -> & Y1 & Y2).
    { destruct (Nat.eq_dec (length cwd + 1) (f_capacity c)) as [X|X]; [|right; lia]. left. destruct extra; [|lia]. destruct (Ex eq_refl) as [Y|Y]; [exact Y|]. exfalso. apply (Y m). lia. }
    cbv beta iota. eexists _, _, _. split; [reflexivity|]. cbn [owned f_data f_size f_capacity]. split; [congruence|]. split; [congruence|]. split; [lia|]. split; [|reflexivity].
    intros _. split; [reflexivity|]. split; [exact Y2|]. exists rest3. split; [reflexivity|exact Y1].
Qed.

(** ** The program *)
Lemma sbo_pos : (0 < SBO)%nat. Proof. unfold SBO. lia. Qed.
Opaque SBO.
Lemma fill_front (cells t : list N) : (length t <= length cells)%nat -> write_list cells 0 t = Some (t ++ skipn (length t) cells).
Proof. intros L. rewrite write_list_splice by lia. unfold splice. rewrite firstn_O. reflexivity. Qed.
Definition holds_text (c : contents) (t : list N) : Prop :=
  f_size c = length t /\ exists rest, f_data c = Some (t ++ 0 :: rest) /\ length (t ++ 0 :: rest) = f_capacity c.

Lemma readlink_loop_spec : forall fuel link cells s, (0 < length cells)%nat -> (length link + 1 - length cells < fuel)%nat ->
  exists cells' r ec s', readlink_loop fuel link cells s = Some (cells', r, ec, s') /\ frame s s' /\ (forall e, r = inl e -> e <> F_OK) /\
    (forall t, r = inr t -> ec = F_OK -> t = link /\ exists x rest, cells' = link ++ x :: rest) /\ (calm s -> ec = F_OK /\ exists t, r = inr t).
Proof.
  induction fuel as [|fuel IH]; intros link cells s P Fu; [lia|]. cbn [readlink_loop]. unfold sys_readlink. destruct (take_fault s) as [f s1] eqn:T. destruct (take_fault_spec _ _ _ T) as [Fr Ca]. destruct f as [[e k]|].
  - eexists _, _, _, _. split; [reflexivity|]. split; [exact Fr|]. split; [intros e0 [= <-]; apply fault_errno_pos|]. split; [discriminate|]. intros C. destruct (Ca C). discriminate.
  - rewrite fill_front by (rewrite firstn_length; lia). cbv beta iota. set (t := firstn (length cells) link). assert (Lt : length t = min (length cells) (length link)) by (unfold t; apply firstn_length).
    assert (Lc : length (t ++ skipn (length t) cells) = length cells) by (rewrite app_length, skipn_length; lia). rewrite Lc.
    destruct (Nat.leb_spec (length cells) (length t)).
    + destruct (realloc s1 (t ++ skipn (length t) cells) (length cells * 2)) as [r s2] eqn:R. destruct (realloc_spec _ _ _ _ _ R ltac:(lia)) as (Rf & _ & Rc & Rd). destruct r as [cells2|].
      * destruct (Rd _ eq_refl) as [L2 _]. destruct (IH link cells2 s2) as (cells' & r & ec & s' & Q & I1 & I2 & I3 & I4); [lia|lia|]. exists cells', r, ec, s'. split; [exact Q|]. split; [exact (frame_trans _ _ _ (frame_trans _ _ _ Fr Rf) I1)|]. split; [exact I2|]. split; [exact I3|]. intros C. apply I4. apply Rc. apply (Ca C).
      * eexists _, _, _, _. split; [reflexivity|]. split; [exact (frame_trans _ _ _ Fr Rf)|]. split; [discriminate|]. split; [discriminate|]. intros C. destruct (Rc (proj2 (Ca C))) as [X _]. congruence.
    + eexists _, _, _, _. split; [reflexivity|]. split; [exact Fr|]. split; [discriminate|]. split; [|intros C; split; [reflexivity|eexists; reflexivity]]. intros t0 [= <-] _.
      assert (E : t = link) by (unfold t; apply firstn_all2; lia). split; [exact E|]. rewrite E in *. destruct (skipn (length link) cells) as [|x rest] eqn:Sk; [|exists x, rest; reflexivity]. apply (f_equal (@length _)) in Sk. rewrite skipn_length in Sk. cbn in Sk. lia.
Qed.

Theorem module_spec : forall fuel link s, (length link < fuel)%nat -> fst (take_fault s) = None ->
  exists c ec s', tmu_module_filename fuel link s = Some (c, ec, s') /\ o_tree s' = o_tree s /\ o_handles s' = o_handles s /\ o_live s' = (o_live s + owned c)%nat /\
    (ec = F_OK -> holds_text c link) /\ (ec <> F_OK -> c = no_contents) /\ (calm s -> ec = F_OK).
Proof.
  intros fuel link s Fu Nf. unfold tmu_module_filename, sys_readlink. destruct (take_fault s) as [f s1] eqn:T. cbn [fst] in Nf. subst f. destruct (take_fault_spec _ _ _ T) as [(Ft & Fh & Fl) Ca]. pose proof sbo_pos as Sp.
  set (t := firstn SBO link). assert (Lt : length t = min SBO (length link)) by (unfold t; apply firstn_length). cbv beta iota. destruct (Nat.leb_spec SBO (length t)).
  - unfold malloc. destruct (grant s1) as [b s2] eqn:G. destruct (grant_spec _ _ _ G) as [(Gt & Gh & Gl) Gc]. destruct b.
    + destruct (readlink_loop_spec fuel link (fresh_cells (SBO * 2)) (live_up s2)) as (cells & r & ec & s3 & Q & (It & Ih & Il) & I2 & I3 & I4); [unfold fresh_cells; rewrite repeat_length; lia|unfold fresh_cells; rewrite repeat_length; lia|].
      rewrite Q. cbv beta iota. cbn [o_tree o_handles o_live live_up] in It, Ih, Il.
      assert (Fr : exists s4, free s3 = Some s4 /\ o_tree s4 = o_tree s3 /\ o_handles s4 = o_handles s3 /\ o_live s4 = o_live s2) by (unfold free; rewrite Il; eexists; split; [reflexivity|]; repeat split).
      destruct Fr as (s4 & Qf & F1 & F2 & F3).
      assert (Fail : forall e0, e0 <> F_OK -> (calm s -> e0 = F_OK) -> exists c ec0 s', (' s0 <- free s3 ;; Some (no_contents, e0, s0)) = Some (c, ec0, s') /\ o_tree s' = o_tree s /\ o_handles s' = o_handles s /\ o_live s' = (o_live s + owned c)%nat /\
        (ec0 = F_OK -> holds_text c link) /\ (ec0 <> F_OK -> c = no_contents) /\ (calm s -> ec0 = F_OK)).
      { intros e0 N0 C0. rewrite Qf. cbv beta iota. eexists _, _, _. split; [reflexivity|]. cbn [owned f_data no_contents]. split; [congruence|]. split; [congruence|]. split; [lia|]. split; [intros X; contradiction|]. split; [reflexivity|exact C0]. }
      assert (C4 : calm s -> ec = F_OK /\ exists t, r = inr t) by (intros C; apply I4; apply Gc; apply (Ca C)).
      destruct r as [e|t0].
      * specialize (I2 _ eq_refl). destruct (e =? F_OK) eqn:E; [apply N.eqb_eq in E; contradiction|]. apply Fail; [exact I2|]. intros C. destruct (C4 C) as [_ [t1 X]]. discriminate X.
      * destruct (ec =? F_OK) eqn:E; [|apply N.eqb_neq in E; apply Fail; [exact E|intros C; apply (C4 C)]]. apply N.eqb_eq in E. destruct (I3 _ eq_refl E) as [-> (x & rest & ->)]. rewrite write_at. cbv beta iota. eexists _, _, _. split; [reflexivity|]. cbn [owned f_data]. split; [congruence|]. split; [congruence|]. split; [lia|].
        split; [|split; [intros X; exfalso; apply X; reflexivity|reflexivity]]. intros _. split; [reflexivity|]. exists rest. split; [reflexivity|reflexivity].
    + eexists _, _, _. split; [reflexivity|]. cbn [owned f_data no_contents]. split; [congruence|]. split; [congruence|]. split; [lia|]. split; [discriminate|]. split; [reflexivity|]. intros C. destruct (Gc (proj2 (Ca C))). discriminate.
  - assert (E : t = link) by (unfold t; apply firstn_all2; lia). clearbody t. subst t. unfold malloc. destruct (grant s1) as [b s2] eqn:G. destruct (grant_spec _ _ _ G) as [(Gt & Gh & Gl) Gc]. destruct b.
    + assert (Lf : length (fresh_cells (length link + 1)) = (length link + 1)%nat) by apply repeat_length.
      rewrite fill_front by lia. cbv beta iota. destruct (skipn (length link) (fresh_cells (length link + 1))) as [|x rest] eqn:Sk; [apply (f_equal (@length _)) in Sk; rewrite skipn_length in Sk; cbn in Sk; lia|].
      apply (f_equal (@length _)) in Sk. rewrite skipn_length in Sk. cbn [length] in Sk. rewrite write_at. cbv beta iota. eexists _, _, _. split; [reflexivity|]. cbn [owned f_data o_tree o_handles o_live live_up]. split; [congruence|]. split; [congruence|]. split; [lia|].
      split; [|split; [intros X; exfalso; apply X; reflexivity|reflexivity]]. intros _. split; [reflexivity|]. exists rest. split; [reflexivity|]. cbn [f_capacity]. rewrite app_length. cbn [length]. lia.
    + eexists _, _, _. split; [reflexivity|]. cbn [owned f_data no_contents]. split; [congruence|]. split; [congruence|]. split; [lia|]. split; [discriminate|]. split; [reflexivity|]. intros C. destruct (Gc (proj2 (Ca C))). discriminate.
Qed.

(** The text up to and with its last slash. *)
Definition up_to_slash (t d : list N) : Prop := exists name, t = d ++ name /\ ~ In 47 name /\ (d = [] \/ last d 0 = 47).
Lemma cut_back_spec t rest : up_to_slash t (firstn (cut_back (t ++ rest) (length t)) t) /\ (cut_back (t ++ rest) (length t) <= length t)%nat.
Proof.
  assert (H : forall a b, t = a ++ b -> ~ In 47 b -> up_to_slash t (firstn (cut_back (t ++ rest) (length a)) t) /\ (cut_back (t ++ rest) (length a) <= length a)%nat).
  { intros a. induction a as [|x a IH] using rev_ind; intros b E Nb.
    - cbn [length cut_back firstn]. split; [|lia]. exists t. split; [reflexivity|]. split; [rewrite E; exact Nb|left; reflexivity].
    - rewrite app_length. cbn [length]. rewrite Nat.add_1_r. cbn [cut_back]. assert (Nx : nth (length a) (t ++ rest) 0 = x) by (rewrite E, <- !app_assoc, app_nth2, Nat.sub_diag by lia; reflexivity). rewrite Nx. destruct (x =? 47) eqn:X.
      + apply N.eqb_eq in X. split; [|lia]. exists b. assert (F : firstn (S (length a)) t = a ++ [x]) by (rewrite E, firstn_app; replace (S (length a)) with (length (a ++ [x])) by (rewrite app_length; cbn; lia); rewrite firstn_all, Nat.sub_diag, firstn_O, app_nil_r; reflexivity). rewrite F. split; [exact E|]. split; [exact Nb|]. right. rewrite last_last. exact X.
      + apply N.eqb_neq in X. destruct (IH (x :: b)) as [A B]; [rewrite E, <- app_assoc; reflexivity|intros [Y|Y]; [congruence|exact (Nb Y)]|]. split; [exact A|lia]. }
  apply (H t []); [rewrite app_nil_r; reflexivity|intros []].
Qed.
Theorem module_dir_spec : forall fuel link s, (length link < fuel)%nat -> fst (take_fault s) = None ->
  exists c ec s', tmu_module_directory fuel link s = Some (c, ec, s') /\ o_tree s' = o_tree s /\ o_handles s' = o_handles s /\ o_live s' = (o_live s + owned c)%nat /\
    (ec = F_OK -> exists d, up_to_slash link d /\ holds_text c d) /\ (ec <> F_OK -> c = no_contents) /\ (calm s -> ec = F_OK).
Proof.
  intros fuel link s Fu Nf. unfold tmu_module_directory. destruct (module_spec fuel link s Fu Nf) as (c & ec & s' & -> & M1 & M2 & M3 & M4 & M5 & M6). cbv beta iota. destruct (ec =? F_OK) eqn:E.
  - apply N.eqb_eq in E. destruct (M4 E) as (Z & rest & D & L). rewrite D, Z. destruct (cut_back_spec link (0 :: rest)) as [U B]. set (n := cut_back (link ++ 0 :: rest) (length link)) in *. clearbody n.
    assert (exists x tl, link ++ 0 :: rest = firstn n link ++ x :: tl) as (x & tl & Ex).
    { destruct (Nat.eq_dec n (length link)) as [->|Nn]; [rewrite firstn_all; eexists _, _; reflexivity|]. assert (n < length link)%nat by lia. pose proof (firstn_skipn n link) as Fs. destruct (skipn n link) as [|x tl] eqn:Sk; [apply (f_equal (@length _)) in Sk; rewrite skipn_length in Sk; cbn in Sk; lia|]. exists x, (tl ++ 0 :: rest). transitivity ((firstn n link ++ x :: tl) ++ 0 :: rest); [rewrite Fs; reflexivity|rewrite <- app_assoc; reflexivity]. }
    assert (Ln : length (firstn n link) = n) by (rewrite firstn_length; lia). rewrite Ex. pose proof (write_at (firstn n link) x tl 0) as Wr. rewrite Ln in Wr. rewrite Wr. cbv beta iota. eexists _, _, _. split; [reflexivity|]. assert (owned c = 1%nat) by (unfold owned; rewrite D; reflexivity). cbn [owned f_data]. split; [exact M1|]. split; [exact M2|]. split; [lia|].
    split; [|split; [intros X; contradiction|intros _; exact E]]. intros _. exists (firstn n link). split; [exact U|]. split; [cbn [f_size]; lia|]. exists tl. split; [reflexivity|]. cbn [f_capacity]. rewrite <- L, Ex, !app_length. reflexivity.
  - apply N.eqb_neq in E. exists c, ec, s'. split; [reflexivity|]. split; [exact M1|]. split; [exact M2|]. split; [exact M3|]. split; [intros X; contradiction|]. split; [exact M5|exact M6].
Qed.

(** ** Listing *)
Definition visible (e : entry) : bool := negb (dot_name (e_name e)).
Definition told (e : entry) : list N * bool := (e_name e, N.land (e_type e) 4 =? 0).
Lemma read_entries_spec es err : match filter visible es with
  | [] => read_entries es err = (inl err, [])
  | e :: _ => exists rest, read_entries es err = (inr (told e), rest) /\ filter visible rest = tl (filter visible es) /\ (length rest < length es)%nat
  end.
Proof.
  induction es as [|e es IH]; [reflexivity|]. cbn [filter read_entries]. assert (V : visible e = negb (dot_name (e_name e))) by reflexivity. destruct (dot_name (e_name e)); cbn [negb] in V; rewrite V.
  - destruct (filter visible es) as [|x xs]; [exact IH|]. destruct IH as (rest & Q & F & L). exists rest. split; [exact Q|]. split; [exact F|]. cbn [length]. lia.
  - exists es. split; [reflexivity|]. split; [reflexivity|]. cbn [length]. lia.
Qed.
Theorem list_all_spec : forall fuel es err ec, (length es < fuel)%nat ->
  list_all fuel (Opened ec (Some (Entries es err))) = Some (map told (filter visible es), Opened (if err =? 0 then ec else err) (Some (Entries [] err))).
Proof.
  induction fuel as [|fuel IH]; intros es err ec Fu; [lia|]. cbn [list_all]. unfold tmu_read_directory. cbn [d_stream d_ec]. pose proof (read_entries_spec es err) as R. destruct (filter visible es) as [|e xs].
  - rewrite R. reflexivity.
  - destruct R as (rest & -> & F & L). cbn [tl] in F. rewrite IH by lia. cbv beta iota. rewrite F. reflexivity.
Qed.

(** ** Command line *)
Definition converted (args : list (list N)) (texts : list (list N)) : Prop := Forall2 (fun a b => exists vs, encodes utf16_seq vs a /\ encodes utf8_seq vs b) args texts.
Definition pool_of (texts : list (list N)) : list N := concat (map (fun t => t ++ [0]) texts).
Fixpoint offsets_of (texts : list (list N)) (cur : nat) : list nat := match texts with [] => [] | t :: r => cur :: offsets_of r (cur + length t + 1) end.
Definition fits (fuel : nat) (args : list (list N)) : Prop := Forall (fun a => (length a <= fuel)%nat) args.

Lemma measure_ok fuel : forall args texts total, converted args texts -> fits fuel args -> measure_args fuel args total = Some (OK, (total + length (pool_of texts))%nat).
Proof.
  intros args texts total C. revert total. induction C as [|a t args texts (vs & E16 & E8) C IH]; intros total F; [cbn; rewrite Nat.add_0_r; reflexivity|]. inversion F; subst. cbn [measure_args].
  destruct (C34_utf8_from_utf16 vs a t V_error [] true [] fuel E16 E8 ltac:(discriminate) H1) as (size & ec & buf & -> & D). unfold delivered in D. rewrite app_length in D. cbn [length] in D.
  destruct (Nat.leb_spec (length t + 1) 0); [lia|]. destruct D as (-> & -> & _). cbn [r_ec r_size]. rewrite IH by assumption. unfold pool_of. cbn [map concat]. rewrite !app_length. cbn [length]. f_equal. f_equal. lia.
Qed.
Lemma convert_ok fuel : forall args texts done rest offs, converted args texts -> fits fuel args -> (length (pool_of texts) < length rest)%nat ->
  exists rest', convert_args fuel args (done ++ rest) (length done) offs = Some (OK, offs ++ offsets_of texts (length done), length (done ++ pool_of texts), (done ++ pool_of texts) ++ rest') /\ (length (pool_of texts) + length rest' = length rest)%nat.
Proof.
  intros args texts done rest offs C. revert done rest offs. induction C as [|a t args texts (vs & E16 & E8) C IH]; intros done rest offs F L.
  - exists rest. cbn. rewrite !app_nil_r. split; [reflexivity|lia].
  - inversion F; subst. cbn [convert_args]. unfold pool_of in *. cbn [map concat] in *. rewrite !app_length in L. cbn [length] in L.
    assert (Sk : skipn (length done) (done ++ rest) = rest) by (rewrite skipn_app, skipn_all, Nat.sub_diag; reflexivity). assert (Fi : firstn (length done) (done ++ rest) = done) by (rewrite firstn_app, firstn_all, Nat.sub_diag, firstn_O, app_nil_r; reflexivity). rewrite Sk, Fi.
    destruct (C34_utf8_from_utf16 vs a t V_error [] true rest fuel E16 E8 ltac:(discriminate) H1) as (size & ec & buf & -> & D). unfold delivered in D. cbv zeta in D. rewrite app_length in D. cbn [length] in D.
    destruct (Nat.leb_spec (length t + 1) (length rest)); [|lia]. destruct D as (-> & -> & ->). cbn [r_ec r_size]. set (rest1 := skipn (length t + 1) rest). assert (L1 : length rest1 = (length rest - (length t + 1))%nat) by (unfold rest1; rewrite skipn_length; reflexivity).
    rewrite !app_length. cbn [length]. rewrite L1. destruct (Nat.leb_spec (length t + 1) (length done + (length t + 1 + (length rest - (length t + 1))) - length done)); [|lia].
    destruct (Nat.eqb_spec (length done + (length t + 1 + (length rest - (length t + 1))) - (length done + length t + 1)) 0); [lia|].
    destruct (IH (done ++ t ++ [0]) rest1 (offs ++ [length done]) H2) as (rest' & Q & L2); [lia|]. exists rest'. rewrite !app_length in Q. cbn [length] in Q. rewrite <- !app_assoc in Q. cbn [app] in Q. rewrite <- !app_assoc. cbn [app]. replace (length done + length t + 1)%nat with (length done + (length t + 1))%nat by lia. cbn [offsets_of].
    replace (length done + length t + 1)%nat with (length done + (length t + 1))%nat by lia. split; [|lia]. rewrite Q. rewrite ?app_length, <- ?app_assoc. cbn [length app].
    match goal with |- Some (_, ?n, _) = Some (_, ?m, _) => replace m with n by lia end. reflexivity.
Qed.
Theorem command_line_ok : forall fuel args texts s, converted args texts -> fits fuel args ->
  exists ec line s', tmu_utf8_command_line_from_utf16 fuel args s = Some (ec, line, s') /\ o_tree s' = o_tree s /\ o_handles s' = o_handles s /\
    ((ec = OK /\ line = Some (offsets_of texts 0 ++ [length (pool_of texts)], pool_of texts ++ [0]) /\ o_live s' = S (o_live s)) \/
     (ec = ENOMEM /\ line = None /\ o_live s' = o_live s /\ ~ calm s)).
Proof.
  intros fuel args texts s C F. unfold tmu_utf8_command_line_from_utf16. rewrite (measure_ok fuel args texts 0 C F). cbv beta iota. cbn [Nat.add]. unfold malloc. destruct (grant s) as [b s1] eqn:G. destruct (grant_spec _ _ _ G) as [(Gt & Gh & Gl) Gc]. destruct b.
  - assert (Lf : length (fresh_cells (length (pool_of texts) + 1)) = (length (pool_of texts) + 1)%nat) by apply repeat_length.
    destruct (convert_ok fuel args texts [] (fresh_cells (length (pool_of texts) + 1)) [] C F ltac:(lia)) as (rest' & Q & L). cbn [app length] in Q. rewrite Q. cbv beta iota. rewrite app_length.
    destruct (Nat.eqb_spec (length (pool_of texts) + length rest' - length (pool_of texts)) 0); [lia|]. destruct rest' as [|x [|y r]]; [cbn in *; lia| |cbn in *; lia]. rewrite write_at. cbv beta iota. rewrite app_length. cbn [length].
    destruct (Nat.eqb_spec (length (pool_of texts) + 1 - (length (pool_of texts) + 1)) 0); [|lia]. eexists _, _, _. split; [reflexivity|]. cbn [o_tree o_handles o_live live_up]. split; [exact Gt|]. split; [exact Gh|]. left. split; [reflexivity|]. split; [reflexivity|lia].
  - eexists _, _, _. split; [reflexivity|]. split; [exact Gt|]. split; [exact Gh|]. right. split; [reflexivity|]. split; [reflexivity|]. split; [exact Gl|]. intros C0. destruct (Gc C0). discriminate.
Qed.
(** One argument that is not well-formed. *)
Theorem command_line_bad : forall fuel before texts vs us rest after s, converted before texts -> fits fuel before -> rest <> [] -> (length us < fuel)%nat -> units16 rest -> encodes utf16_seq vs us -> ill_formed_at utf16_seq rest ->
  tmu_utf8_command_line_from_utf16 fuel (before ++ (us ++ rest) :: after) s = Some (EINVAL, None, s).
Proof.
  intros fuel before texts vs us rest after s C F Ne Fu U E I. unfold tmu_utf8_command_line_from_utf16.
  assert (M : forall total, exists n, measure_args fuel (before ++ (us ++ rest) :: after) total = Some (EINVAL, n)).
  { induction C as [|a t args texts (v & E16 & E8) C IH]; intros total.
    - cbn [app measure_args]. destruct (proj1 (C34_errors_are_reported vs us rest [] true [] fuel Ne Fu) U E I) as (size & buf & -> & _). cbn [r_ec]. eexists. reflexivity.
    - inversion F; subst. cbn [app measure_args]. destruct (C34_utf8_from_utf16 v a t V_error [] true [] fuel E16 E8 ltac:(discriminate) H1) as (size & ec & buf & -> & D). unfold delivered in D. rewrite app_length in D. cbn [length] in D.
      destruct (Nat.leb_spec (length t + 1) 0); [lia|]. destruct D as (-> & -> & _). cbn [r_ec r_size]. apply IH. assumption. }
  destruct (M 0%nat) as [n ->]. reflexivity.
Qed.
(** Every argument can be found in the pool. *)
Lemma offsets_find : forall texts cur i t, nth_error texts i = Some t -> exists o, nth_error (offsets_of texts cur) i = Some (cur + o)%nat /\ exists more, skipn o (pool_of texts) = t ++ 0 :: more.
Proof.
  induction texts as [|t texts IH]; intros cur [|i] u E; cbn [nth_error] in E; try discriminate.
  - injection E as ->. exists 0%nat. cbn [offsets_of nth_error]. rewrite Nat.add_0_r. split; [reflexivity|]. unfold pool_of. cbn [map concat skipn]. exists (concat (map (fun t => t ++ [0]) texts)). rewrite <- app_assoc. reflexivity.
  - destruct (IH (cur + length t + 1)%nat i u E) as (o & Q & more & K). exists (length t + 1 + o)%nat. cbn [offsets_of nth_error]. rewrite Q. split; [f_equal; lia|]. exists more. rewrite <- K. unfold pool_of. cbn [map concat].
    rewrite skipn_app. rewrite skipn_all2 by (rewrite app_length; cbn; lia). rewrite app_length. cbn [length app]. f_equal. lia.
Qed.
