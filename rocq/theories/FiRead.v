(** Reading a file. *)
From Coq Require Import Arith NArith List Bool Lia.
From Verif Require Import Base CodecModel CodecProofs FiModel FiSpec.
Import ListNotations.
Local Open Scope N_scope.

Lemma buffer_size_pos : (0 < BUFFER_SIZE)%nat. Proof. unfold BUFFER_SIZE. lia. Qed.
Opaque BUFFER_SIZE.
Lemma fault_errno_pos e : fault_errno e <> 0.
Proof. unfold fault_errno. destruct (e =? 0) eqn:E; cbn [orb]; [discriminate|]. destruct ((_ =? F_ENOENT) || _); cbn [orb]; [discriminate|]. destruct (e =? F_ENOTDIR); [discriminate|]. now apply N.eqb_neq. Qed.
Lemma fault_errno_other e : fault_errno e <> F_ENOENT /\ fault_errno e <> F_EEXIST /\ fault_errno e <> F_ENOTDIR.
Proof.
  unfold fault_errno. destruct (e =? 0) eqn:E; cbn [orb]; [split; [|split]; discriminate|]. destruct (e =? F_ENOENT) eqn:E1; cbn [orb]; [split; [|split]; discriminate|].
  destruct (e =? F_EEXIST) eqn:E2; cbn [orb]; [split; [|split]; discriminate|]. destruct (e =? F_ENOTDIR) eqn:E3; [split; [|split]; discriminate|].
  apply N.eqb_neq in E1, E2, E3. split; [exact E1|split; [exact E2|exact E3]].
Qed.

(** Everything but the file tree, the fault list and the memory list. *)
Definition frame (s s' : os) : Prop := o_tree s' = o_tree s /\ o_handles s' = o_handles s /\ o_live s' = o_live s.
Lemma frame_refl s : frame s s. Proof. repeat split. Qed.
Lemma frame_trans s1 s2 s3 : frame s1 s2 -> frame s2 s3 -> frame s1 s3.
Proof. intros (a & b & c) (d & e & f). repeat split; congruence. Qed.

Lemma take_fault_spec s f s' : take_fault s = (f, s') -> frame s s' /\ (calm s -> f = None /\ calm s').
Proof.
  unfold take_fault. destruct (o_faults s) as [|g fs] eqn:F; intros [= <- <-].
  - split; [apply frame_refl|]. intros C. split; [reflexivity|exact C].
  - split; [repeat split|]. intros (C & D). rewrite F in C. inversion C; subst. split; [reflexivity|]. split; assumption.
Qed.
Lemma grant_spec s b s' : grant s = (b, s') -> frame s s' /\ (calm s -> b = true /\ calm s').
Proof.
  unfold grant. destruct (o_mem s) as [|g fs] eqn:F; intros [= <- <-].
  - split; [apply frame_refl|]. intros C. split; [reflexivity|exact C].
  - split; [repeat split|]. intros (C & D). rewrite F in D. inversion D; subst. split; [reflexivity|]. split; assumption.
Qed.

(** The contents during the loop. *)
Definition holding (c : contents) (bs : list N) : Prop :=
  exists cells, f_data c = Some cells /\ length cells = f_capacity c /\ f_size c = length bs /\ firstn (length bs) cells = bs /\ (0 < length bs)%nat.
Lemma holding_bytes c bs : holding c bs -> holds_bytes c bs.
Proof. intros (cells & D & L & Z & F & P). split; [exact Z|]. destruct bs; [cbn in P; lia|]. exists cells. repeat split; assumption. Qed.
Lemma holding_fits c bs : holding c bs -> (length bs <= f_capacity c)%nat.
Proof. intros (cells & D & L & Z & F & P). apply (f_equal (@length N)) in F. rewrite firstn_length in F. lia. Qed.

Lemma append_chunk_spec c bs chunk : (bs = [] /\ f_size c = 0%nat /\ (exists cells, f_data c = Some cells /\ length cells = f_capacity c)) \/ holding c bs ->
  (length bs + length chunk <= f_capacity c)%nat -> chunk <> [] ->
  exists c', append_chunk c chunk = Some c' /\ holding c' (bs ++ chunk).
Proof.
  intros H L N.
  assert (exists cells, f_data c = Some cells /\ length cells = f_capacity c /\ f_size c = length bs /\ firstn (length bs) cells = bs) as (cells & D & Lc & Z & F).
  { destruct H as [(-> & Z & cells & D & Lc)|(cells & D & Lc & Z & F & _)]; exists cells; repeat split; assumption. }
  unfold append_chunk. rewrite D. cbv beta iota. rewrite write_list_splice by lia.
  eexists. split; [reflexivity|]. unfold splice. eexists. cbn [f_data f_capacity f_size]. split; [reflexivity|].
  assert (0 < length chunk)%nat by (destruct chunk; [congruence|cbn; lia]).
  split; [rewrite !app_length, firstn_length, skipn_length; lia|]. rewrite app_length. split; [lia|]. split; [|lia].
  rewrite Z, F, app_assoc, firstn_app, app_length, Nat.sub_diag, firstn_O, app_nil_r, <- app_length, firstn_all. reflexivity.
Qed.

Lemma grow_by_spec c bs n s : holding c bs -> (0 < n)%nat ->
  exists ok c' s', tmu_grow_by c n s = Some (ok, c', s') /\ frame s s' /\ (calm s -> ok = true /\ calm s') /\
    holding c' bs /\ (ok = true -> (length bs + n <= f_capacity c')%nat).
Proof.
  intros H P. pose proof (holding_fits _ _ H) as Fit. destruct H as (cells & D & L & Z & F & Pb). unfold tmu_grow_by.
  rewrite Z. destruct (Nat.leb_spec (length bs) (f_capacity c)); [|lia].
  destruct (Nat.leb_spec n (f_capacity c - length bs)).
  - exists true, c, s. split; [reflexivity|]. split; [apply frame_refl|]. split; [tauto|]. split; [exists cells; repeat split; assumption|lia].
  - rewrite D. unfold realloc. destruct (grant s) as [b s'] eqn:G. destruct (grant_spec _ _ _ G) as [Fr Ca].
    set (m := if (_ <? _)%nat then _ else _). assert (length bs + n <= m)%nat by (unfold m; destruct (Nat.ltb_spec (f_capacity c + f_capacity c / 2) (length bs + n)); lia). clearbody m.
    destruct b.
    + exists true. eexists _, s'. split; [reflexivity|]. split; [exact Fr|]. split; [exact Ca|]. split.
      * eexists. cbn [f_data f_capacity f_size]. split; [reflexivity|]. unfold fresh_cells. split; [rewrite firstn_length, app_length, repeat_length; lia|]. split; [reflexivity|]. split; [|exact Pb].
        rewrite firstn_firstn, Nat.min_l by lia. rewrite firstn_app. replace (length bs - length cells)%nat with 0%nat by lia. rewrite firstn_O, app_nil_r. exact F.
      * intros _. cbn [f_capacity]. lia.
    + exists false, c, s'. split; [reflexivity|]. split; [exact Fr|]. split; [intros C; destruct (Ca C); discriminate|]. split; [exists cells; repeat split; assumption|discriminate].
Qed.

Lemma read_loop_spec : forall fuel ahead c bs en bad s, (length ahead < fuel)%nat -> holding c bs -> (0 < o_live s)%nat ->
  exists c' ec en' bad' s', read_loop fuel (Octets ahead) c en bad s = Some (c', ec, en', bad', s') /\
    o_tree s' = o_tree s /\ o_handles s' = o_handles s /\ (o_live s' + owned c = o_live s + owned c')%nat /\
    (calm s -> en' = en /\ bad' = bad /\ ec = F_OK) /\
    (en' = 0 -> bad' = false -> en = 0 /\ bad = false /\ ec = F_OK /\ holding c' (bs ++ ahead)) /\
    (ec = F_OK \/ ec = F_ENOMEM /\ en' = F_ENOMEM /\ c' = no_contents).
Proof.
  induction fuel as [|fuel IH]; intros ahead c bs en bad s Fu H Lv; [lia|]. cbn [read_loop]. unfold sys_fread.
  destruct (take_fault s) as [f s1] eqn:T. destruct (take_fault_spec _ _ _ T) as [Fr Ca].
  (* what was read *)
  assert (exists k e, (match f with
     | Some (e, k) => (firstn (min k BUFFER_SIZE) ahead, Octets (skipn (min k BUFFER_SIZE) ahead), Some (fault_errno e), s1)
     | None => (firstn BUFFER_SIZE ahead, Octets (skipn BUFFER_SIZE ahead), None, s1) end) = (firstn k ahead, Octets (skipn k ahead), e, s1)
     /\ (k <= BUFFER_SIZE)%nat /\ (f = None -> e = None /\ k = BUFFER_SIZE) /\ (e <> None -> errno_after en e <> 0) /\ (e = None -> k = BUFFER_SIZE)) as (k & e & Q & K & Kn & Ke & Ko).
  { destruct f as [[e k]|].
    - exists (min k BUFFER_SIZE), (Some (fault_errno e)). split; [reflexivity|]. split; [lia|]. split; [discriminate|]. split; [intros _; apply fault_errno_pos|discriminate].
    - exists BUFFER_SIZE, None. split; [reflexivity|]. split; [lia|]. split; [split; reflexivity|]. split; [congruence|reflexivity]. }
  rewrite Q. clear Q.
  destruct Fr as (Ft & Fh & Fl).
  destruct (firstn k ahead) as [|x xs] eqn:Ch.
  - exists c, F_OK, (errno_after en e), (had_error bad e), s1. split; [reflexivity|]. split; [exact Ft|]. split; [exact Fh|]. split; [lia|]. split.
    { intros C. destruct (Ca C) as [-> _]. destruct (Kn eq_refl) as [-> _]. repeat split. }
    split; [|left; reflexivity]. intros E0 B0. destruct e as [e|]; [exfalso; apply Ke; [discriminate|exact E0]|].
    cbn in E0, B0. split; [exact E0|]. split; [exact B0|]. split; [reflexivity|]. specialize (Ko eq_refl). subst k.
    destruct ahead as [|y ys]; [rewrite app_nil_r; exact H|]. pose proof buffer_size_pos; destruct BUFFER_SIZE; [lia|discriminate Ch].
  - rewrite <- Ch. assert (Lc : (0 < length (firstn k ahead))%nat) by (rewrite Ch; cbn; lia).
    destruct (grow_by_spec c bs (length (firstn k ahead)) s1 H Lc) as (ok & c1 & s2 & G & (Gt & Gh & Gl) & Gc & H1 & Room). rewrite G. cbv beta iota.
    destruct ok.
    + destruct (append_chunk_spec c1 bs (firstn k ahead) (or_intror H1) (Room eq_refl) ltac:(rewrite Ch; discriminate)) as (c2 & A & H2). rewrite A. cbv beta iota.
      assert (La : (length (skipn k ahead) < fuel)%nat) by (rewrite firstn_length in Lc; rewrite skipn_length; lia).
      destruct (IH (skipn k ahead) c2 (bs ++ firstn k ahead) (errno_after en e) (had_error bad e) s2 La H2 ltac:(lia)) as (c' & ec & en' & bad' & s' & Q & It & Ih & Il & Ic & I0 & Ie).
      exists c', ec, en', bad', s'. split; [exact Q|]. split; [congruence|]. split; [congruence|].
      assert (owned c = 1%nat) by (destruct H as (? & D & _); unfold owned; rewrite D; reflexivity).
      assert (owned c2 = 1%nat) by (destruct H2 as (? & D & _); unfold owned; rewrite D; reflexivity).
      split; [lia|]. split.
      { intros C. destruct (Ca C) as [-> C1]. destruct (Kn eq_refl) as [-> _]. destruct (Gc C1) as [_ C2]. apply (Ic C2). }
      split; [|exact Ie]. intros E0 B0. destruct (I0 E0 B0) as (E1 & B1 & O1 & Hn). destruct e as [e|]; [exfalso; apply Ke; [discriminate|exact E1]|].
      cbn in E1, B1. split; [exact E1|]. split; [exact B1|]. split; [exact O1|]. rewrite <- app_assoc, firstn_skipn in Hn. exact Hn.
    + unfold tmu_destroy_contents. destruct H1 as (cells & D & L & Z & F & Pb). rewrite D. pose proof (holding_fits c1 bs ltac:(exists cells; repeat split; assumption)) as Fit.
      destruct (Nat.ltb_spec 0 (f_capacity c1)); [|lia]. unfold free. destruct (o_live s2) as [|n] eqn:N; [lia|]. cbv beta iota.
      eexists _, _, _, _, _. split; [reflexivity|]. cbn [o_tree o_handles o_live owned f_data no_contents]. split; [congruence|]. split; [congruence|].
      assert (owned c = 1%nat) by (destruct H as (? & D' & _); unfold owned; rewrite D'; reflexivity).
      split; [lia|]. split; [intros C; destruct (Ca C) as [_ C1]; destruct (Gc C1); discriminate|].
      split; [discriminate|]. right. repeat split.
Qed.

Theorem read_file_spec : forall fuel p s, (forall bs, found s p = Some (File bs) -> (length bs < fuel)%nat) ->
  exists c ec s', tmu_read_file fuel p s = Some (c, ec, s') /\
    o_tree s' = o_tree s /\ o_handles s' = o_handles s /\ o_live s' = (o_live s + owned c)%nat /\
    (ec = F_OK -> exists bs, found s p = Some (File bs) /\ holds_bytes c bs) /\
    (calm s -> match found s p with
               | Some (File bs) => ec = F_OK
               | Some Dir => ec = F_EISDIR /\ c = no_contents
               | None => (ec = F_ENOENT \/ ec = F_ENOTDIR) /\ c = no_contents
               end).
Proof.
  intros fuel p s Fu. unfold tmu_read_file, tmu_read_file_t, sys_fopen_rb.
  destruct (take_fault s) as [f s1] eqn:T. destruct (take_fault_spec _ _ _ T) as [(Ft & Fh & Fl) Ca]. cbv beta iota.
  assert (Fd : found s1 p = found s p) by (unfold found; rewrite Ft; reflexivity).
  destruct f as [[e k]|].
  { eexists _, _, s1. split; [reflexivity|]. cbn [owned f_data no_contents]. split; [exact Ft|]. split; [exact Fh|]. split; [lia|].
    pose proof (fault_errno_pos e) as Pe. split; [destruct (fault_errno e =? 0) eqn:E; [discriminate|intros X; apply N.eqb_neq in E; unfold F_OK in X; congruence]|intros C; destruct (Ca C); discriminate]. }
  destruct p as [|c0 p0].
  { eexists _, _, s1. split; [reflexivity|]. cbn [owned f_data no_contents found]. split; [exact Ft|]. split; [exact Fh|]. split; [lia|]. split; [discriminate|]. intros _. split; [left|]; reflexivity. }
  set (p := c0 :: p0) in *. assert (FQ : found s p = lookup (o_tree s1) (key_of p)) by (rewrite <- Fd; reflexivity).
  destruct (lookup (o_tree s1) (key_of p)) as [[bs|]|] eqn:Lk.
  - (* a file *)
    unfold sys_fread. destruct (take_fault (handle_up s1)) as [f s2] eqn:T2. destruct (take_fault_spec _ _ _ T2) as [(Gt & Gh & Gl) Ca2]. cbv beta iota.
    assert (Cu : calm s1 -> calm (handle_up s1)) by (intros C; exact C).
    assert (exists k e, (match f with
       | Some (e, k) => (firstn (min k BUFFER_SIZE) bs, Octets (skipn (min k BUFFER_SIZE) bs), Some (fault_errno e), s2)
       | None => (firstn BUFFER_SIZE bs, Octets (skipn BUFFER_SIZE bs), None, s2) end) = (firstn k bs, Octets (skipn k bs), e, s2)
       /\ (k <= BUFFER_SIZE)%nat /\ (f = None -> e = None /\ k = BUFFER_SIZE) /\ (e <> None -> errno_after 0 e <> 0) /\ (e = None -> k = BUFFER_SIZE)) as (k & e & Q & K & Kn & Ke & Ko).
    { destruct f as [[e k]|].
      - exists (min k BUFFER_SIZE), (Some (fault_errno e)). split; [reflexivity|]. split; [lia|]. split; [discriminate|]. split; [intros _; apply fault_errno_pos|discriminate].
      - exists BUFFER_SIZE, None. split; [reflexivity|]. split; [lia|]. split; [split; reflexivity|]. split; [congruence|reflexivity]. }
    rewrite Q. clear Q. cbn [o_tree o_handles o_live handle_up] in Gt, Gh, Gl.
    destruct (firstn k bs) as [|x xs] eqn:Ch.
    + (* nothing read *)
      unfold sys_fclose_r. rewrite Gh. cbv beta iota. eexists _, _, _. split; [reflexivity|]. cbn [o_tree o_handles o_live owned f_data no_contents].
      split; [congruence|]. split; [exact Fh|]. split; [lia|]. rewrite FQ. split.
      * destruct e as [e|].
        { cbn [errno_after had_error]. specialize (Ke ltac:(discriminate)). cbn [errno_after] in Ke. destruct (e =? 0) eqn:E; [apply N.eqb_eq in E; contradiction|]. cbn [negb orb]. intros X. contradiction. }
        intros _. exists bs. split; [reflexivity|]. specialize (Ko eq_refl). subst k.
        assert (bs = []) as -> by (destruct bs; [reflexivity|pose proof buffer_size_pos; destruct BUFFER_SIZE; [lia|discriminate Ch]]). split; reflexivity.
      * intros C. destruct (Ca C) as [_ C1]. destruct (Ca2 (Cu C1)) as [-> _]. destruct (Kn eq_refl) as [-> _]. reflexivity.
    + cbv beta iota zeta. rewrite <- Ch. assert (Lc : (0 < length (firstn k bs))%nat) by (rewrite Ch; cbn; lia). assert (Lk2 : (length (firstn k bs) <= BUFFER_SIZE)%nat) by (rewrite firstn_length; lia).
      set (cap := if (length (firstn k bs) <? BUFFER_SIZE)%nat then length (firstn k bs) else (BUFFER_SIZE * 2)%nat).
      assert (Cp : (length (firstn k bs) <= cap)%nat). { unfold cap. destruct (Nat.ltb_spec (length (firstn k bs)) BUFFER_SIZE); [lia|]. lia. }
      clearbody cap. unfold malloc. destruct (grant s2) as [b s3] eqn:G. destruct (grant_spec _ _ _ G) as [(Ht & Hh & Hl) Ca3].
      destruct b.
      * destruct (append_chunk_spec (FContents (Some (fresh_cells cap)) 0 cap) [] (firstn k bs)) as (c1 & A & H1).
        { left. split; [reflexivity|]. split; [reflexivity|]. exists (fresh_cells cap). split; [reflexivity|]. apply repeat_length. }
        { cbn [length f_capacity]. lia. } { rewrite Ch; discriminate. }
        rewrite A. cbv beta iota.
        assert (La : (length (skipn k bs) < fuel)%nat) by (rewrite skipn_length; specialize (Fu bs FQ); lia).
        destruct (read_loop_spec fuel (skipn k bs) c1 ([] ++ firstn k bs) (errno_after 0 e) (had_error false e) (live_up s3) La H1 ltac:(cbn [o_live live_up]; lia)) as (c' & ec & en' & bad' & s' & R & It & Ih & Il & Ic & I0 & Ie).
        rewrite R. cbv beta iota. cbn [o_tree o_handles o_live live_up] in It, Ih, Il.
        assert (owned c1 = 1%nat) by (destruct H1 as (? & D & _); unfold owned; rewrite D; reflexivity).
        unfold sys_fclose_r. rewrite Ih, Hh, Gh. cbv beta iota. eexists _, _, _. split; [reflexivity|]. cbn [o_tree o_handles o_live].
        split; [congruence|]. split; [exact Fh|]. split; [lia|]. rewrite FQ. split.
        { destruct (en' =? 0) eqn:E.
          - apply N.eqb_eq in E. cbn [negb orb]. destruct bad'; [discriminate|]. intros X. destruct (I0 E eq_refl) as (_ & _ & _ & H2).
            exists bs. split; [reflexivity|]. apply holding_bytes. cbn [app] in H2. rewrite firstn_skipn in H2. exact H2.
          - cbn [negb orb]. intros X. apply N.eqb_neq in E. contradiction. }
        { intros C. destruct (Ca C) as [_ C1]. destruct (Ca2 (Cu C1)) as [-> C2]. destruct (Ca3 C2) as [_ C3]. destruct (Kn eq_refl) as [-> _]. destruct (Ic C3) as (-> & -> & ->). reflexivity. }
      * cbv beta iota. unfold sys_fclose_r. rewrite Hh, Gh. cbv beta iota. eexists _, _, _. split; [reflexivity|]. cbn [o_tree o_handles o_live owned f_data no_contents].
        split; [congruence|]. split; [exact Fh|]. split; [lia|]. split; [discriminate|].
        intros C. destruct (Ca C) as [_ C1]. destruct (Ca2 (Cu C1)) as [_ C2]. destruct (Ca3 C2). discriminate.
  - (* a directory *)
    unfold sys_fread. destruct (take_fault (handle_up s1)) as [f s2] eqn:T2. destruct (take_fault_spec _ _ _ T2) as [(Gt & Gh & Gl) Ca2]. cbv beta iota.
    cbn [o_tree o_handles o_live handle_up] in Gt, Gh, Gl. cbn [errno_after had_error].
    unfold sys_fclose_r. rewrite Gh. cbv beta iota. eexists _, _, _. split; [reflexivity|]. cbn [o_tree o_handles o_live owned f_data no_contents].
    split; [congruence|]. split; [exact Fh|]. split; [lia|]. rewrite FQ. split; [discriminate|]. intros _. split; reflexivity.
  - eexists _, _, s1. split; [reflexivity|]. cbn [owned f_data no_contents]. split; [exact Ft|]. split; [exact Fh|]. split; [lia|]. rewrite FQ.
    unfold missing. destruct (blocked _ _ _ _); (split; [discriminate|]); intros _; (split; [|reflexivity]); [right|left]; reflexivity.
Qed.
