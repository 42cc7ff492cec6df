(** Renaming and deleting files. *)
From Coq Require Import Arith NArith List Bool Lia.
From Verif Require Import Base FiModel FiSpec FiRead FiDir FiWrite.
Import ListNotations.
Local Open Scope N_scope.

(** The system call. *)
Definition moved (t t' : tree) (k k' : key) : Prop :=
  exists bs, lookup t k = Some (File bs) /\ forall x, lookup t' x = if key_eqb k' x then Some (File bs) else if key_eqb k x then None else lookup t x.
Lemma rename_call p q s e s' : sound_tree (o_tree s) -> sys_rename p q s = (e, s') -> o_handles s' = o_handles s /\ o_live s' = o_live s /\ sound_tree (o_tree s') /\
  (e = F_OK -> p <> [] /\ q <> [] /\ moved (o_tree s) (o_tree s') (key_of p) (key_of q)) /\ (e <> F_OK -> o_tree s' = o_tree s) /\
  (calm s -> calm s' /\ forall bs, found s p = Some (File bs) -> q <> [] -> found s q <> Some Dir -> lookup (o_tree s) (parent (key_of q)) = Some Dir -> e = F_OK).
Proof.
  intros So. unfold sys_rename. destruct (take_fault s) as [f s1] eqn:T. destruct (take_fault_spec _ _ _ T) as [(Ft & Fh & Fl) Ca].
  assert (Stop : forall e1 : N, e1 <> 0 -> (calm s -> calm s1) -> (calm s -> forall bs, found s p = Some (File bs) -> q <> [] -> found s q <> Some Dir -> lookup (o_tree s) (parent (key_of q)) = Some Dir -> False) -> (e1, s1) = (e, s') ->
    o_handles s' = o_handles s /\ o_live s' = o_live s /\ sound_tree (o_tree s') /\
    (e = F_OK -> p <> [] /\ q <> [] /\ moved (o_tree s) (o_tree s') (key_of p) (key_of q)) /\ (e <> F_OK -> o_tree s' = o_tree s) /\
    (calm s -> calm s' /\ forall bs, found s p = Some (File bs) -> q <> [] -> found s q <> Some Dir -> lookup (o_tree s) (parent (key_of q)) = Some Dir -> e = F_OK)).
  { intros e1 N1 C1 X [= <- <-]. split; [exact Fh|]. split; [exact Fl|]. rewrite Ft. split; [exact So|]. split; [intros Y; contradiction|]. split; [reflexivity|]. intros C. split; [apply C1; exact C|]. intros bs A B D E. exfalso. exact (X C bs A B D E). }
  destruct f as [[e1 k]|]; [apply Stop; [apply fault_errno_pos|intros C; destruct (Ca C); discriminate|intros C; destruct (Ca C); discriminate]|].
  assert (C1 : calm s -> calm s1) by (intros C; apply (Ca C)).
  destruct p as [|c p]; [apply Stop; [discriminate|exact C1|intros _ bs X; discriminate X]|].
  destruct q as [|d q]; [apply Stop; [discriminate|exact C1|congruence]|]. rewrite Ft.
  assert (Fp : found s (c :: p) = lookup (o_tree s) (key_of (c :: p))) by reflexivity. assert (Fq : found s (d :: q) = lookup (o_tree s) (key_of (d :: q))) by reflexivity.
  assert (Np : c :: p <> []) by discriminate. assert (Nq : d :: q <> []) by discriminate. set (p1 := c :: p) in *. set (q1 := d :: q) in *. clearbody p1 q1.
  destruct (lookup (o_tree s) (key_of p1)) as [[bs|]|] eqn:L; [|apply Stop; [discriminate|exact C1|intros _ bs X; congruence]|apply Stop; [apply missing_nonzero|exact C1|intros _ bs X; congruence]].
  assert (R : snd (key_of p1) <> []) by (apply (lookup_none_snd (o_tree s)); congruence).
  assert (Go : lookup (o_tree s) (key_of q1) <> Some Dir -> lookup (o_tree s) (parent (key_of q1)) = Some Dir ->
    (if key_eqb (key_of p1) (key_of q1) then (F_OK, s1) else (F_OK, with_tree s1 (put (erase (o_tree s) (key_of p1)) (key_of q1) (File bs)))) = (e, s') ->
    o_handles s' = o_handles s /\ o_live s' = o_live s /\ sound_tree (o_tree s') /\
    (e = F_OK -> p1 <> [] /\ q1 <> [] /\ moved (o_tree s) (o_tree s') (key_of p1) (key_of q1)) /\ (e <> F_OK -> o_tree s' = o_tree s) /\
    (calm s -> calm s' /\ forall bs, found s p1 = Some (File bs) -> q1 <> [] -> found s q1 <> Some Dir -> lookup (o_tree s) (parent (key_of q1)) = Some Dir -> e = F_OK)).
  { intros Nd Pd. assert (R2 : snd (key_of q1) <> []) by (apply (lookup_none_snd (o_tree s)); exact Nd). destruct (key_eqb_spec (key_of p1) (key_of q1)) as [E|E]; intros [= <- <-].
    - split; [exact Fh|]. split; [exact Fl|]. rewrite Ft. split; [exact So|]. split; [|split; [reflexivity|]].
      + intros _. split; [exact Np|]. split; [exact Nq|]. exists bs. split; [exact L|]. intros x. rewrite <- E. destruct (key_eqb_spec (key_of p1) x) as [<-|_]; [exact L|reflexivity].
      + intros C. split; [apply C1; exact C|reflexivity].
    - cbn [o_handles o_live o_tree with_tree]. split; [exact Fh|]. split; [exact Fl|]. split; [|split; [|split; [intros X; exfalso; apply X; reflexivity|]]].
      + apply sound_put_file; [apply sound_erase_file; [exact So|exact R|rewrite L; discriminate]|exact R2| |].
        * rewrite lookup_erase by exact R. destruct (key_eqb_spec (key_of p1) (key_of q1)); [contradiction|exact Nd].
        * rewrite lookup_erase by exact R. destruct (key_eqb_spec (key_of p1) (parent (key_of q1))) as [X|_]; [rewrite X in L; congruence|exact Pd].
      + intros _. split; [exact Np|]. split; [exact Nq|]. exists bs. split; [exact L|]. intros x. rewrite lookup_put, lookup_erase by assumption. reflexivity.
      + intros C. split; [apply C1; exact C|reflexivity]. }
  destruct (lookup (o_tree s) (key_of q1)) as [[old|]|] eqn:L2.
  - pose proof (parent_dir (o_tree s) (key_of q1) So ltac:(apply (lookup_none_snd (o_tree s)); congruence) ltac:(rewrite L2; discriminate)) as Pd0.
    destruct (lookup (o_tree s) (parent (key_of q1))) as [[o2|]|] eqn:Pd; [discriminate Pd0| |discriminate Pd0]. apply Go; [discriminate|reflexivity].
  - apply Stop; [discriminate|exact C1|intros _ b0 _ _ X; congruence].
  - destruct (lookup (o_tree s) (parent (key_of q1))) as [[old|]|] eqn:Pd.
    + apply Stop; [apply missing_nonzero|exact C1|intros _ b0 _ _ _ X; discriminate X].
    + apply Go; [discriminate|reflexivity].
    + apply Stop; [apply missing_nonzero|exact C1|intros _ b0 _ _ _ X; discriminate X].
Qed.

Lemma remove_file p s bs e s' : sound_tree (o_tree s) -> found s p = Some (File bs) -> sys_remove p s = (e, s') -> o_handles s' = o_handles s /\ o_live s' = o_live s /\ sound_tree (o_tree s') /\
  (e = F_OK -> forall x, lookup (o_tree s') x = if key_eqb (key_of p) x then None else lookup (o_tree s) x) /\ (e <> F_OK -> o_tree s' = o_tree s) /\ (calm s -> calm s' /\ e = F_OK).
Proof.
  intros So F. unfold sys_remove. destruct (take_fault s) as [f s1] eqn:T. destruct (take_fault_spec _ _ _ T) as [(Ft & Fh & Fl) Ca]. destruct (found_file _ _ _ F) as [Np L]. pose proof (file_key _ _ _ F) as R.
  destruct f as [[e1 k]|].
  { intros [= <- <-]. split; [exact Fh|]. split; [exact Fl|]. rewrite Ft. split; [exact So|]. split; [intros X; exfalso; exact (fault_errno_pos _ X)|]. split; [reflexivity|]. intros C; destruct (Ca C); discriminate. }
  destruct p as [|c p]; [congruence|]. set (q := c :: p) in *. clearbody q. rewrite Ft, L. intros [= <- <-]. cbn [o_handles o_live o_tree with_tree]. split; [exact Fh|]. split; [exact Fl|].
  split; [apply sound_erase_file; [exact So|exact R|rewrite L; discriminate]|]. split; [intros _ x; apply lookup_erase; exact R|]. split; [intros X; exfalso; apply X; reflexivity|]. intros C. split; [apply (Ca C)|reflexivity].
Qed.

(** Moved, up to directories made before. *)
Definition moved_kept (d : option path) (t t' : tree) (k k' : key) : Prop :=
  exists bs, lookup t k = Some (File bs) /\ lookup t' k' = Some (File bs) /\ (k <> k' -> lookup t' k = None) /\ forall x, x <> k -> x <> k' -> kept d t t' x.

Theorem rename_spec : forall p q fl s, sound_tree (o_tree s) ->
  let d := if w_tree fl then Some (dir_part q) else None in
  exists e s', tmu_rename_file_ex p q fl s = Some (e, s') /\ o_handles s' = o_handles s /\ o_live s' = o_live s /\ sound_tree (o_tree s') /\
    (e = F_OK -> p <> [] /\ q <> [] /\ moved_kept d (o_tree s) (o_tree s') (key_of p) (key_of q)) /\
    (w_overwrite fl = false -> forall bs, found s q = Some (File bs) -> e <> F_OK /\ o_tree s' = o_tree s) /\
    (w_overwrite fl = false -> e <> F_OK -> forall x, kept d (o_tree s) (o_tree s') x) /\
    (e <> F_OK -> (forall x, x <> key_of q -> kept d (o_tree s) (o_tree s') x) /\ (kept d (o_tree s) (o_tree s') (key_of q) \/ lookup (o_tree s') (key_of q) = None)) /\
    (calm s -> calm s' /\ forall bs, found s p = Some (File bs) -> q <> [] -> w_tree fl = false -> found s q <> Some Dir -> (forall old, found s q = Some (File old) -> w_overwrite fl = true) -> lookup (o_tree s) (parent (key_of q)) = Some Dir -> e = F_OK) /\
    (calm s -> e <> F_OK -> forall x, kept d (o_tree s) (o_tree s') x).
Proof.
  intros p q fl s So d. unfold tmu_rename_file_ex, tmu_rename_file_ex_t.
  assert (exists there e1 s1, (if w_overwrite fl then (false, F_OK, s) else tmu_file_exists_t q s) = (there, e1, s1) /\ frame s s1 /\ (calm s -> calm s1 /\ e1 = F_OK) /\ (w_overwrite fl = false -> e1 = F_OK -> there = false -> forall bs, found s q <> Some (File bs)) /\ (there = true -> w_overwrite fl = false /\ exists bs, found s q = Some (File bs))) as (there & e1 & s1 & -> & (Ft & Fh & Fl) & C1 & R1 & R2).
  { destruct (w_overwrite fl).
    - exists false, F_OK, s. split; [reflexivity|]. split; [apply frame_refl|]. split; [auto|]. split; [discriminate|]. discriminate.
    - destruct (tmu_file_exists_t q s) as [[b e1] s1] eqn:X. destruct (file_exists_spec _ _ _ _ _ X) as (X1 & X2 & X3 & X4). exists b, e1, s1. split; [reflexivity|]. split; [exact X1|]. split; [exact X4|]. split; auto. }
  cbv beta iota.
  assert (Same : forall t x, kept d t t x) by (intros t x; left; reflexivity).
  destruct (e1 =? F_OK) eqn:E1; cbn [negb].
  2:{ apply N.eqb_neq in E1. exists e1, s1. split; [reflexivity|]. split; [exact Fh|]. split; [exact Fl|]. rewrite Ft. split; [exact So|]. split; [intros X; contradiction|]. split; [split; [exact E1|reflexivity]|]. split; [intros _ _ x; apply Same|]. split; [intros _; split; [intros x _; apply Same|left; apply Same]|].
      split; [intros C; split; [apply (C1 C)|intros; apply (C1 C)]|]. intros _ _ x. apply Same. }
  apply N.eqb_eq in E1. subst e1. destruct there.
  { destruct (R2 eq_refl) as [W [bs X]]. exists F_EEXIST, s1. split; [reflexivity|]. split; [exact Fh|]. split; [exact Fl|]. rewrite Ft. split; [exact So|]. split; [discriminate|]. split; [split; [discriminate|reflexivity]|]. split; [intros _ _ x; apply Same|]. split; [intros _; split; [intros x _; apply Same|left; apply Same]|].
    split; [intros C; split; [apply (C1 C)|]|intros _ _ x; apply Same]. intros bs' _ _ _ _ Wr _. rewrite (Wr bs X) in W. discriminate W. }
  assert (So1 : sound_tree (o_tree s1)) by (rewrite Ft; exact So).
  destruct (prepare_spec (w_tree fl) q s1 So1) as (e2 & s2 & Q & P1 & P2 & P3 & P4 & P5 & P6 & P7 & P8). fold d in P4. rewrite Q. clear Q. cbv beta iota. rewrite Ft in P4, P5, P6.
  assert (Nt : w_overwrite fl = false -> forall bs, found s q <> Some (File bs)) by (intros W; apply (R1 W eq_refl eq_refl)).
  destruct (e2 =? F_OK) eqn:E2; cbn [negb].
  2:{ apply N.eqb_neq in E2. exists e2, s2. split; [reflexivity|]. split; [congruence|]. split; [congruence|]. split; [exact P3|]. split; [intros X; contradiction|]. split; [intros W bs X; exfalso; exact (Nt W bs X)|]. split; [intros _ _ x; apply P4|]. split; [intros _; split; [intros x _; apply P4|left; apply P4]|].
      split; [|intros _ _ x; apply P4]. intros C. split; [apply P8, C1, C|]. intros bs _ _ W. exfalso. apply E2. apply (P7 W). }
  apply N.eqb_eq in E2. subst e2.
  destruct (sys_rename p q s2) as [e3 s3] eqn:Rn. destruct (rename_call p q s2 e3 s3 P3 Rn) as (K1 & K2 & K3 & K4 & K5 & K6).
  assert (Mv : forall t', moved (o_tree s2) t' (key_of p) (key_of q) -> moved_kept d (o_tree s) t' (key_of p) (key_of q)).
  { intros t' (bs & L & A). exists bs. split; [apply P6; exact L|]. split; [rewrite A, key_eqb_refl; reflexivity|]. split.
    - intros N. rewrite A, key_eqb_refl. destruct (key_eqb_spec (key_of q) (key_of p)); [congruence|reflexivity].
    - intros x Nx Ny. apply (kept_trans _ _ (o_tree s2)); [apply P4|]. rewrite A. destruct (key_eqb_spec (key_of q) x); [congruence|]. destruct (key_eqb_spec (key_of p) x); [congruence|reflexivity]. }
  assert (Calm : forall bs, calm s -> found s p = Some (File bs) -> q <> [] -> w_tree fl = false -> found s q <> Some Dir -> lookup (o_tree s) (parent (key_of q)) = Some Dir -> e3 = F_OK).
  { intros bs C F Nq W Nd Pd. destruct (P7 W) as [_ X]. apply (proj2 (K6 (proj1 (P8 (proj1 (C1 C))))) bs); [| exact Nq| |]; rewrite X; unfold found; rewrite Ft; assumption. }
  destruct (e3 =? F_OK) eqn:E3.
  { apply N.eqb_eq in E3. subst e3. destruct (K4 eq_refl) as (Np & Nq & M). exists F_OK, s3. split; [reflexivity|]. split; [congruence|]. split; [congruence|]. split; [exact K3|]. split; [intros _; split; [exact Np|split; [exact Nq|apply Mv; exact M]]|]. split; [intros W bs X; exfalso; exact (Nt W bs X)|]. split; [intros _ X; exfalso; apply X; reflexivity|]. split; [intros X; exfalso; apply X; reflexivity|].
    split; [intros C; split; [apply K6, P8, C1, C|reflexivity]|]. intros _ X. exfalso. apply X. reflexivity. }
  apply N.eqb_neq in E3. specialize (K5 E3).
  (* the answer when nothing more is done *)
  assert (Fail : forall sx e0, e0 <> F_OK -> (calm s -> calm sx) -> frame s3 sx -> (calm s -> forall bs, found s p = Some (File bs) -> q <> [] -> w_tree fl = false -> found s q <> Some Dir -> lookup (o_tree s) (parent (key_of q)) = Some Dir -> False) ->
    exists e s', Some (e0, sx) = Some (e, s') /\ o_handles s' = o_handles s /\ o_live s' = o_live s /\ sound_tree (o_tree s') /\
    (e = F_OK -> p <> [] /\ q <> [] /\ moved_kept d (o_tree s) (o_tree s') (key_of p) (key_of q)) /\
    (w_overwrite fl = false -> forall bs, found s q = Some (File bs) -> e <> F_OK /\ o_tree s' = o_tree s) /\
    (w_overwrite fl = false -> e <> F_OK -> forall x, kept d (o_tree s) (o_tree s') x) /\
    (e <> F_OK -> (forall x, x <> key_of q -> kept d (o_tree s) (o_tree s') x) /\ (kept d (o_tree s) (o_tree s') (key_of q) \/ lookup (o_tree s') (key_of q) = None)) /\
    (calm s -> calm s' /\ forall bs, found s p = Some (File bs) -> q <> [] -> w_tree fl = false -> found s q <> Some Dir -> (forall old, found s q = Some (File old) -> w_overwrite fl = true) -> lookup (o_tree s) (parent (key_of q)) = Some Dir -> e = F_OK) /\
    (calm s -> e <> F_OK -> forall x, kept d (o_tree s) (o_tree s') x)).
  { intros sx e0 N0 Cx (Xt & Xh & Xl) Z. exists e0, sx. split; [reflexivity|]. split; [congruence|]. split; [congruence|]. rewrite Xt, K5. split; [exact P3|]. split; [intros X; contradiction|]. split; [intros W bs X; exfalso; exact (Nt W bs X)|]. split; [intros _ _ x; apply P4|]. split; [intros _; split; [intros x _; apply P4|left; apply P4]|].
    split; [|intros _ _ x; apply P4]. intros C. split; [apply Cx; exact C|]. intros bs A B D E _ G. exfalso. exact (Z C bs A B D E G). }
  assert (Z : calm s -> forall bs, found s p = Some (File bs) -> q <> [] -> w_tree fl = false -> found s q <> Some Dir -> lookup (o_tree s) (parent (key_of q)) = Some Dir -> False) by (intros C bs A B D E G; apply E3; exact (Calm bs C A B D E G)).
  assert (C3 : calm s -> calm s3) by (intros C; apply K6, P8, C1, C).
  destruct (w_overwrite fl) eqn:Wo; [|apply Fail; [exact E3|exact C3|apply frame_refl|exact Z]].
  destruct (tmu_file_exists_t p s3) as [[a ea] s4] eqn:X4. destruct (file_exists_spec _ _ _ _ _ X4) as (A1 & A2 & A3 & A4).
  destruct a; [|apply Fail; [exact E3|intros C; apply A4, C3, C|exact A1|exact Z]].
  destruct (tmu_file_exists_t q s4) as [[b eb] s5] eqn:X5. destruct (file_exists_spec _ _ _ _ _ X5) as (B1 & B2 & B3 & B4).
  destruct b; [|apply Fail; [exact E3|intros C; apply B4, A4, C3, C|exact (frame_trans _ _ _ A1 B1)|exact Z]].
  destruct (B2 eq_refl) as [old Fo]. destruct (A2 eq_refl) as [src Fs]. pose proof (frame_trans _ _ _ A1 B1) as F5. destruct F5 as (F5t & F5h & F5l).
  assert (Fo5 : found s5 q = Some (File old)) by (unfold found; destruct B1 as (B1t & _); rewrite B1t; exact Fo).
  assert (So5 : sound_tree (o_tree s5)) by (rewrite F5t; exact K3).
  unfold tmu_delete_file_t. destruct (sys_remove q s5) as [e6 s6] eqn:Rm. destruct (remove_file q s5 old e6 s6 So5 Fo5 Rm) as (D1 & D2 & D3 & D4 & D5 & D6).
  assert (E5 : o_tree s5 = o_tree s2) by congruence.
  assert (Never : calm s -> False).
  { intros C. destruct (found_file _ _ _ Fs) as [Np Ls]. destruct (found_file _ _ _ Fo5) as [Nq Lo]. apply E3. apply (proj2 (K6 (proj1 (P8 (proj1 (C1 C))))) src); [rewrite found_key by exact Np; rewrite <- K5; exact Ls|exact Nq|rewrite found_key, <- E5, Lo by exact Nq; discriminate|].
    rewrite <- E5. apply parent_dir; [exact So5|exact (file_key _ _ _ Fo5)|rewrite Lo; discriminate]. }
  destruct (e6 =? F_OK) eqn:E6.
  - apply N.eqb_eq in E6. subst e6. specialize (D4 eq_refl). destruct (sys_rename p q s6) as [e7 s7] eqn:Rn2. destruct (rename_call p q s6 e7 s7 D3 Rn2) as (L1 & L2 & L3 & L4 & L5 & L6).
    exists e7, s7. split; [reflexivity|]. split; [congruence|]. split; [congruence|]. split; [exact L3|].
    assert (Un : forall x, x <> key_of q -> lookup (o_tree s6) x = lookup (o_tree s2) x) by (intros x Nx; rewrite D4, <- E5; destruct (key_eqb_spec (key_of q) x); [congruence|reflexivity]).
    split.
    { intros X. destruct (L4 X) as (Np & Nq & bs & M1 & M2). split; [exact Np|]. split; [exact Nq|]. apply Mv. assert (Nk : key_of p <> key_of q) by (intros Y; rewrite Y, D4, key_eqb_refl in M1; discriminate M1).
      exists bs. split; [rewrite <- Un by exact Nk; exact M1|]. intros x. rewrite M2. destruct (key_eqb_spec (key_of q) x) as [_|Nx]; [reflexivity|]. destruct (key_eqb_spec (key_of p) x); [reflexivity|]. apply Un. congruence. }
    split; [discriminate|]. split; [discriminate|]. split.
    { intros X. specialize (L5 X). split; [intros x Nx; apply (kept_trans _ _ (o_tree s2)); [apply P4|]; rewrite L5; apply Un; exact Nx|]. right. rewrite L5, D4, key_eqb_refl. reflexivity. }
    split; intros C; destruct (Never C).
  - apply N.eqb_neq in E6. apply Fail; [exact E6|intros C; destruct (Never C)| |exact Z]. specialize (D5 E6). split; [congruence|]. split; congruence.
Qed.
