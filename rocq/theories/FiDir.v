(** Paths, trees and the creation of directories. *)
From Coq Require Import Arith NArith List Bool Lia.
From Verif Require Import Base FiModel FiSpec FiRead.
Import ListNotations.
Local Open Scope N_scope.

(** ** Trees *)
Lemma key_eqb_spec x y : reflect (x = y) (key_eqb x y).
Proof. unfold key_eqb. destruct (key_eq_dec x y); constructor; assumption. Qed.
Lemma key_eqb_refl x : key_eqb x x = true. Proof. destruct (key_eqb_spec x x); congruence. Qed.
Lemma find_erase t k k' : find_key (erase t k) k' = if key_eqb k k' then None else find_key t k'.
Proof.
  induction t as [|[h n] t IH]; [cbn; destruct (key_eqb k k'); reflexivity|]. unfold erase in *. cbn [filter fst]. destruct (key_eqb_spec h k) as [->|N]; cbn [negb find_key].
  - rewrite IH. destruct (key_eqb_spec k k'); reflexivity.
  - rewrite IH. destruct (key_eqb_spec h k') as [->|]; [|reflexivity]. destruct (key_eqb_spec k k'); congruence.
Qed.
Lemma lookup_put t k n k' : snd k <> [] -> lookup (put t k n) k' = if key_eqb k k' then Some n else lookup t k'.
Proof.
  intros R. unfold lookup. destruct (snd k') eqn:E; [destruct (key_eqb_spec k k'); [congruence|reflexivity]|]. unfold put. cbn [find_key]. rewrite find_erase. destruct (key_eqb_spec k k'); reflexivity.
Qed.
Lemma lookup_erase t k k' : snd k <> [] -> lookup (erase t k) k' = if key_eqb k k' then None else lookup t k'.
Proof. intros R. unfold lookup. destruct (snd k') eqn:E; [destruct (key_eqb_spec k k'); [congruence|reflexivity]|]. apply find_erase. Qed.
Lemma lookup_root t a : lookup t (a, []) = Some Dir. Proof. reflexivity. Qed.
Lemma lookup_none_snd t k : lookup t k <> Some Dir -> snd k <> [].
Proof. intros H E. apply H. unfold lookup. rewrite E. reflexivity. Qed.

Lemma sound_put_new t k n : sound_tree t -> snd k <> [] -> lookup t k = None -> lookup t (parent k) = Some Dir -> sound_tree (put t k n).
Proof.
  intros S R N P a cs c. rewrite !lookup_put by assumption.
  destruct (key_eqb_spec k (a, cs)) as [E|E].
  - subst k. destruct (key_eqb_spec (a, cs) (a, cs ++ [c])) as [X|X]; [injection X as X; apply (f_equal (@length _)) in X; rewrite app_length in X; cbn in X; lia|].
    intros H. apply S in H. congruence.
  - destruct (key_eqb_spec k (a, cs ++ [c])) as [->|X]; [|apply S]. intros _. unfold parent in P. cbn [fst snd] in P. rewrite removelast_last in P. exact P.
Qed.
Lemma sound_put_file t k bs : sound_tree t -> snd k <> [] -> lookup t k <> Some Dir -> lookup t (parent k) = Some Dir -> sound_tree (put t k (File bs)).
Proof.
  intros S R N P a cs c. rewrite !lookup_put by assumption.
  destruct (key_eqb_spec k (a, cs)) as [E|E].
  - subst k. destruct (key_eqb_spec (a, cs) (a, cs ++ [c])) as [X|X]; [injection X as X; apply (f_equal (@length _)) in X; rewrite app_length in X; cbn in X; lia|].
    intros H. apply S in H. congruence.
  - destruct (key_eqb_spec k (a, cs ++ [c])) as [->|X]; [|apply S]. intros _. unfold parent in P. cbn [fst snd] in P. rewrite removelast_last in P. exact P.
Qed.
Lemma sound_erase_file t k : sound_tree t -> snd k <> [] -> lookup t k <> Some Dir -> sound_tree (erase t k).
Proof.
  intros S R N a cs c. rewrite !lookup_erase by assumption. destruct (key_eqb_spec k (a, cs ++ [c])); [congruence|]. intros H. specialize (S _ _ _ H).
  destruct (key_eqb_spec k (a, cs)) as [->|]; [congruence|exact S].
Qed.
(** In a sound tree everything above an entry is a directory. *)
Lemma sound_above t a cs cs' : sound_tree t -> cs' <> [] -> lookup t (a, cs ++ cs') <> None -> lookup t (a, cs) = Some Dir.
Proof.
  intros S. revert cs. induction cs' as [|c cs' IH]; intros cs N H; [congruence|]. destruct cs' as [|d r].
  - apply (S a cs c). exact H.
  - apply (S a cs c). rewrite (IH (cs ++ [c])); [discriminate|discriminate|]. rewrite <- app_assoc. exact H.
Qed.
Lemma parent_dir t k : sound_tree t -> snd k <> [] -> lookup t k <> None -> lookup t (parent k) = Some Dir.
Proof. destruct k as [a cs]. cbn [snd]. intros S N. destruct (exists_last N) as (l & x & ->). unfold parent. cbn [fst snd]. rewrite removelast_last. apply S. Qed.

(** ** Components *)
Definition slash_free (p : path) : Prop := Forall (fun c => is_slash c = false) p.
Lemma split_nonempty p : exists s ss, split_slash p = s :: ss.
Proof. induction p as [|c r (s & ss & E)]; [eexists _, _; reflexivity|]. cbn [split_slash]. destruct (is_slash c); [eexists _, _; reflexivity|]. rewrite E. eexists _, _; reflexivity. Qed.
Lemma split_free p : slash_free p -> split_slash p = [p].
Proof. induction p as [|c r IH]; intros F; [reflexivity|]. inversion F; subst. cbn [split_slash]. rewrite H1, IH by assumption. reflexivity. Qed.
Lemma split_app p q : split_slash (p ++ 47 :: q) = split_slash p ++ split_slash q.
Proof.
  induction p as [|c r IH]; [reflexivity|]. cbn [app split_slash]. rewrite IH. destruct (is_slash c); [reflexivity|].
  destruct (split_nonempty r) as (s & ss & E). rewrite E. reflexivity.
Qed.
Lemma components_app p q : components (p ++ 47 :: q) = components p ++ components q.
Proof. unfold components. rewrite split_app. apply filter_app. Qed.
Lemma components_free p : slash_free p -> components p = if real_name p then [p] else [].
Proof. intros F. unfold components. rewrite split_free by exact F. cbn [filter]. destruct (real_name p); reflexivity. Qed.
(** A text in front of the next component: empty, or ending with a slash. *)
Definition front (pre : path) : Prop := pre = [] \/ exists q, pre = q ++ [47].
Lemma components_front pre seg : front pre -> components (pre ++ seg) = components pre ++ components seg.
Proof. intros [->|[q ->]]; [reflexivity|]. rewrite <- app_assoc. cbn [app]. rewrite !components_app. cbn. rewrite app_nil_r. reflexivity. Qed.
Lemma absolute_app p q : p <> [] -> absolute (p ++ q) = absolute p.
Proof. destruct p; [congruence|reflexivity]. Qed.

Lemma next_slash_app pre suf : next_slash (pre ++ suf) (length pre) = option_map (fun i => (length pre + i)%nat) (next_slash suf 0).
Proof. induction pre as [|c r IH]; cbn [app length next_slash]; [destruct (next_slash suf 0); reflexivity|]. rewrite IH. destruct (next_slash suf 0); reflexivity. Qed.
Lemma next_slash_cases suf : (slash_free suf /\ next_slash suf 0 = None) \/
  exists seg suf', suf = seg ++ 47 :: suf' /\ slash_free seg /\ next_slash suf 0 = Some (length seg).
Proof.
  induction suf as [|c r IH]; [left; split; [constructor|reflexivity]|]. cbn [next_slash]. destruct (is_slash c) eqn:E.
  - right. exists [], r. split; [cbn [app]; unfold is_slash in E; apply N.eqb_eq in E; congruence|]. split; [constructor|reflexivity].
  - destruct IH as [[F ->]|(seg & suf' & -> & F & ->)].
    + left. split; [constructor; assumption|reflexivity].
    + right. exists (c :: seg), suf'. split; [reflexivity|]. split; [constructor; assumption|reflexivity].
Qed.

(** ** Creating *)
(** Only directories along the path were added. *)
Definition made (p : path) (t t' : tree) : Prop :=
  (forall k, lookup t k <> None -> lookup t' k = lookup t k) /\
  (forall k, lookup t k = None -> lookup t' k = None \/ (lookup t' k = Some Dir /\ exists j, k = (absolute p, firstn j (components p)))).
Lemma made_refl p t : made p t t. Proof. split; [reflexivity|]. intros k ->. left. reflexivity. Qed.
Lemma made_trans p t1 t2 t3 : made p t1 t2 -> made p t2 t3 -> made p t1 t3.
Proof.
  intros [A B] [C D]. split.
  - intros k H. rewrite <- (A k H). apply C. rewrite (A k H). exact H.
  - intros k H. destruct (B k H) as [E|[E X]].
    + apply D. exact E.
    + right. split; [|exact X]. rewrite C; [exact E|]. rewrite E. discriminate.
Qed.
Lemma made_no_file p t t' k : made p t t' -> (forall bs, lookup t k <> Some (File bs)) -> forall bs, lookup t' k <> Some (File bs).
Proof. intros [A B] H bs X. destruct (lookup t k) eqn:E; [rewrite A in X by congruence; rewrite E in X; exact (H _ X)|]. destruct (B k E) as [Y|[Y _]]; congruence. Qed.

Lemma missing_nonzero t k : missing t k <> 0 /\ missing t k <> F_EEXIST.
Proof. unfold missing. destruct (blocked _ _ _ _); split; discriminate. Qed.

(** One directory whose name is a prefix of the path. *)
Lemma single_spec : forall p q s, q <> [] -> (exists j, key_of q = (absolute p, firstn j (components p))) -> sound_tree (o_tree s) ->
  exists e s', tmu_create_single_directory_t q s = (e, s') /\ o_handles s' = o_handles s /\ o_live s' = o_live s /\
    made p (o_tree s) (o_tree s') /\ sound_tree (o_tree s') /\ (e = F_OK -> lookup (o_tree s') (key_of q) <> None) /\
    (e <> F_OK -> o_tree s' = o_tree s) /\
    (calm s -> calm s' /\ (lookup (o_tree s) (key_of q) <> None \/ lookup (o_tree s) (parent (key_of q)) = Some Dir -> e = F_OK)).
Proof.
  intros p q s Nq [j J] S. unfold tmu_create_single_directory_t, sys_mkdir.
  destruct (take_fault s) as [f s1] eqn:T. destruct (take_fault_spec _ _ _ T) as [(Ft & Fh & Fl) Ca].
  destruct f as [[e k]|].
  { pose proof (fault_errno_pos e) as P. destruct (fault_errno_other e) as (_ & P2 & _).
    destruct (fault_errno e =? F_OK) eqn:E1; [apply N.eqb_eq in E1; contradiction|]. destruct (fault_errno e =? F_EEXIST) eqn:E2; [apply N.eqb_eq in E2; contradiction|].
    eexists _, s1. split; [reflexivity|]. split; [exact Fh|]. split; [exact Fl|]. rewrite Ft. split; [apply made_refl|]. split; [exact S|]. split; [intros X; contradiction|]. split; [reflexivity|]. intros C. destruct (Ca C). discriminate. }
  destruct q as [|c q]; [congruence|]. set (qq := c :: q) in *. rewrite Ft.
  destruct (lookup (o_tree s) (key_of qq)) as [n|] eqn:L.
  - eexists _, s1. split; [reflexivity|]. split; [exact Fh|]. split; [exact Fl|]. rewrite Ft. split; [apply made_refl|]. split; [exact S|].
    split; [intros _; rewrite L; discriminate|]. split; [congruence|]. intros C. split; [apply (Ca C)|reflexivity].
  - destruct (lookup (o_tree s) (parent (key_of qq))) as [[bs|]|] eqn:P.
    + destruct (missing_nonzero (o_tree s) (key_of qq)) as [M1 M2].
      destruct (missing (o_tree s) (key_of qq) =? F_OK) eqn:E1; [apply N.eqb_eq in E1; contradiction|]. destruct (missing (o_tree s) (key_of qq) =? F_EEXIST) eqn:E2; [apply N.eqb_eq in E2; contradiction|].
      eexists _, s1. split; [reflexivity|]. split; [exact Fh|]. split; [exact Fl|]. rewrite Ft. split; [apply made_refl|]. split; [exact S|]. split; [intros X; contradiction|]. split; [reflexivity|].
      intros C. split; [apply (Ca C)|]. intros [X|X]; [congruence|discriminate].
    + eexists _, _. split; [reflexivity|]. cbn [o_handles o_live o_tree with_tree]. split; [exact Fh|]. split; [exact Fl|].
      assert (R : snd (key_of qq) <> []) by (apply (lookup_none_snd (o_tree s)); congruence).
      split; [|split; [apply sound_put_new; assumption|split; [intros _; rewrite lookup_put, key_eqb_refl by exact R; discriminate|split]]].
      * split; intros k H; rewrite lookup_put by exact R; destruct (key_eqb_spec (key_of qq) k) as [E|E].
        { subst k. congruence. } { reflexivity. }
        { right. split; [reflexivity|]. exists j. congruence. } { left. exact H. }
      * intros X. exfalso. apply X. reflexivity.
      * intros C. split; [apply (Ca C)|reflexivity].
    + destruct (missing_nonzero (o_tree s) (key_of qq)) as [M1 M2].
      destruct (missing (o_tree s) (key_of qq) =? F_OK) eqn:E1; [apply N.eqb_eq in E1; contradiction|]. destruct (missing (o_tree s) (key_of qq) =? F_EEXIST) eqn:E2; [apply N.eqb_eq in E2; contradiction|].
      eexists _, s1. split; [reflexivity|]. split; [exact Fh|]. split; [exact Fl|]. rewrite Ft. split; [apply made_refl|]. split; [exact S|]. split; [intros X; contradiction|]. split; [reflexivity|].
      intros C. split; [apply (Ca C)|]. intros [X|X]; [congruence|discriminate].
Qed.

Definition no_files (p : path) (t : tree) : Prop := forall j bs, lookup t (absolute p, firstn j (components p)) <> Some (File bs).
Lemma no_files_made p t t' : made p t t' -> no_files p t -> no_files p t'.
Proof. intros M N j. apply (made_no_file p t t' _ M). apply N. Qed.

Lemma firstn_app_l {A} (x y : list A) : firstn (length x) (x ++ y) = x.
Proof. rewrite firstn_app, Nat.sub_diag, firstn_all, firstn_O, app_nil_r. reflexivity. Qed.

(** After a prefix exists the next one can be made. *)
Lemma next_exists t a pre seg : front pre -> slash_free seg -> lookup t (a, components pre) = Some Dir ->
  lookup t (a, components (pre ++ seg)) <> None \/ lookup t (parent (a, components (pre ++ seg))) = Some Dir.
Proof.
  intros F Sf L. rewrite components_front, (components_free seg) by assumption. destruct (real_name seg).
  - right. unfold parent. cbn [fst snd]. rewrite removelast_last. exact L.
  - left. rewrite app_nil_r. congruence.
Qed.

Lemma create_loop_spec : forall fuel p pre suf s, p = pre ++ suf -> front pre -> p <> [] -> (pre = [] -> absolute p = false) -> (length suf < fuel)%nat ->
  sound_tree (o_tree s) ->
  exists e s', create_loop fuel p (next_slash p (length pre)) s = Some (e, s') /\ o_handles s' = o_handles s /\ o_live s' = o_live s /\
    made p (o_tree s) (o_tree s') /\ sound_tree (o_tree s') /\ (e = F_OK -> lookup (o_tree s') (key_of p) <> None) /\
    (calm s -> calm s' /\ (lookup (o_tree s) (absolute p, components pre) = Some Dir -> no_files p (o_tree s) -> e = F_OK)).
Proof.
  induction fuel as [|fuel IH]; intros p pre suf s Ep Fp Np Ab Lf So; [lia|]. cbn [create_loop].
  assert (Ns : next_slash p (length pre) = option_map (fun i => (length pre + i)%nat) (next_slash suf 0)) by (rewrite Ep; apply next_slash_app).
  rewrite Ns. clear Ns. destruct (next_slash_cases suf) as [[Sf ->]|(seg & suf' & Es & Sf & ->)]; cbn [option_map].
  - destruct (single_spec p p s Np) as (e & s' & Q & H1 & H2 & H3 & H4 & H5 & H6 & H7); [exists (length (components p)); rewrite firstn_all; reflexivity|exact So|].
    exists e, s'. rewrite Q. split; [reflexivity|]. split; [exact H1|]. split; [exact H2|]. split; [exact H3|]. split; [exact H4|]. split; [exact H5|].
    intros C. destruct (H7 C) as [C' H8]. split; [exact C'|]. intros L _. apply H8. unfold key_of. rewrite Ep at 2 4. apply next_exists; assumption.
  - (* the text up to the slash *)
    set (q := pre ++ seg). assert (Eq : p = q ++ 47 :: suf') by (rewrite Ep, Es; unfold q; rewrite <- app_assoc; reflexivity).
    assert (Fq : firstn (length pre + length seg) p = q) by (rewrite Eq, <- app_length; apply firstn_app_l). rewrite Fq.
    assert (Nq : q <> []).
    { intros X. destruct pre as [|c pre']; [|discriminate X]. cbn in X. unfold q in X. cbn in X. subst seg. specialize (Ab eq_refl). rewrite Eq in Ab. cbn in Ab. unfold q in Ab. cbn in Ab. discriminate Ab. }
    assert (Aq : absolute p = absolute q) by (rewrite Eq; apply absolute_app; exact Nq).
    assert (Cq : components p = components q ++ components suf') by (rewrite Eq; apply components_app).
    destruct (single_spec p q s Nq) as (e & s1 & Q & H1 & H2 & H3 & H4 & H5 & H6 & H7); [|exact So|].
    { exists (length (components q)). rewrite Cq, firstn_app_l. unfold key_of. rewrite Aq. reflexivity. }
    rewrite Q. destruct (e =? F_OK) eqn:E; cbn [negb].
    2:{ apply N.eqb_neq in E. exists e, s1. split; [reflexivity|]. split; [exact H1|]. split; [exact H2|]. split; [exact H3|]. split; [exact H4|]. split; [intros X; contradiction|].
        intros C. destruct (H7 C) as [C' H8]. split; [exact C'|]. intros L _. apply H8. unfold key_of. rewrite <- Aq. apply next_exists; assumption. }
    apply N.eqb_eq in E. subst e.
    destruct (S (length pre + length seg) =? length p)%nat eqn:El.
    + apply Nat.eqb_eq in El. exists F_OK, s1. split; [reflexivity|]. split; [exact H1|]. split; [exact H2|]. split; [exact H3|]. split; [exact H4|].
      assert (suf' = []) as -> by (rewrite Eq, app_length in El; unfold q in El; rewrite app_length in El; cbn [length] in El; destruct suf'; [reflexivity|cbn [length] in El; lia]).
      split; [intros _; unfold key_of; rewrite Cq, Aq; cbn; rewrite app_nil_r; apply H5; reflexivity|].
      intros C. destruct (H7 C) as [C' H8]. split; [exact C'|]. reflexivity.
    + assert (Lq : S (length pre + length seg) = length (q ++ [47])) by (rewrite app_length; unfold q; rewrite app_length; cbn; lia). rewrite Lq.
      destruct (IH p (q ++ [47]) suf' s1) as (e & s' & Q' & I1 & I2 & I3 & I4 & I5 & I6).
      { rewrite Eq, <- app_assoc. reflexivity. } { right. exists q. reflexivity. } { exact Np. } { intros X. destruct q; discriminate X. }
      { rewrite Es, app_length in Lf. cbn [length] in Lf. lia. } { exact H4. }
      exists e, s'. split; [exact Q'|]. split; [congruence|]. split; [congruence|]. split; [apply (made_trans p _ (o_tree s1)); assumption|]. split; [exact I4|]. split; [exact I5|].
      intros C. destruct (H7 C) as [C1 H8]. destruct (I6 C1) as [C2 I7]. split; [exact C2|]. intros L Nf. apply I7.
      * rewrite components_app. cbn. rewrite app_nil_r. rewrite Aq. specialize (H5 eq_refl).
        destruct (lookup (o_tree s1) (absolute q, components q)) as [[bs|]|] eqn:X; [|reflexivity|].
        -- exfalso. pose proof (no_files_made p _ _ H3 Nf (length (components q)) bs) as Y. apply Y. rewrite Cq, firstn_app_l, Aq. exact X.
        -- exfalso. apply H5. exact X.
      * apply (no_files_made p (o_tree s)); assumption.
Qed.

Lemma stat_frame p s r s' : sys_stat p s = (r, s') -> frame s s' /\ (calm s -> calm s' /\ r = match found s p with Some n => inr n | None => inl (match p with [] => F_ENOENT | _ => missing (o_tree s) (key_of p) end) end)
  /\ (forall n, r = inr n -> found s p = Some n) /\ (forall e, r = inl e -> e = F_ENOENT \/ e = F_ENOTDIR -> found s p = None).
Proof.
  unfold sys_stat. destruct (take_fault s) as [f s1] eqn:T. destruct (take_fault_spec _ _ _ T) as [Fr Ca]. pose proof Fr as (Ft & _ & _). intros [= <- <-]. split; [exact Fr|].
  destruct f as [[e k]|].
  - split; [intros C; destruct (Ca C); discriminate|]. split; [discriminate|]. intros e' [= <-] X. exfalso. destruct (fault_errno_other e) as (A & _ & B). destruct X; contradiction.
  - rewrite Ft. unfold found. destruct p as [|c p]; [split; [intros C; split; [apply (Ca C)|reflexivity]|split; [discriminate|reflexivity]]|].
    destruct (lookup (o_tree s) (key_of (c :: p))) as [n|]; (split; [intros C; split; [apply (Ca C)|reflexivity]|]); split; try discriminate; [intros n' [= ->]; reflexivity|reflexivity].
Qed.

(** The two forms that the function takes for granted. *)
Definition shortcut (p : path) : Prop := p = [] \/ p = [47] \/ p = [46; 47] \/ p = [126; 47].
Lemma guards p : let l := length p in
  (exists A, (forall X (a b : X), (if (l =? 0)%nat then a else if (l =? 1)%nat && match p with [c] => is_slash c | _ => false end then a
   else if (l =? 2)%nat && match p with [c; d] => ((c =? 46) || (c =? 126)) && is_slash d | _ => false end then a else b) = if A : bool then a else b) /\ (A = true <-> shortcut p)).
Proof.
  cbv zeta. destruct p as [|c [|d [|e p]]].
  - exists true. split; [reflexivity|]. split; [left; reflexivity|reflexivity].
  - exists (is_slash c). split; [intros; cbn [length Nat.eqb andb]; destruct (is_slash c); reflexivity|]. unfold is_slash. rewrite N.eqb_eq. split; [intros ->; right; left; reflexivity|]. intros [X|[X|[X|X]]]; congruence.
  - exists (((c =? 46) || (c =? 126)) && is_slash d). split; [intros; cbn [length Nat.eqb andb]; reflexivity|]. unfold is_slash. rewrite andb_true_iff, orb_true_iff, !N.eqb_eq.
    split; [intros [[->| ->] ->]; [right; right; left|right; right; right]; reflexivity|]. intros [X|[X|[X|X]]]; inversion X; subst; split; auto.
  - exists false. split; [reflexivity|]. split; [discriminate|]. intros [X|[X|[X|X]]]; discriminate.
Qed.

(** The whole function on a path p, given as the first octets of a text. *)
Theorem create_internal_spec : forall dir len s, sound_tree (o_tree s) -> (len <= length dir)%nat ->
  let p := firstn len dir in
  exists e s', tmu_create_directory_internal dir len s = Some (e, s') /\ o_handles s' = o_handles s /\ o_live s' = o_live s /\ sound_tree (o_tree s') /\
    made p (o_tree s) (o_tree s') /\
    (e = F_OK -> ~ shortcut p -> lookup (o_tree s') (key_of p) <> None) /\
    (shortcut p -> e = F_OK /\ s' = s) /\
    (absolute p = true -> o_tree s' = o_tree s /\ (e = F_OK -> shortcut p \/ lookup (o_tree s) (key_of p) = Some Dir)) /\
    (calm s -> calm s' /\ (absolute p = false -> no_files p (o_tree s) -> e = F_OK)) /\
    (calm s -> lookup (o_tree s) (key_of p) = Some Dir -> e = F_OK /\ o_tree s' = o_tree s).
Proof.
  intros dir len s So Ln p. unfold tmu_create_directory_internal. fold p. assert (Lp : length p = len) by (unfold p; rewrite firstn_length; lia). clearbody p.
  destruct (guards p) as (A & HA & HS). cbv zeta in HA. rewrite Lp in HA. rewrite HA. clear HA. destruct A.
  - exists F_OK, s. split; [reflexivity|]. repeat (split; [reflexivity|]). split; [exact So|]. split; [apply made_refl|]. split; [intros _ X; exfalso; apply X; apply HS; reflexivity|].
    split; [split; reflexivity|]. split; [intros _; split; [reflexivity|intros _; left; apply HS; reflexivity]|]. split; [intros C; split; [exact C|reflexivity]|]. split; reflexivity.
  - assert (Nsc : ~ shortcut p) by (intros X; apply HS in X; discriminate). assert (Np : p <> []) by (intros ->; apply Nsc; left; reflexivity).
    (* the buffer *)
    assert (exists b s1, (if (len <? 260)%nat then (Some [], s) else malloc s (S len)) = (b, s1) /\ o_tree s1 = o_tree s /\ o_handles s1 = o_handles s /\
      match b with None => o_live s1 = o_live s /\ ~ calm s | Some _ => (calm s -> calm s1) /\ forall s2, o_live s2 = o_live s1 -> exists s3, (if (len <? 260)%nat then Some s2 else free s2) = Some s3 /\ o_live s3 = o_live s /\ o_tree s3 = o_tree s2 /\ o_handles s3 = o_handles s2 /\ (calm s2 -> calm s3) end) as (b & s1 & Qb & Bt & Bh & Bb).
    { destruct (len <? 260)%nat.
      - exists (Some []), s. repeat (split; [reflexivity|]). split; [tauto|]. intros s2 L2. exists s2. split; [reflexivity|]. split; [exact L2|]. split; [reflexivity|]. split; [reflexivity|]. intros C; exact C.
      - unfold malloc. destruct (grant s) as [b s1] eqn:G. destruct (grant_spec _ _ _ G) as [(Gt & Gh & Gl) Gc]. destruct b.
        + eexists _, _. split; [reflexivity|]. cbn [o_tree o_handles live_up]. split; [exact Gt|]. split; [exact Gh|]. split; [intros C; apply (Gc C)|]. cbn [o_live live_up]. intros s2 L2. unfold free. rewrite L2. eexists. split; [reflexivity|]. cbn [o_live o_tree o_handles]. repeat (split; [congruence|]). intros C; exact C.
        + eexists _, _. split; [reflexivity|]. split; [exact Gt|]. split; [exact Gh|]. split; [exact Gl|]. intros C. destruct (Gc C). discriminate. }
    rewrite Qb. clear Qb. destruct b as [b|].
    2:{ destruct Bb as [Bl Nc]. exists F_ENOMEM, s1. split; [reflexivity|]. split; [exact Bh|]. split; [exact Bl|]. rewrite Bt. split; [exact So|]. split; [apply made_refl|]. split; [discriminate|]. split; [intros X; contradiction|].
        split; [intros _; split; [reflexivity|discriminate]|]. split; intros C; contradiction. }
    destruct Bb as [Bc Bd]. unfold tmu_directory_exists_t. destruct (sys_stat p s1) as [r s2] eqn:St. destruct (stat_frame _ _ _ _ St) as (Fr2 & C2 & D2 & D3). destruct Fr2 as (Ft2 & Fh2 & Fl2).
    assert (Fs : found s1 p = lookup (o_tree s) (key_of p)) by (unfold found; rewrite Bt; destruct p; [congruence|reflexivity]).
    assert (E : exists yes e2, (match r with inr n => (match n with Dir => true | _ => false end, F_OK, s2) | inl e => (false, if (e =? F_ENOENT) || (e =? F_ENOTDIR) then F_OK else e, s2) end) = (yes, e2, s2)
      /\ (yes = true -> lookup (o_tree s) (key_of p) = Some Dir) /\ (calm s1 -> lookup (o_tree s) (key_of p) = Some Dir -> yes = true)).
    { destruct r as [e2|[bs|]].
      - eexists false, _. split; [reflexivity|]. split; [discriminate|]. intros C X. destruct (C2 C) as [_ Y]. rewrite Fs, X in Y. discriminate Y.
      - eexists false, _. split; [reflexivity|]. split; [discriminate|]. intros C X. specialize (D2 _ eq_refl). congruence.
      - eexists true, _. split; [reflexivity|]. split; [intros _; rewrite <- Fs; apply D2; reflexivity|reflexivity]. }
    destruct E as (yes & e2 & -> & Y1 & Y2). cbv beta iota. destruct yes.
    + destruct (Bd s2 ltac:(congruence)) as (s3 & Q3 & L3 & T3 & H3 & C3). rewrite Q3. cbv beta iota. exists F_OK, s3. split; [reflexivity|]. split; [congruence|]. split; [exact L3|]. assert (o_tree s3 = o_tree s) as -> by congruence.
      specialize (Y1 eq_refl). split; [exact So|]. split; [apply made_refl|]. split; [intros _ _; congruence|]. split; [intros X; contradiction|]. split; [split; [reflexivity|right; exact Y1]|]. split; [intros C; split; [apply C3, C2, Bc, C|reflexivity]|]. split; reflexivity.
    + destruct (absolute p) eqn:Ab.
      * (* an absolute path: the first name is empty *)
        assert (Z0 : next_slash p 0 = Some 0%nat) by (destruct p as [|c p']; [congruence|]; cbn [next_slash]; cbn in Ab; rewrite Ab; reflexivity).
        rewrite Z0. cbn [create_loop firstn]. unfold tmu_create_single_directory_t, sys_mkdir. destruct (take_fault s2) as [f s3] eqn:T3. destruct (take_fault_spec _ _ _ T3) as [(Ft3 & Fh3 & Fl3) C3].
        assert (exists e3, (let (e, s4) := match f with Some (e, _) => (fault_errno e, s3) | None => (F_ENOENT, s3) end in (if e =? F_OK then F_OK else if e =? F_EEXIST then F_OK else e, s4)) = (e3, s3) /\ e3 <> F_OK) as (e3 & Q3 & N3).
        { destruct f as [[e k]|]; [|eexists; split; [reflexivity|discriminate]]. pose proof (fault_errno_pos e) as P. destruct (fault_errno_other e) as (_ & P2 & _). destruct (fault_errno e =? F_OK) eqn:E1; [apply N.eqb_eq in E1; contradiction|]. destruct (fault_errno e =? F_EEXIST) eqn:E2; [apply N.eqb_eq in E2; contradiction|]. eexists; split; [reflexivity|exact P]. }
        rewrite Q3. destruct (e3 =? F_OK) eqn:E3; [apply N.eqb_eq in E3; contradiction|]. cbn [negb].
        destruct (Bd s3 ltac:(congruence)) as (s4 & Q4 & L4 & T4 & H4 & C4). rewrite Q4. cbv beta iota. exists e3, s4. split; [reflexivity|]. split; [congruence|]. split; [exact L4|]. assert (o_tree s4 = o_tree s) as -> by congruence.
        split; [exact So|]. split; [apply made_refl|]. split; [intros X; contradiction|]. split; [intros X; contradiction|]. split; [intros _; split; [reflexivity|intros X; contradiction]|]. split; [intros C; split; [apply C4, C3, C2, Bc, C|discriminate]|].
        intros C X. specialize (Y2 (Bc C) X). discriminate Y2.
      * destruct (create_loop_spec (S (S (length p))) p [] p s2 eq_refl (or_introl eq_refl) Np (fun _ => Ab) ltac:(lia) ltac:(rewrite Ft2, Bt; exact So)) as (e & s3 & Q & I1 & I2 & I3 & I4 & I5 & I6). cbn [length] in Q. rewrite Q. cbv beta iota.
        destruct (Bd s3 ltac:(congruence)) as (s4 & Q4 & L4 & T4 & H4 & C4). rewrite Q4. cbv beta iota. exists e, s4. split; [reflexivity|]. split; [congruence|]. split; [exact L4|]. rewrite T4. assert (X2 : o_tree s2 = o_tree s) by congruence. rewrite X2 in *.
        split; [exact I4|]. split; [exact I3|]. split; [intros X _; apply I5; exact X|]. split; [intros X; contradiction|]. split; [discriminate|]. split.
        { intros C. destruct (C2 (Bc C)) as [C2' _]. destruct (I6 C2') as [C3 I7]. split; [apply C4, C3|]. intros _ Nf. apply I7; [reflexivity|exact Nf]. }
        intros C X. specialize (Y2 (Bc C) X). discriminate.
Qed.
