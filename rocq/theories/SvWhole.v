(** Copying, moving and swapping whole vectors. *)
From Coq Require Import Arith NArith ZArith List Bool Lia ZifyBool ZifyNat.
From Verif Require Import Base SvModel SvSpec SvCells SvProofs SvInsert SvAssign.
Import ListNotations.

Section Whole.
  Context {A : Type}.
  Variables triv alloc : bool.
  Variable esize : N.
  Hypothesis esize_pos : (1 <= esize)%N.
  Notation slot := (slot A).
  Notation elt := (elt A).
  Notation vec := (vec A).
  Notation inv := (inv triv alloc).
  Notation fits := (fits esize).
  Notation holds := (holds triv).
  Implicit Types (v : vec) (xs ys l : list elt) (w : world) (st : list slot).

  Lemma holds_dead : forall st, (triv = false -> forall i, cell st i = Dead) -> holds st [].
  Proof using. clear esize_pos. intros st H. split; [cbn; lia|]. split; [intros i Hi; cbn in Hi; lia|]. intros T i _. now apply H. Qed.

  (** The inline buffer is empty whenever it is not in use. *)
  Lemma inl_dead : forall v, inv v [] -> triv = false -> forall i, cell (inl v) i = Dead.
  Proof using.
    clear esize_pos. intros v I T i. pose proof (v_holds _ _ _ _ I) as (_ & _ & H). pose proof (v_inl _ _ _ _ I T) as H'. unfold stor in H.
    destruct (ptr v); [apply H'; discriminate|apply (H T); cbn; lia|apply H'; discriminate].
  Qed.

  Lemma new_vec_ok : forall n, inv (new_vec (A:=A) n) [] /\ cap (new_vec (A:=A) n) = n /\ length (inl (new_vec (A:=A) n)) = n /\ ptr (new_vec (A:=A) n) <> Heap /\
    (1 <= n -> ptr (new_vec (A:=A) n) = Inline).
  Proof using.
    clear esize_pos. intros n. unfold new_vec, use_inline. cbn [inl]. rewrite repeat_length. destruct n as [|n].
    - split; [|cbn; repeat split; try discriminate; lia]. exact (inv_none (A:=A) triv alloc).
    - split; [|cbn [cap inl ptr]; rewrite repeat_length; repeat split; discriminate].
      constructor; cbn [sz cap ptr is_sbo stor inl blk]; [reflexivity| |now rewrite repeat_length|reflexivity|congruence|discriminate].
      apply holds_dead. intros _ i. apply cell_repeat.
  Qed.

  (** [nv] receives the elements [l] in place of none. *)
  Lemma construct_all_ok : forall v l, inv v [] -> length l <= cap v ->
    exists st, construct_vals triv (stor v) 0 l = Some st /\ inv (with_sz (with_stor v st) (length l)) l /\ length st = length (stor v).
  Proof using.
    clear esize_pos. intros v l I Hl. pose proof (v_cap _ _ _ _ I) as Ec. pose proof (v_holds _ _ _ _ I) as (_ & _ & H3).
    destruct (construct_vals_ok triv l (stor v) 0) as (st & E & L & C); [lia|intros T j _; apply (H3 T); cbn; lia|].
    exists st. split; [exact E|]. split; [|exact L]. eapply inv_with; [exact I|exact L| |reflexivity]. cbn [Nat.leb andb Nat.add] in C. split; [lia|]. split.
    - intros i Hi. rewrite C. destruct (Nat.ltb_spec i (length l)); [|lia]. now rewrite Nat.sub_0_r.
    - intros T i Hi. rewrite C. destruct (Nat.ltb_spec i (length l)); [lia|]. apply (H3 T). cbn. lia.
  Qed.

  Lemma read_whole : forall v xs, inv v xs -> read_all (stor v) 0 (sz v) = Some xs.
  Proof using.
    clear esize_pos. intros v xs I. destruct (read_all_ok (sz v) (stor v) 0) as (l & E & L & C); [intros k Hk; apply (inv_live triv alloc v xs k I); lia|].
    rewrite E. f_equal. pose proof (v_sz _ _ _ _ I) as Ez. apply (nth_ext _ _ Moved Moved); [lia|]. intros k Hk. pose proof (v_holds _ _ _ _ I) as (_ & H2 & _).
    specialize (C k ltac:(lia)). cbn [Nat.add] in C. rewrite H2 in C by lia. congruence.
  Qed.
  Lemma take_whole : forall v xs, inv v xs -> exists st, take_all triv (stor v) 0 (sz v) = Some (xs, st) /\ length st = length (stor v) /\
    inv (with_stor v st) (if triv then xs else repeat Moved (length xs)).
  Proof using.
    clear esize_pos. intros v xs I. destruct (take_all_ok triv (sz v) (stor v) 0) as (l & st & E & L & Ls & C & C'); [intros k Hk; apply (inv_live triv alloc v xs k I); lia|].
    pose proof (v_sz _ _ _ _ I) as Ez. pose proof (v_holds _ _ _ _ I) as (H1 & H2 & H3).
    assert (El : l = xs).
    { apply (nth_ext _ _ Moved Moved); [lia|]. intros k Hk. specialize (C k ltac:(lia)). cbn [Nat.add] in C. rewrite H2 in C by lia. congruence. }
    subst l. exists st. split; [exact E|]. split; [exact Ls|]. rewrite with_sz_stor. cbn [Nat.leb Nat.add] in C'.
    eapply inv_with; [exact I|exact Ls| |destruct triv; rewrite ?repeat_length; exact Ez].
    destruct triv eqn:T; cbn [negb andb] in C'.
    - split; [lia|]. split; [|congruence]. intros i Hi. rewrite C'. now apply H2.
    - split; [rewrite repeat_length; lia|]. rewrite repeat_length. split.
      + intros i Hi. rewrite C'. destruct (Nat.ltb_spec i (sz v)); [|lia]. rewrite nth_repeat. reflexivity.
      + intros _ i Hi. rewrite C'. destruct (Nat.ltb_spec i (sz v)); [lia|]. now apply H3.
  Qed.

  (** Construction from another vector; [n] is the inline capacity. *)
  Lemma make_new_ok : forall w n k, fits k -> exists v1 w1,
    (if n <? k then ' (nv, w1) <- become_new alloc esize w (new_vec n) k ;; Some (if null nv then new_vec (A:=A) n else nv, w1) else Some (new_vec n, w)) = Some (v1, w1) /\
    inv v1 [] /\ (blocks w1 - owned v1 = blocks w)%Z /\ length (inl v1) = n /\ (k <= n -> k <= cap v1) /\
    (k <= cap v1 \/ n < k /\ v1 = new_vec n /\ (alloc = true -> hd_error (oracle w) <> Some true)).
  Proof using esize_pos.
    intros w n k F. destruct (new_vec_ok n) as (In & Cn & Ln & Pn & _).
    assert (On : owned (new_vec (A:=A) n) = 0%Z) by (unfold owned; destruct (ptr (new_vec n)); congruence).
    destruct (Nat.ltb_spec n k) as [G|G].
    - destruct (become_new_ok triv alloc esize esize_pos w (new_vec n) k In Pn F) as (v' & w' & E & I' & B & L & R). rewrite E. unfold balanced in B. destruct R as [[R1 R2]|[R1 [R2 R3]]].
      + rewrite (null_of v' R1). exists v', w'. split; [reflexivity|]. split; [exact I'|]. split; [lia|]. split; [congruence|]. split; [lia|]. left. lia.
      + unfold null. rewrite R1. exists (new_vec n), w'. split; [reflexivity|]. split; [exact In|]. split; [unfold owned in B at 1; rewrite R1 in B; lia|]. split; [exact Ln|]. split; [lia|]. right. auto.
    - exists (new_vec n), w. split; [reflexivity|]. split; [exact In|]. split; [lia|]. split; [exact Ln|]. split; [lia|]. left. lia.
  Qed.

  Lemma copy_new_ok : forall w n other ys, inv other ys -> fits (length ys) -> exists v' w' ok, copy_new triv alloc esize w n other = Some (v', w') /\
    inv v' (if ok : bool then ys else []) /\ (blocks w' - owned v' = blocks w)%Z /\ length (inl v') = n /\
    (length ys <= n -> ok = true) /\ (alloc = true -> hd_error (oracle w) = Some true -> ok = true).
  Proof using esize_pos.
    intros w n other ys I F. pose proof (v_sz _ _ _ _ I) as Ez. unfold copy_new. destruct (Nat.eqb_spec (sz other) 0) as [G|G].
    - destruct (new_vec_ok n) as (In & Cn & Ln & Pn & _). exists (new_vec n), w, true. assert (ys = []) as -> by (destruct ys; [reflexivity|cbn in Ez; lia]).
      split; [reflexivity|]. split; [exact In|]. split; [unfold owned; destruct (ptr (new_vec n)); try congruence; lia|]. auto.
    - rewrite Ez. destruct (make_new_ok w n (length ys) F) as (v1 & w1 & E & I1 & B & L & Q & R). rewrite E.
      destruct (Nat.leb_spec (length ys) (cap v1)) as [G'|G'].
      + pose proof (read_whole other ys I) as Er. rewrite Ez in Er. rewrite Er. destruct (construct_all_ok v1 ys I1 G') as (st & E1 & I2 & Ls). rewrite E1.
        exists (with_sz (with_stor v1 st) (length ys)), w1, true. split; [reflexivity|]. split; [exact I2|]. split; [now rewrite owned_with|]. split; [rewrite inl_with by exact Ls; exact L|auto].
      + destruct R as [R|(R1 & R2 & R3)]; [lia|]. exists v1, w1, false. split; [reflexivity|]. split; [exact I1|]. split; [exact B|]. split; [exact L|]. split; [lia|]. intros Q1 Q2. now elim (R3 Q1).
  Qed.

  Lemma move_new_ok : forall w n other ys, inv other ys -> fits (length ys) -> exists v' other' w' ok, move_new triv alloc esize w n other = Some (v', other', w') /\
    inv v' (if ok : bool then ys else []) /\ inv other' [] /\ (blocks w' - owned v' - owned other' = blocks w - owned other)%Z /\
    length (inl v') = n /\ length (inl other') = length (inl other) /\ (length ys <= n \/ ptr other <> Inline -> ok = true) /\ (alloc = true -> hd_error (oracle w) = Some true -> ok = true).
  Proof using esize_pos.
    intros w n other ys I F. pose proof (v_sz _ _ _ _ I) as Ez. pose proof (v_sbo _ _ _ _ I) as Sb. destruct (new_vec_ok n) as (In & Cn & Ln & Pn & _). unfold move_new. rewrite Sb.
    assert (On : owned (new_vec (A:=A) n) = 0%Z) by (unfold owned; destruct (ptr (new_vec n)); congruence).
    assert (Hother : ptr other <> Inline -> inv (forget other) []).
    { intros Hp. constructor; cbn [forget sz cap ptr is_sbo stor inl blk]; [reflexivity|apply holds_dead; intros _ i; now destruct i|reflexivity|reflexivity| |discriminate].
      intros T _. exact (v_inl _ _ _ _ I T Hp). }
    assert (Hkeep : (sz other =? 0) && (cap other <? cap (new_vec (A:=A) n)) = true -> ptr other <> Inline -> exists v' other' w' ok, Some (new_vec n, other, w) = Some (v', other', w') /\
      inv v' (if ok : bool then ys else []) /\ inv other' [] /\ (blocks w' - owned v' - owned other' = blocks w - owned other)%Z /\
      length (inl v') = n /\ length (inl other') = length (inl other) /\ (length ys <= n \/ ptr other <> Inline -> ok = true) /\ (alloc = true -> hd_error (oracle w) = Some true -> ok = true)).
    { intros G _. assert (ys = []) as -> by (destruct ys; [reflexivity|cbn in Ez; lia]). exists (new_vec n), other, w, true. split; [reflexivity|]. split; [exact In|]. split; [exact I|]. split; [lia|]. auto. }
    destruct (ptr other) eqn:Ep.
    - destruct ((sz other =? 0) && (cap other <? cap (new_vec (A:=A) n))) eqn:G; [apply Hkeep; [reflexivity|discriminate]|].
      destruct (inv_null triv alloc other ys I Ep) as (-> & Z0 & C0). rewrite Z0, C0. exists (Vec Null 0 0 false (inl (new_vec n)) (blk other)), (forget other), w, true. split; [reflexivity|]. split; [|split; [|split; [|split; [exact Ln|split; [reflexivity|auto]]]]].
      + constructor; cbn [forget sz cap ptr is_sbo stor inl blk]; [reflexivity|apply holds_dead; intros _ i; now destruct i|reflexivity|reflexivity| |discriminate]. intros T _. exact (inl_dead _ In T).
      + now apply Hother.
      + unfold owned at 3. rewrite Ep. cbn. lia.
    - rewrite Ez. destruct (make_new_ok w n (length ys) F) as (v1 & w1 & E & I1 & B & L & Q & R). rewrite E. destruct (Nat.leb_spec (length ys) (cap v1)) as [G'|G'].
      + destruct (take_whole other ys I) as (ost & E1 & L1 & I2). rewrite Ez in E1. rewrite E1. destruct (construct_all_ok v1 ys I1 G') as (st & E2 & I3 & Ls). rewrite E2.
        destruct (clear_ok triv alloc _ _ I2) as (o2 & E3 & I4 & O4 & L4 & C4). rewrite E3.
        exists (with_sz (with_stor v1 st) (length ys)), o2, w1, true. split; [reflexivity|]. split; [exact I3|]. split; [exact I4|]. split; [|split; [rewrite inl_with by exact Ls; exact L|split; [|auto]]].
        * rewrite owned_with, O4. replace (owned (with_stor other ost)) with (owned other) by (unfold owned; now rewrite (proj1 (with_stor_fields other ost))). lia.
        * rewrite L4. now apply with_stor_inl_length.
      + destruct R as [R|(R1 & R2 & R3)]; [lia|]. destruct (clear_ok triv alloc _ _ I) as (o2 & E3 & I4 & O4 & L4 & C4). rewrite E3.
        exists v1, o2, w1, false. split; [reflexivity|]. split; [exact I1|]. split; [exact I4|]. split; [lia|]. split; [exact L|]. split; [exact L4|]. split; [intros [Q'|Q']; [lia|congruence]|]. intros Q1 Q2. now elim (R3 Q1).
    - destruct ((sz other =? 0) && (cap other <? cap (new_vec (A:=A) n))) eqn:G; [apply Hkeep; [reflexivity|discriminate]|].
      exists (Vec Heap (sz other) (cap other) false (inl (new_vec n)) (blk other)), (forget other), w, true. split; [reflexivity|].
      pose proof (v_holds _ _ _ _ I) as H. pose proof (v_cap _ _ _ _ I) as Ec. unfold stor in H, Ec. rewrite Ep in H, Ec. split; [|split; [|split; [|split; [exact Ln|split; [reflexivity|auto]]]]].
      + constructor; cbn [sz cap ptr is_sbo stor inl blk]; [exact Ez|exact H|exact Ec|reflexivity| |]. { intros T _. exact (inl_dead _ In T). } intros Q. now elim (v_alloc _ _ _ _ I Q).
      + apply Hother. discriminate.
      + unfold owned. rewrite Ep. cbn. lia.
  Qed.

  Lemma copy_assign_ok : forall w v xs other ys, inv v xs -> inv other ys -> fits (length ys) -> exists v' w' ok, copy_assign triv alloc esize w v other = Some (v', w') /\
    inv v' (if ok : bool then ys else []) /\ balanced w v w' v' /\ length (inl v') = length (inl v) /\ (alloc = true -> hd_error (oracle w) = Some true -> ok = true) /\ (length ys <= cap v -> ok = true).
  Proof using esize_pos.
    intros w v xs other ys I Io F. unfold copy_assign. rewrite (read_whole other ys Io).
    destruct (assign_range_ok triv alloc esize esize_pos w v xs ys I F) as (ok & v' & w' & E & R). rewrite E. exists v', w', ok. split; [reflexivity|exact R].
  Qed.

  Lemma move_from_ok : forall w v xs other ys, inv v xs -> inv other ys -> fits (length ys) -> exists v' other' w' ok, move_from triv alloc esize w v other = Some (v', other', w') /\
    inv v' (if ok : bool then ys else []) /\ inv other' [] /\ (blocks w' - owned v' - owned other' = blocks w - owned v - owned other)%Z /\
    length (inl v') = length (inl v) /\ length (inl other') = length (inl other) /\
    (length ys <= cap v \/ ptr other <> Inline -> ok = true) /\ (alloc = true -> hd_error (oracle w) = Some true -> ok = true).
  Proof using esize_pos.
    intros w v xs other ys I Io F. pose proof (v_sz _ _ _ _ Io) as Ez. pose proof (v_sbo _ _ _ _ Io) as Sb. unfold move_from. rewrite Sb.
    assert (Hother : ptr other <> Inline -> inv (forget other) []).
    { intros Hp. constructor; cbn [forget sz cap ptr is_sbo stor inl blk]; [reflexivity|apply holds_dead; intros _ i; now destruct i|reflexivity|reflexivity| |discriminate].
      intros T _. exact (v_inl _ _ _ _ Io T Hp). }
    destruct (ptr other) eqn:Ep.
    - destruct (destroy_ok triv alloc w v xs I) as (v1 & w1 & E1 & I1 & B1 & L1 & O1 & P1 & _). rewrite E1.
      destruct (inv_null triv alloc other ys Io Ep) as (-> & Z0 & C0). rewrite Z0, C0. exists (Vec Null 0 0 false (inl v1) (blk other)), (forget other), w1, true.
      split; [reflexivity|]. split; [|split; [apply Hother; discriminate|split; [|split; [exact L1|split; [reflexivity|auto]]]]].
      + constructor; cbn [forget sz cap ptr is_sbo stor inl blk]; [reflexivity|apply holds_dead; intros _ i; now destruct i|reflexivity|reflexivity| |discriminate]. intros T _. exact (inl_dead _ I1 T).
      + unfold balanced in B1. unfold owned in *. rewrite Ep. cbn [ptr forget]. destruct (ptr v1); try congruence; lia.
    - destruct (Nat.eqb_spec (sz other) 0) as [G|G].
      { assert (ys = []) as -> by (destruct ys; [reflexivity|cbn in Ez; lia]). destruct (clear_ok triv alloc _ _ I) as (v1 & E1 & I1 & O1 & L1 & C1). rewrite E1.
        destruct (clear_ok triv alloc _ _ Io) as (o1 & E2 & I2 & O2 & L2 & C2). rewrite E2. exists v1, o1, w, true. split; [reflexivity|]. split; [exact I1|]. split; [exact I2|]. split; [lia|]. auto. }
      destruct (take_whole other ys Io) as (ost & Et & Lt & It). destruct (clear_ok triv alloc _ _ It) as (o2 & Ec2 & Ic2 & Oc2 & Lc2 & _).
      assert (Oo : owned (with_stor other ost) = owned other) by (unfold owned; now rewrite (proj1 (with_stor_fields other ost))).
      assert (Lo : length (inl (with_stor other ost)) = length (inl other)) by now apply with_stor_inl_length.
      assert (Oz : owned other = 0%Z) by (unfold owned; now rewrite Ep).
      assert (Fz : fits (sz other)) by now rewrite Ez.
      destruct (Nat.ltb_spec (cap v) (sz other)) as [G'|G']; cbn [andb].
      + rewrite (inv_has_ptr triv alloc v xs I). cbn [assert_]. destruct (destroy_ok triv alloc w v xs I) as (v1 & w1 & E1 & I1 & B1 & L1 & O1 & P1 & _). rewrite E1.
        destruct (become_new_ok triv alloc esize esize_pos w1 _ (sz other) (inv_none (A:=A) triv alloc) ltac:(cbn; discriminate) Fz) as (v2 & w2 & E2 & I2 & B2 & L2 & R). rewrite E2. unfold balanced in *. destruct R as [[R1 R2]|[R1 [R2 R3]]].
        * rewrite (null_of v2 R1). rewrite Et. destruct (fill_ok triv alloc v2 [] ys I2) as (v3 & E3 & I3 & O3 & L3 & C3 & P3); [congruence|lia|]. rewrite E3.
          destruct (destroy_ok triv alloc w2 v1 [] I1) as (v4 & w4 & E4 & I4 & B4 & L4 & O4 & P4 & P5 & _). rewrite E4, Ec2.
          eexists _, o2, w4, true. split; [reflexivity|]. split; [|split; [exact Ic2|split; [|split; [|split; [congruence|auto]]]]].
          -- assert (P3' : ptr v3 = Heap) by congruence. pose proof (v_holds _ _ _ _ I3) as H3. pose proof (v_cap _ _ _ _ I3) as Ec. unfold stor in H3, Ec. rewrite P3' in H3, Ec.
             constructor; cbn [sz cap ptr is_sbo stor inl blk]; [exact (v_sz _ _ _ _ I3)|exact H3|exact Ec|reflexivity|intros T _; exact (inl_dead _ I4 T)|].
             intros Q. exfalso. exact (v_alloc _ _ _ _ I3 Q P3').
          -- rewrite Oc2, Oo, Oz. unfold balanced in B4. unfold owned in B1, B2, B4 |- *. cbn [ptr] in *. rewrite R1 in B2. destruct (ptr v1), (ptr v4); try congruence; lia.
          -- cbn [inl]. congruence.
        * unfold null. rewrite R1. destruct (clear_ok triv alloc _ _ Io) as (o3 & E3 & I3 & O3 & L3 & _). rewrite E3. exists v1, o3, w2, false. split; [reflexivity|]. split; [exact I1|]. split; [exact I3|].
          split; [unfold owned in B2; rewrite R1 in B2; cbn [ptr] in B2; lia|]. split; [exact L1|]. split; [exact L3|]. split; [intros [Q|Q]; [lia|congruence]|]. intros Q1 Q2. rewrite O1 in R3. now elim (R3 Q1).
      + rewrite Et. destruct (fill_ok triv alloc v xs ys I) as (v3 & E3 & I3 & O3 & L3 & C3 & P3); [|lia|].
        { intros Q. destruct (inv_null triv alloc v xs I Q) as (_ & _ & C0). lia. }
        rewrite E3, Ec2. exists v3, o2, w, true. split; [reflexivity|]. split; [exact I3|]. split; [exact Ic2|]. split; [lia|]. split; [exact L3|]. split; [congruence|auto].
    - destruct (destroy_ok triv alloc w v xs I) as (v1 & w1 & E1 & I1 & B1 & L1 & O1 & P1 & _). rewrite E1.
      exists (Vec Heap (sz other) (cap other) false (inl v1) (blk other)), (forget other), w1, true. split; [reflexivity|].
      pose proof (v_holds _ _ _ _ Io) as H. pose proof (v_cap _ _ _ _ Io) as Ec. unfold stor in H, Ec. rewrite Ep in H, Ec. split; [|split; [|split; [|split; [exact L1|split; [reflexivity|auto]]]]].
      + constructor; cbn [sz cap ptr is_sbo stor inl blk]; [exact Ez|exact H|exact Ec|reflexivity| |]. { intros T _. exact (inl_dead _ I1 T). } intros Q. now elim (v_alloc _ _ _ _ Io Q).
      + apply Hother. discriminate.
      + unfold balanced in B1. unfold owned in *. rewrite Ep. cbn [ptr forget]. destruct (ptr v1); try congruence; lia.
  Qed.

  (** ** swap *)
  Lemma swap_heap_ok : forall w a xs b ys, inv a xs -> inv b ys -> ptr a <> Inline -> ptr b <> Inline ->
    exists a' b', swap triv alloc esize w a b = Some (true, a', b', w) /\ inv a' ys /\ inv b' xs /\ (owned a' + owned b' = owned a + owned b)%Z.
  Proof using.
    clear esize_pos. intros w a xs b ys Ia Ib Ha Hb. unfold swap. rewrite (v_sbo _ _ _ _ Ia), (v_sbo _ _ _ _ Ib).
    assert (Ea : match ptr a with Inline => true | _ => false end = false) by (destruct (ptr a); congruence).
    assert (Eb : match ptr b with Inline => true | _ => false end = false) by (destruct (ptr b); congruence). rewrite Ea, Eb. cbn [orb negb].
    eexists _, _. split; [reflexivity|]. unfold set_cap, with_sz. cbn [ptr sz cap is_sbo inl blk andb].
    pose proof (v_holds _ _ _ _ Ia) as HA. pose proof (v_cap _ _ _ _ Ia) as CA. pose proof (v_holds _ _ _ _ Ib) as HB. pose proof (v_cap _ _ _ _ Ib) as CB.
    pose proof (v_alloc _ _ _ _ Ia) as LA. pose proof (v_alloc _ _ _ _ Ib) as LB.
    pose proof (fun T => v_inl _ _ _ _ Ia T Ha) as NA. pose proof (fun T => v_inl _ _ _ _ Ib T Hb) as NB.
    split; [|split].
    - constructor; cbn [ptr sz cap is_sbo inl blk]; [exact (v_sz _ _ _ _ Ib)| | |now rewrite Eb|intros T _; exact (NA T)|exact LB].
      + unfold stor in *. cbn [ptr inl blk]. destruct (ptr b); [exact HB|congruence|exact HB].
      + unfold stor in *. cbn [ptr inl blk]. destruct (ptr b); [exact CB|congruence|exact CB].
    - constructor; cbn [ptr sz cap is_sbo inl blk]; [exact (v_sz _ _ _ _ Ia)| | |now rewrite Ea|intros T _; exact (NB T)|exact LA].
      + unfold stor in *. cbn [ptr inl blk]. destruct (ptr a); [exact HA|congruence|exact HA].
      + unfold stor in *. cbn [ptr inl blk]. destruct (ptr a); [exact CA|congruence|exact CA].
    - unfold owned. cbn [ptr]. lia.
  Qed.

  (** Two storages that are large enough exchange their elements. *)
  Lemma swap_storage : forall a xs b ys, inv a xs -> inv b ys -> length ys <= cap a -> length xs <= cap b ->
    exists sa sb, (' (sa, sb) <- swap_slots triv (if sz b <? sz a then sz b else sz a) (stor a) (stor b) 0 ;;
      (if sz b <? sz a then
         if triv then sb1 <- copy_slots sb (if sz b <? sz a then sz b else sz a) sa (if sz b <? sz a then sz b else sz a) (sz a - sz b) ;; Some (sa, sb1)
         else relocate triv sa (if sz b <? sz a then sz b else sz a) sb (if sz b <? sz a then sz b else sz a) (sz a - sz b)
       else if sz a <? sz b then
         if triv then sa1 <- copy_slots sa (if sz b <? sz a then sz b else sz a) sb (if sz b <? sz a then sz b else sz a) (sz b - sz a) ;; Some (sa1, sb)
         else ' (sb1, sa1) <- relocate triv sb (if sz b <? sz a then sz b else sz a) sa (if sz b <? sz a then sz b else sz a) (sz b - sz a) ;; Some (sa1, sb1)
       else Some (sa, sb))) = Some (sa, sb) /\ length sa = length (stor a) /\ length sb = length (stor b) /\ holds sa ys /\ holds sb xs.
  Proof using.
    clear esize_pos. intros a xs b ys Ia Ib H1 H2. pose proof (v_sz _ _ _ _ Ia) as Za. pose proof (v_sz _ _ _ _ Ib) as Zb.
    pose proof (v_cap _ _ _ _ Ia) as Ca. pose proof (v_cap _ _ _ _ Ib) as Cb.
    pose proof (v_holds _ _ _ _ Ia) as (A1 & A2 & A3). pose proof (v_holds _ _ _ _ Ib) as (B1 & B2 & B3).
    set (m := if sz b <? sz a then sz b else sz a). assert (Hm : m = Nat.min (sz a) (sz b)) by (unfold m; destruct (Nat.ltb_spec (sz b) (sz a)); lia). clearbody m.
    destruct (swap_slots_ok triv m (stor a) (stor b) 0) as (sa & sb & E & La & Lb & Sa & Sb).
    { intros k Hk. split; [apply (inv_live triv alloc a xs k Ia); lia|apply (inv_live triv alloc b ys k Ib); lia]. }
    rewrite E. cbn [Nat.leb andb Nat.add] in Sa, Sb.
    destruct (Nat.ltb_spec (sz b) (sz a)) as [G|G]; [|destruct (Nat.ltb_spec (sz a) (sz b)) as [G'|G']].
    - destruct (Bool.bool_dec triv true) as [T|T]; [|apply not_true_is_false in T].
      + rewrite T. destruct (copy_slots_ok sb m sa m (sz a - sz b)) as (sb1 & E1 & L1 & C1); [lia|lia|]. rewrite E1. exists sa, sb1. split; [reflexivity|]. split; [exact La|]. split; [lia|]. split.
        * split; [lia|]. split; [|congruence]. intros i Hi. rewrite Sa. destruct (Nat.ltb_spec i m); [|lia]. apply B2. lia.
        * split; [lia|]. split; [|congruence]. intros i Hi. rewrite C1. destruct (Nat.leb_spec m i).
          -- destruct (Nat.ltb_spec i (m + (sz a - sz b))); [|lia]. cbn [andb]. rewrite Sa. destruct (Nat.ltb_spec (i - m + m) m); [lia|]. rewrite A2 by lia. do 2 f_equal. lia.
          -- cbn [andb]. rewrite Sb. destruct (Nat.ltb_spec i m); [|lia]. apply A2. lia.
      + specialize (A3 T). specialize (B3 T). destruct (relocate_ok triv (sz a - sz b) sa m sb m T) as (sa1 & sb1 & E1 & L1 & L2 & C1 & C2).
        { intros k Hk. rewrite Sa. destruct (Nat.ltb_spec k m); [lia|]. apply (inv_live triv alloc a xs k Ia). lia. }
        { lia. }
        { intros k Hk. rewrite Sb. destruct (Nat.ltb_spec k m); [lia|]. apply B3. lia. }
        assert (Et : (if triv then sb1 <- copy_slots sb m sa m (sz a - sz b) ;; Some (sa, sb1) else relocate triv sa m sb m (sz a - sz b)) = Some (sa1, sb1)) by (rewrite T at 1; exact E1).
        rewrite Et. exists sa1, sb1. split; [reflexivity|]. split; [lia|]. split; [lia|]. split.
        * split; [lia|]. split.
          -- intros i Hi. rewrite C1. destruct (Nat.leb_spec m i); [lia|]. cbn [andb]. rewrite Sa. destruct (Nat.ltb_spec i m); [|lia]. apply B2. lia.
          -- intros _ i Hi. rewrite C1. destruct (Nat.leb_spec m i); [|lia]. destruct (Nat.ltb_spec i (m + (sz a - sz b))); cbn [andb]; [reflexivity|]. rewrite Sa. destruct (Nat.ltb_spec i m); [lia|]. apply A3. lia.
        * split; [lia|]. split.
          -- intros i Hi. rewrite C2. destruct (Nat.leb_spec m i).
             ++ destruct (Nat.ltb_spec i (m + (sz a - sz b))); [|lia]. cbn [andb]. rewrite Sa. destruct (Nat.ltb_spec (i - m + m) m); [lia|]. rewrite A2 by lia. do 2 f_equal. lia.
             ++ cbn [andb]. rewrite Sb. destruct (Nat.ltb_spec i m); [|lia]. apply A2. lia.
          -- intros _ i Hi. rewrite C2. destruct (Nat.ltb_spec i (m + (sz a - sz b))); [lia|]. rewrite andb_false_r. rewrite Sb. destruct (Nat.ltb_spec i m); [lia|]. apply B3. lia.
    - destruct (Bool.bool_dec triv true) as [T|T]; [|apply not_true_is_false in T].
      + rewrite T. destruct (copy_slots_ok sa m sb m (sz b - sz a)) as (sa1 & E1 & L1 & C1); [lia|lia|]. rewrite E1. exists sa1, sb. split; [reflexivity|]. split; [lia|]. split; [lia|]. split.
        * split; [lia|]. split; [|congruence]. intros i Hi. rewrite C1. destruct (Nat.leb_spec m i).
          -- destruct (Nat.ltb_spec i (m + (sz b - sz a))); [|lia]. cbn [andb]. rewrite Sb. destruct (Nat.ltb_spec (i - m + m) m); [lia|]. rewrite B2 by lia. do 2 f_equal. lia.
          -- cbn [andb]. rewrite Sa. destruct (Nat.ltb_spec i m); [|lia]. apply B2. lia.
        * split; [lia|]. split; [|congruence]. intros i Hi. rewrite Sb. destruct (Nat.ltb_spec i m); [|lia]. apply A2. lia.
      + specialize (A3 T). specialize (B3 T). destruct (relocate_ok triv (sz b - sz a) sb m sa m T) as (sb1 & sa1 & E1 & L1 & L2 & C1 & C2).
        { intros k Hk. rewrite Sb. destruct (Nat.ltb_spec k m); [lia|]. apply (inv_live triv alloc b ys k Ib). lia. }
        { lia. }
        { intros k Hk. rewrite Sa. destruct (Nat.ltb_spec k m); [lia|]. apply A3. lia. }
        assert (Et : (if triv then sa1 <- copy_slots sa m sb m (sz b - sz a) ;; Some (sa1, sb) else ' (sb1, sa1) <- relocate triv sb m sa m (sz b - sz a) ;; Some (sa1, sb1)) = Some (sa1, sb1))
          by (rewrite T at 1; rewrite E1; reflexivity).
        rewrite Et. exists sa1, sb1. split; [reflexivity|]. split; [lia|]. split; [lia|]. split.
        * split; [lia|]. split.
          -- intros i Hi. rewrite C2. destruct (Nat.leb_spec m i).
             ++ destruct (Nat.ltb_spec i (m + (sz b - sz a))); [|lia]. cbn [andb]. rewrite Sb. destruct (Nat.ltb_spec (i - m + m) m); [lia|]. rewrite B2 by lia. do 2 f_equal. lia.
             ++ cbn [andb]. rewrite Sa. destruct (Nat.ltb_spec i m); [|lia]. apply B2. lia.
          -- intros _ i Hi. rewrite C2. destruct (Nat.ltb_spec i (m + (sz b - sz a))); [lia|]. rewrite andb_false_r. rewrite Sa. destruct (Nat.ltb_spec i m); [lia|]. apply A3. lia.
        * split; [lia|]. split.
          -- intros i Hi. rewrite C1. destruct (Nat.leb_spec m i); [lia|]. cbn [andb]. rewrite Sb. destruct (Nat.ltb_spec i m); [|lia]. apply A2. lia.
          -- intros _ i Hi. rewrite C1. destruct (Nat.leb_spec m i); [|lia]. destruct (Nat.ltb_spec i (m + (sz b - sz a))); cbn [andb]; [reflexivity|]. rewrite Sb. destruct (Nat.ltb_spec i m); [lia|]. apply B3. lia.
    - exists sa, sb. split; [reflexivity|]. split; [exact La|]. split; [exact Lb|]. split.
      + split; [lia|]. split; [intros i Hi; rewrite Sa; destruct (Nat.ltb_spec i m); [|lia]; apply B2; lia|]. intros T i Hi. rewrite Sa. destruct (Nat.ltb_spec i m); [lia|]. apply (A3 T). lia.
      + split; [lia|]. split; [intros i Hi; rewrite Sb; destruct (Nat.ltb_spec i m); [|lia]; apply A2; lia|]. intros T i Hi. rewrite Sb. destruct (Nat.ltb_spec i m); [lia|]. apply (B3 T). lia.
  Qed.

  (** Element by element, with capacities that are sufficient and equal. *)
  Lemma swap_inline_ok : forall w a xs b ys, inv a xs -> inv b ys -> ptr a = Inline \/ ptr b = Inline -> 1 <= cap a -> cap a = cap b ->
    exists a' b', swap triv alloc esize w a b = Some (true, a', b', w) /\ inv a' ys /\ inv b' xs /\ owned a' = owned a /\ owned b' = owned b.
  Proof using.
    clear esize_pos. intros w a xs b ys Ia Ib Hi Hc Ec. pose proof (v_sz _ _ _ _ Ia) as Za. pose proof (v_sz _ _ _ _ Ib) as Zb.
    pose proof (inv_le triv alloc a xs Ia) as La. pose proof (inv_le triv alloc b ys Ib) as Lb. unfold swap.
    assert (Es : is_sbo b || is_sbo a = true). { rewrite (v_sbo _ _ _ _ Ia), (v_sbo _ _ _ _ Ib). destruct Hi as [-> | ->]; [apply orb_true_r|reflexivity]. }
    rewrite Es. unfold reserve. destruct (Nat.leb_spec (sz b) (cap a)); [|lia]. cbn [negb]. destruct (Nat.leb_spec (sz a) (cap b)); [|lia]. cbn [negb].
    destruct (swap_storage a xs b ys Ia Ib) as (sa & sb & E & Lsa & Lsb & Ha & Hb); [lia|lia|].
    destruct (swap_slots triv (if sz b <? sz a then sz b else sz a) (stor a) (stor b) 0) as [[sa0 sb0]|]; [|discriminate E]. rewrite E.
    eexists _, _. split; [reflexivity|].
    destruct (with_stor_fields a sa) as (Fa1 & Fa2 & Fa3 & Fa4). destruct (with_stor_fields b sb) as (Fb1 & Fb2 & Fb3 & Fb4).
    assert (Ha' : set_cap (with_sz (with_stor a sa) (sz (with_stor b sb))) (cap (with_stor b sb)) = with_sz (with_stor a sa) (sz b)).
    { unfold set_cap, with_sz. cbn [ptr sz cap is_sbo inl blk]. rewrite Fb2, Fb3, Fa4, Fa3. replace (0 <? cap b) with true by lia. rewrite andb_true_r. congruence. }
    assert (Hb' : set_cap (with_sz (with_stor b sb) (sz (with_stor a sa))) (cap (with_stor a sa)) = with_sz (with_stor b sb) (sz a)).
    { unfold set_cap, with_sz. cbn [ptr sz cap is_sbo inl blk]. rewrite Fa2, Fa3, Fb4, Fb3. replace (0 <? cap a) with true by lia. rewrite andb_true_r. congruence. }
    rewrite Ha', Hb'. split; [eapply inv_with; eauto|]. split; [eapply inv_with; eauto|]. split; apply owned_with.
  Qed.
End Whole.
