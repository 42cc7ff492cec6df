(** Destruction, assignment, whole vectors. *)
From Coq Require Import Arith NArith ZArith List Bool Lia ZifyBool ZifyNat.
From Verif Require Import Base SvModel SvSpec SvCells SvProofs SvInsert.
Import ListNotations.

Section Assign.
  Context {A : Type}.
  Variables triv alloc : bool.
  Variable esize : N.
  Hypothesis esize_pos : (1 <= esize)%N.
  Notation slot := (slot A).
  Notation elt := (elt A).
  Notation vec := (vec A).
  Notation inv := (inv triv alloc).
  Notation fits := (fits esize).
  Notation holds := (holds triv).
  Implicit Types (v : vec) (xs ys l : list elt) (w : world) (st : list slot).

  Lemma inv_live : forall v xs k, inv v xs -> k < sz v -> cell (stor v) k <> Dead.
  Proof using.
    clear esize_pos. intros v xs k I H. rewrite (v_sz _ _ _ _ I) in H. destruct (v_holds _ _ _ _ I) as (_ & H2 & _). rewrite H2 by exact H. discriminate.
  Qed.
  Lemma inv_full : forall v xs, inv v xs -> xs <> [] -> ptr v <> Null.
  Proof using. clear esize_pos. intros v xs I H E. now destruct (inv_null triv alloc v xs I E). Qed.

  Lemma destroy_ok : forall w v xs, inv v xs -> exists v' w', destroy triv alloc w v = Some (v', w') /\ inv v' [] /\ balanced w v w' v' /\
    length (inl v') = length (inl v) /\ oracle w' = oracle w /\ ptr v' <> Heap /\
    (ptr v <> Heap -> cap v' = cap v /\ ptr v' = ptr v) /\ (ptr v = Heap -> ptr v' = Null) /\ cap v' <= cap v.
  Proof using.
    clear esize_pos. intros w v xs I. pose proof (v_sz _ _ _ _ I) as Ez. pose proof (v_holds _ _ _ _ I) as (H1 & H2 & H3).
    assert (Hd : exists st, destruct_n triv (stor v) 0 (sz v) = Some st /\ length st = length (stor v) /\ (triv = false -> forall j, cell st j = Dead)).
    { destruct (Bool.bool_dec triv true) as [T|T].
      - exists (stor v). rewrite destruct_n_triv by exact T. split; [reflexivity|]. split; [reflexivity|congruence].
      - apply not_true_is_false in T. destruct (destruct_n_ok triv (sz v) (stor v) 0 T) as (st & E & L & C); [intros j Hj; apply (inv_live v xs j I); lia|].
        exists st. split; [exact E|]. split; [exact L|]. intros _ j. rewrite C. cbn [Nat.leb andb]. destruct (Nat.ltb_spec j (0 + sz v)); [reflexivity|]. apply (H3 T). lia. }
    destruct Hd as (st & E & L & D). unfold destroy. rewrite E. pose proof (v_sbo _ _ _ _ I) as Sb. pose proof (v_alloc _ _ _ _ I) as Al.
    pose proof (v_inl _ _ _ _ I) as Vi.
    assert (I0 : inv (with_sz (with_stor v st) 0) []).
    { eapply inv_with; [exact I|exact L| |reflexivity]. split; [cbn; lia|]. split; [intros i Hi; cbn in Hi; lia|]. intros T i _. now apply D. }
    destruct (with_stor_fields v st) as (F1 & F2 & F3 & F4).
    destruct alloc eqn:Ea; cbn [andb].
    - rewrite Sb. destruct (ptr v) eqn:Ep; cbn [negb release].
      + unfold release. rewrite Ep. eexists _, w. split; [reflexivity|]. destruct (inv_null triv true v xs I Ep) as (-> & Z0 & C0). split; [|split; [|split; [|split; [|split; [|split; [|split]]]]]].
        * constructor; cbn; try congruence; [|intros T _ i; rewrite with_stor_inl by congruence; apply (Vi T); congruence]. split; [cbn; lia|]. split; [intros i Hi; cbn in Hi; lia|]. intros _ i _. now destruct i.
        * unfold balanced, owned. cbn [ptr]. rewrite Ep. reflexivity.
        * cbn [inl]. now apply with_stor_inl_length.
        * reflexivity.
        * cbn. discriminate.
        * intros _. cbn. split; congruence.
        * discriminate.
        * cbn. lia.
      + eexists _, w. split; [reflexivity|]. split; [exact I0|]. split; [unfold balanced; now rewrite owned_with|]. split; [now apply inl_with|]. split; [reflexivity|].
        cbn [with_sz ptr cap]. rewrite F1, F3. split; [discriminate|]. split; [auto|]. split; [discriminate|]. lia.
      + unfold release. rewrite Ep. eexists _, _. split; [reflexivity|]. split; [|split; [|split; [|split; [|split; [|split; [|split]]]]]].
        * constructor; cbn; try congruence; [|intros T _ i; rewrite with_stor_inl by congruence; apply (Vi T); congruence]. split; [cbn; lia|]. split; [intros i Hi; cbn in Hi; lia|]. intros _ i _. now destruct i.
        * unfold balanced, owned. cbn [ptr more blocks]. rewrite Ep. lia.
        * cbn [inl]. now apply with_stor_inl_length.
        * reflexivity.
        * cbn. discriminate.
        * congruence.
        * reflexivity.
        * cbn. lia.
    - specialize (Al eq_refl). eexists _, w. split; [reflexivity|]. split; [exact I0|]. split; [unfold balanced; now rewrite owned_with|]. split; [now apply inl_with|]. split; [reflexivity|].
      cbn [with_sz ptr cap]. rewrite F1, F3. split; [exact Al|]. split; [auto|]. split; [congruence|]. lia.
  Qed.

  Lemma inv_none : inv (Vec Null 0 0 false [] [] : vec) [].
  Proof using.
    clear esize_pos.
    constructor; cbn [sz cap ptr is_sbo stor inl blk]; [reflexivity| |reflexivity|reflexivity|intros _ _ i; now destruct i|discriminate].
    split; [cbn; lia|]. split; [intros i Hj; cbn in Hj; lia|]. intros _ i _. now destruct i.
  Qed.
  Lemma become_new_ok : forall w v n, inv v [] -> ptr v <> Heap -> fits n -> exists v' w', become_new alloc esize w v n = Some (v', w') /\ inv v' [] /\
    balanced w v w' v' /\ inl v' = inl v /\
    (ptr v' = Heap /\ cap v' = n \/ ptr v' = Null /\ v' = forget v /\ (alloc = true -> hd_error (oracle w) <> Some true)).
  Proof using esize_pos.
    intros w v n I Hp F. unfold become_new.
    assert (Hi : triv = false -> forall i, cell (inl v) i = Dead).
    { intros T i. destruct (ptr v) eqn:Ep.
      - apply (v_inl _ _ _ _ I T). congruence.
      - pose proof (v_holds _ _ _ _ I) as (_ & _ & H3). unfold stor in H3. rewrite Ep in H3. apply (H3 T). cbn. lia.
      - congruence. }
    assert (In : inv (Vec Null 0 0 false (inl v) []) []).
    { constructor; cbn [sz cap ptr is_sbo stor inl blk]; [reflexivity| |reflexivity|reflexivity|intros T _; exact (Hi T)|discriminate].
      split; [cbn; lia|]. split; [intros i Hj; cbn in Hj; lia|]. intros _ i _. now destruct i. }
    assert (Ow : owned v = 0%Z) by (unfold owned; destruct (ptr v); congruence).
    destruct alloc eqn:Ea.
    - unfold ask. destruct (oracle w) as [|[|] r] eqn:Eo.
      + exists (forget v), w. split; [reflexivity|]. split; [exact In|]. split; [unfold balanced; rewrite Ow; reflexivity|]. split; [reflexivity|]. right. repeat split. cbn. discriminate.
      + rewrite (fits_range esize esize_pos n F). cbn [assert_]. eexists _, _. split; [reflexivity|]. split; [|split; [|split; [reflexivity|left; split; reflexivity]]].
        * constructor; cbn [sz cap ptr is_sbo stor inl blk]; try congruence; auto.
          -- split; [cbn; lia|]. split; [intros i Hj; cbn in Hj; lia|]. intros _ i _. apply fresh_cell.
          -- now rewrite (fresh_length esize esize_pos).
        * unfold balanced. rewrite Ow. cbn. lia.
      + exists (forget v), (World r (blocks w)). split; [reflexivity|]. split; [exact In|]. split; [unfold balanced; rewrite Ow; reflexivity|]. split; [reflexivity|]. right. repeat split. cbn. discriminate.
    - exists (forget v), w. split; [reflexivity|]. split; [exact In|]. split; [unfold balanced; rewrite Ow; reflexivity|]. split; [reflexivity|]. right. repeat split. congruence.
  Qed.

  Lemma fill_ok : forall v xs l, inv v xs -> ptr v <> Null -> length l <= cap v ->
    exists v', fill triv v l = Some v' /\ inv v' l /\ owned v' = owned v /\ length (inl v') = length (inl v) /\ cap v' = cap v /\ ptr v' = ptr v.
  Proof using.
    clear esize_pos. intros v xs l I Hp Hl. pose proof (v_sz _ _ _ _ I) as Ez. pose proof (v_holds _ _ _ _ I) as (H1 & H2 & H3). pose proof (v_cap _ _ _ _ I) as Ec.
    assert (Hst : exists st, length st = length (stor v) /\ holds st l /\ fill triv v l = Some (with_sz (with_stor v st) (length l))).
    { unfold fill. assert (En : null v = false) by (unfold null; destruct (ptr v); congruence). rewrite En. cbn [negb assert_].
      destruct (Bool.bool_dec triv true) as [T|T]; [|apply not_true_is_false in T]; rewrite T.
      - destruct (assign_vals_ok true l (stor v) 0) as (st & E & L & C); [lia|discriminate|]. rewrite E. exists st. split; [exact L|]. split; [|reflexivity].
        split; [lia|]. split; [|congruence]. intros i Hi. rewrite C. cbn [Nat.leb andb]. destruct (Nat.ltb_spec i (0 + length l)); [|lia]. now rewrite Nat.sub_0_r.
      - set (k := if sz v <? length l then sz v else length l). assert (Hk : k = Nat.min (sz v) (length l)) by (unfold k; destruct (Nat.ltb_spec (sz v) (length l)); lia). clearbody k.
        assert (Lf : length (firstn k l) = k) by (rewrite firstn_length; lia). assert (Ls : length (skipn k l) = length l - k) by apply skipn_length.
        destruct (assign_vals_ok false (firstn k l) (stor v) 0) as (st1 & E1 & L1 & C1); [lia|intros _ j Hj; apply (inv_live v xs j I); lia|]. rewrite E1.
        destruct (construct_vals_ok false (skipn k l) st1 k) as (st2 & E2 & L2 & C2); [lia| |].
        { intros _ j Hj. rewrite C1. cbn [Nat.leb andb]. destruct (Nat.ltb_spec j (0 + length (firstn k l))); [lia|]. apply (H3 T). lia. }
        rewrite E2. rewrite Lf in C1. rewrite Ls in C2. cbn [Nat.add Nat.leb andb] in C1.
        assert (Hc : forall i, i < length l -> cell st2 i = Live (nth i l Moved)).
        { intros i Hi. rewrite C2. destruct (Nat.leb_spec k i).
          - destruct (Nat.ltb_spec i (k + (length l - k))); [|lia]. cbn [andb]. rewrite nth_skipn_plus. do 2 f_equal. lia.
          - cbn [andb]. rewrite C1. destruct (Nat.ltb_spec i k); [|lia]. rewrite Nat.sub_0_r. f_equal. now apply nth_firstn_lt. }
        assert (Hr : forall i, length l <= i -> cell st2 i = cell (stor v) i).
        { intros i Hi. rewrite C2. destruct (Nat.ltb_spec i (k + (length l - k))); [lia|]. rewrite andb_false_r. rewrite C1. destruct (Nat.ltb_spec i k); [lia|]. reflexivity. }
        destruct (Nat.ltb_spec (length l) (sz v)) as [G|G].
        + destruct (destruct_n_ok false (sz v - length l) st2 (length l) eq_refl) as (st3 & E3 & L3 & C3).
          { intros j Hj. rewrite Hr by lia. apply (inv_live v xs j I). lia. }
          rewrite E3. exists st3. split; [lia|]. split; [|reflexivity]. split; [lia|]. split.
          * intros i Hi. rewrite C3. destruct (Nat.leb_spec (length l) i); [lia|]. cbn [andb]. now apply Hc.
          * intros _ i Hi. rewrite C3. destruct (Nat.leb_spec (length l) i); [|lia]. destruct (Nat.ltb_spec i (length l + (sz v - length l))); cbn [andb]; [reflexivity|].
            rewrite Hr by lia. apply (H3 T). lia.
        + exists st2. split; [lia|]. split; [|reflexivity]. split; [lia|]. split; [exact Hc|]. intros _ i Hi. rewrite Hr by lia. apply (H3 T). lia. }
    destruct Hst as (st & L & H & ->). exists (with_sz (with_stor v st) (length l)). split; [reflexivity|]. split; [eapply inv_with; eauto|].
    split; [apply owned_with|]. split; [now apply inl_with|]. cbn [with_sz cap ptr]. destruct (with_stor_fields v st) as (F1 & F2 & F3 & F4). split; assumption.
  Qed.

  (** The outcome of an assignment of n elements. *)
  Definition assigned (w : world) (v : vec) (n : nat) (r : option (bool * vec * world)) (after : list elt) : Prop :=
    exists ok v' w', r = Some (ok, v', w') /\ inv v' (if ok then after else []) /\ balanced w v w' v' /\ length (inl v') = length (inl v) /\
      (alloc = true -> hd_error (oracle w) = Some true -> ok = true) /\ (n <= cap v -> ok = true).

  Lemma null_of : forall v, ptr v = Heap -> null v = false.
  Proof using. clear esize_pos. intros v H. unfold null. now rewrite H. Qed.

  Lemma assign_n_ok : forall w v xs n x, inv v xs -> fits n -> valid_arg xs x -> ptr v <> Null \/ 1 <= n ->
    assigned w v n (assign_n triv alloc esize w v n x) (repeat (value_of xs x) n).
  Proof using esize_pos.
    intros w v xs n x I F Ha Hn. unfold assign_n. rewrite (inv_has_ptr triv alloc v xs I). cbn [assert_]. rewrite (copy_arg_ok triv alloc v xs x I Ha).
    set (e := value_of xs x). destruct (Nat.ltb_spec (cap v) n) as [G|G].
    - destruct (destroy_ok w v xs I) as (v1 & w1 & E1 & I1 & B1 & L1 & O1 & P1 & _). rewrite E1.
      destruct (become_new_ok w1 v1 n I1 P1 F) as (v2 & w2 & E2 & I2 & B2 & L2 & R). rewrite E2. destruct R as [[R1 R2]|[R1 [R2 R3]]].
      + rewrite (null_of v2 R1). destruct (fill_ok v2 [] (repeat e n) I2) as (v3 & E3 & I3 & O3 & L3 & C3 & _); [congruence|rewrite repeat_length; lia|].
        rewrite E3. exists true, v3, w2. split; [reflexivity|]. split; [exact I3|]. split; [unfold balanced in *; lia|]. split; [congruence|]. auto.
      + unfold null. rewrite R1. exists false, v2, w2. split; [reflexivity|]. split; [exact I2|]. split; [unfold balanced in *; lia|]. split; [congruence|].
        split; [intros Q1 Q2; rewrite O1 in R3; now elim (R3 Q1)|lia].
    - assert (Hp : ptr v <> Null).
      { intros Ep. destruct (inv_null triv alloc v xs I Ep) as (_ & _ & C0). destruct Hn; [contradiction|lia]. }
      destruct (fill_ok v xs (repeat e n) I Hp) as (v3 & E3 & I3 & O3 & L3 & C3 & _); [rewrite repeat_length; lia|].
      rewrite E3. exists true, v3, w. split; [reflexivity|]. split; [exact I3|]. split; [unfold balanced in *; lia|]. auto.
  Qed.

  Lemma assign_range_ok : forall w v xs l, inv v xs -> fits (length l) -> assigned w v (length l) (assign_range triv alloc esize w v l) l.
  Proof using esize_pos.
    intros w v xs l I F. unfold assign_range. destruct l as [|e l'].
    - destruct (clear_ok triv alloc v xs I) as (v' & E & I' & O & L & C). rewrite E. exists true, v', w. split; [reflexivity|]. split; [exact I'|]. split; [unfold balanced; now rewrite O|]. auto.
    - assert (Hl : 1 <= length (e :: l')) by (cbn; lia). assert (Hl' : e :: l' <> []) by discriminate. set (l := e :: l') in *. clearbody l. destruct (Nat.ltb_spec (cap v) (length l)) as [G|G].
      + rewrite (inv_has_ptr triv alloc v xs I). cbn [assert_]. destruct (destroy_ok w v xs I) as (v1 & w1 & E1 & I1 & B1 & L1 & O1 & P1 & _). rewrite E1.
        destruct (become_new_ok w1 _ (length l) inv_none ltac:(cbn; discriminate) F) as (v2 & w2 & E2 & I2 & B2 & L2 & R). rewrite E2. destruct R as [[R1 R2]|[R1 [R2 R3]]].
        * rewrite (null_of v2 R1). destruct (fill_ok v2 [] l I2) as (v3 & E3 & I3 & O3 & L3 & C3 & P3); [congruence|lia|]. rewrite E3.
          destruct (destroy_ok w2 v1 [] I1) as (v4 & w4 & E4 & I4 & B4 & L4 & O4 & P4 & P5 & _). rewrite E4.
          eexists true, _, w4. split; [reflexivity|]. split; [|split; [|split; [|auto]]].
          -- assert (P3' : ptr v3 = Heap) by congruence. pose proof (v_holds _ _ _ _ I3) as H3. pose proof (v_cap _ _ _ _ I3) as Ec. unfold stor in H3, Ec. rewrite P3' in H3, Ec.
             constructor; cbn [sz cap ptr is_sbo stor inl blk]; try assumption; try reflexivity.
             ++ exact (v_sz _ _ _ _ I3).
             ++ intros T _ i. pose proof (v_holds _ _ _ _ I4) as (_ & _ & H4). pose proof (v_inl _ _ _ _ I4 T) as H5. unfold stor in H4. destruct (ptr v4) eqn:Ep; [apply H5; congruence|apply (H4 T); cbn; lia|congruence].
             ++ intros Q. exfalso. exact (v_alloc _ _ _ _ I3 Q P3').
          -- unfold balanced in *. unfold owned at 1. cbn [ptr]. unfold owned in B1, B2, B4 |- *. cbn [ptr] in B2. rewrite R1 in B2. destruct (ptr v1), (ptr v4); try congruence; lia.
          -- cbn [inl]. congruence.
        * unfold null. rewrite R1. exists false, v1, w2. split; [reflexivity|]. split; [exact I1|]. split; [unfold balanced, owned in *; rewrite R1 in B2; cbn [ptr] in B2; lia|]. split; [congruence|].
          split; [intros Q1 Q2; rewrite O1 in R3; now elim (R3 Q1)|lia].
      + destruct (fill_ok v xs l I) as (v3 & E3 & I3 & O3 & L3 & C3 & _); [|lia|].
        { intros Ep. destruct (inv_null triv alloc v xs I Ep) as (_ & _ & C0). lia. }
        rewrite E3. exists true, v3, w. split; [reflexivity|]. split; [exact I3|]. split; [unfold balanced in *; lia|]. auto.
  Qed.

  Lemma part_length : forall {X} f (l : nat) (xs : list X), f <= l -> l <= length xs -> length (part f l xs) = l - f.
  Proof using. clear esize_pos. intros X f l xs H1 H2. unfold part. rewrite firstn_length, skipn_length. lia. Qed.
  Lemma assign_self_ok : forall w v xs (f l : nat), inv v xs -> f <= l -> l <= length xs ->
    exists v', assign_self triv w v f l = Some (true, v', w) /\ inv v' (part f l xs) /\ owned v' = owned v /\ length (inl v') = length (inl v).
  Proof using.
    clear esize_pos. intros w v xs f l I Hf Hl. pose proof (v_sz _ _ _ _ I) as Ez. pose proof (v_holds _ _ _ _ I) as (H1 & H2 & H3). pose proof (v_cap _ _ _ _ I) as Ec.
    unfold assign_self. assert (E0 : (f <=? l) && (l <=? sz v) = true) by lia. rewrite E0. cbn [assert_]. destruct (Nat.eqb_spec f l) as [G|G].
    - destruct (clear_ok triv alloc v xs I) as (v' & E & I' & O & L & C). rewrite E. exists v'. split; [reflexivity|]. split; [|split; assumption].
      unfold part. replace (l - f) with 0 by lia. exact I'.
    - destruct (Nat.ltb_spec (cap v) (l - f)); [lia|].
      assert (En : null v = false). { unfold null. destruct (ptr v) eqn:Ep; try reflexivity. destruct (inv_null triv alloc v xs I Ep) as (-> & _). cbn in Hl. lia. }
      rewrite En. cbn [negb assert_].
      assert (Hst : exists st, (if triv then copy_slots (stor v) 0 (stor v) f (l - f) else st1 <- copy_down triv (l - f) (stor v) 0 f ;; destruct_n triv st1 (l - f) (sz v - (l - f))) = Some st /\
        length st = length (stor v) /\ holds st (part f l xs)).
      { assert (Np : forall i, i < l - f -> nth i (part f l xs) Moved = nth (i + f) xs Moved).
        { intros i Hi. unfold part. rewrite nth_firstn_lt by exact Hi. rewrite nth_skipn_plus. f_equal. lia. }
        destruct (Bool.bool_dec triv true) as [T|T]; [|apply not_true_is_false in T]; rewrite T.
        - destruct (copy_slots_ok (stor v) 0 (stor v) f (l - f)) as (st & E & L & C); [lia|lia|]. exists st. split; [exact E|]. split; [exact L|].
          split; [rewrite part_length by lia; lia|]. split; [|congruence]. intros i Hi. rewrite part_length in Hi by lia. rewrite C, Np by exact Hi. cbn [Nat.leb andb].
          destruct (Nat.ltb_spec i (0 + (l - f))); [|lia]. rewrite Nat.sub_0_r. apply H2. lia.
        - destruct (copy_down_ok false (l - f) (stor v) 0 f) as (st1 & E1 & L1 & C1 & C2); [lia|intros k Hk; apply (inv_live v xs k I); lia|]. rewrite E1.
          destruct (destruct_n_ok false (sz v - (l - f)) st1 (l - f) eq_refl) as (st2 & E2 & L2 & C3).
          { intros j Hj. rewrite C2 by lia. apply (inv_live v xs j I). lia. }
          exists st2. split; [exact E2|]. split; [lia|]. split; [rewrite part_length by lia; lia|]. split.
          + intros i Hi. rewrite part_length in Hi by lia. rewrite C3, Np by exact Hi. destruct (Nat.leb_spec (l - f) i); [lia|]. cbn [andb]. rewrite C1 by lia. rewrite Nat.sub_0_r. apply H2. lia.
          + intros _ i Hi. rewrite part_length in Hi by lia. rewrite C3. destruct (Nat.leb_spec (l - f) i); [|lia]. destruct (Nat.ltb_spec i (l - f + (sz v - (l - f)))); cbn [andb]; [reflexivity|].
            rewrite C2 by lia. apply (H3 T). lia. }
      destruct Hst as (st & E & L & Hh). rewrite E. exists (with_sz (with_stor v st) (l - f)). split; [reflexivity|]. split; [|split; [apply owned_with|now apply inl_with]].
      eapply inv_with; [exact I|exact L|exact Hh|now rewrite part_length].
  Qed.
End Assign.
