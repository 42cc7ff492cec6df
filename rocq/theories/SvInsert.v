(** Insertion, resizing and reserving. *)
From Coq Require Import Arith NArith ZArith List Bool Lia ZifyBool ZifyNat.
From Verif Require Import Base SvModel SvSpec SvCells SvProofs.
Import ListNotations.

Section Ops.
  Context {A : Type}.
  Variables triv alloc : bool.
  Variable esize : N.
  Hypothesis esize_pos : (1 <= esize)%N.
  Notation slot := (slot A).
  Notation elt := (elt A).
  Notation vec := (vec A).
  Notation inv := (inv triv alloc).
  Notation fits := (fits esize).
  Notation holds := (holds triv).
  Implicit Types (v : vec) (xs : list elt) (w : world).

  Lemma with_stor_twice : forall (v : vec) st n st', length st = length (stor v) -> with_stor (with_sz (with_stor v st) n) st' = with_sz (with_stor v st') n.
  Proof using. clear esize_pos. intros v st n st' H. unfold with_sz, with_stor, stor in *. destruct (ptr v) eqn:E; cbn [ptr sz cap is_sbo inl blk]; rewrite ?E; reflexivity. Qed.
  Lemma stor_with_len : forall (v : vec) st n, length st = length (stor v) -> stor (with_sz (with_stor v st) n) = st.
  Proof using.
    clear esize_pos. intros v st n H. unfold with_sz, with_stor, stor in *. destruct (ptr v) eqn:E; cbn [ptr sz cap is_sbo inl blk]; rewrite ?E; try reflexivity.
    destruct st; [reflexivity|discriminate H].
  Qed.

  Lemma make_room_ok : forall w v xs pos n, inv v xs -> fits (2 * cap v + n + 1) -> pos <= length xs ->
    1 <= n \/ pos = length xs \/ triv = true ->
    exists ok v1 w', inv v1 xs /\ balanced w v w' v1 /\ length (inl v1) = length (inl v) /\
      (alloc = true -> hd_error (oracle w) = Some true -> ok = true) /\ (length xs + n <= cap v -> ptr v <> Null -> ok = true /\ v1 = v /\ w' = w) /\
      (ok = false -> cap v < length xs + n \/ ptr v = Null) /\
      if ok : bool then exists st fu,
        make_room triv alloc esize w v pos n = Some (true, with_sz (with_stor v1 st) (length xs + n), w', pos, fu) /\ pos <= fu <= pos + n /\
        (triv = true -> fu = pos + n) /\
        length st = length (stor v1) /\ length xs + n <= length st /\ (forall i, i < pos -> cell st i = Live (nth i xs Moved)) /\
        (forall i, pos + n <= i < length xs + n -> cell st i = Live (nth (i - n) xs Moved)) /\
        (triv = false -> (forall i, pos <= i < fu -> cell st i <> Dead) /\ (forall i, fu <= i < pos + n -> cell st i = Dead) /\
                         (forall i, length xs + n <= i -> cell st i = Dead))
      else make_room triv alloc esize w v pos n = Some (false, v1, w', 0, 0).
  Proof using esize_pos.
    intros w v xs pos n I F Hp Hn. pose proof (v_sz _ _ _ _ I) as Ez. unfold make_room. destruct (Nat.leb_spec pos (sz v)); [|lia]. cbn [assert_].
    destruct (grow_by_ok triv alloc esize esize_pos w v xs n I F) as (ok & v1 & w' & E & I1 & B & Li & G1 & G3 & G2 & G4). rewrite E.
    exists ok, v1, w'. split; [exact I1|]. split; [exact B|]. split; [exact Li|]. split; [exact G2|]. split; [exact G4|]. split; [exact G3|].
    destruct ok; cbn [negb]; [|reflexivity]. specialize (G1 eq_refl).
    pose proof (v_sz _ _ _ _ I1) as Ez1. pose proof (v_holds _ _ _ _ I1) as (H1 & H2 & H3). pose proof (v_cap _ _ _ _ I1) as Ec.
    destruct (Bool.bool_dec triv true) as [T|T]; [|apply not_true_is_false in T]; rewrite T.
    - assert (Hc : exists st, (if sz v1 - pos =? 0 then Some (stor v1) else copy_slots (stor v1) (pos + n) (stor v1) pos (sz v1 - pos)) = Some st /\
        length st = length (stor v1) /\ forall i, cell st i = if (pos + n <=? i) && (i <? sz v1 + n) then cell (stor v1) (i - n) else cell (stor v1) i).
      { destruct (Nat.eqb_spec (sz v1 - pos) 0) as [Es|Es].
        - exists (stor v1). split; [reflexivity|]. split; [reflexivity|]. intros i. destruct (Nat.leb_spec (pos + n) i), (Nat.ltb_spec i (sz v1 + n)); cbn [andb]; try reflexivity. lia.
        - destruct (copy_slots_ok (stor v1) (pos + n) (stor v1) pos (sz v1 - pos)) as (st & E1 & L & C); [lia|lia|]. exists st. split; [exact E1|]. split; [exact L|].
          intros i. rewrite C. destruct (Nat.leb_spec (pos + n) i), (Nat.ltb_spec i (pos + n + (sz v1 - pos))), (Nat.ltb_spec i (sz v1 + n)); cbn [andb]; try lia; try reflexivity.
          f_equal. lia. }
      destruct Hc as (st & E1 & L & C). rewrite E1, Ez1. exists st, (pos + n). split; [reflexivity|]. split; [lia|]. split; [reflexivity|]. split; [exact L|]. split; [lia|].
      split; [|split; [|congruence]].
      + intros i Hi. rewrite C. destruct (Nat.leb_spec (pos + n) i); [lia|]. cbn [andb]. apply H2. lia.
      + intros i Hi. rewrite C. destruct (Nat.leb_spec (pos + n) i); [|lia]. destruct (Nat.ltb_spec i (sz v1 + n)); [|lia]. cbn [andb]. apply H2. lia.
    - specialize (H3 T). destruct (Nat.eqb_spec (sz v1 - pos) 0) as [Es|Es].
      + exists (stor v1), pos. rewrite with_stor_same. rewrite Ez1. split; [reflexivity|]. split; [lia|]. split; [congruence|]. split; [reflexivity|]. split; [lia|]. split; [|split; [|split; [|split]]].
        * intros i Hi. apply H2. lia.
        * intros i Hi. lia.
        * intros i Hi. lia.
        * intros i Hi. apply H3. lia.
        * intros i Hi. apply H3. lia.
      + destruct Hn as [Hn|[Hn|Hn]]; [|lia|congruence].
        set (k := if n <? sz v1 - pos then n else sz v1 - pos). set (m := if n <? sz v1 - pos then sz v1 - pos - n else 0).
        assert (Hk : k <= n /\ k <= sz v1 - pos /\ 1 <= k /\ k + m = sz v1 - pos /\ (m = 0 \/ k = n)).
        { unfold k, m. destruct (Nat.ltb_spec n (sz v1 - pos)); lia. }
        clearbody k m.
        destruct (shift_construct_ok triv k (stor v1) (sz v1) (sz v1 + n) T) as (st1 & E1 & L1 & C1); [lia|lia|lia|lia| | |].
        { intros i Hi. rewrite H2 by lia. discriminate. }
        { intros i Hi. apply H3. lia. }
        rewrite T in E1. rewrite E1.
        assert (Ea : (sz v1 + n - k <=? sz v1) || (m =? 0) = true) by lia. rewrite Ea. cbn [assert_].
        assert (Hsa : exists st2, shift_assign triv m st1 (sz v1 - k) (sz v1 + n - k) = Some st2 /\ length st2 = length st1 /\
          (forall i, sz v1 + n - k - m <= i < sz v1 + n - k -> cell st2 i = cell st1 (i + (sz v1 - k) - (sz v1 + n - k))) /\
          (m <> 0 -> forall i, sz v1 - k - m <= i < sz v1 + n - k - m -> cell st2 i <> Dead) /\
          (forall i, i < sz v1 - k - m \/ sz v1 + n - k <= i \/ m = 0 -> cell st2 i = cell st1 i)).
        { destruct (Nat.eq_dec m 0) as [M0|M0].
          - rewrite M0. exists st1. split; [reflexivity|]. split; [reflexivity|]. split; [intros; lia|]. split; [congruence|reflexivity].
          - destruct (shift_assign_ok triv m st1 (sz v1 - k) (sz v1 + n - k) T) as (st2 & E2 & L2 & Ca & Cb & Cc); [lia|lia|lia| |].
            { intros i Hi. rewrite C1. destruct (Nat.leb_spec (sz v1 - k) i), (Nat.ltb_spec i (sz v1)); cbn [andb]; try discriminate.
              - lia.
              - destruct (Nat.leb_spec (sz v1 + n - k) i); cbn [andb]; [lia|]. rewrite H2 by lia. discriminate.
              - lia. }
            exists st2. split; [exact E2|]. split; [exact L2|]. split; [exact Ca|]. split; [intros _; exact Cb|]. intros i Hi. apply Cc. lia. }
        destruct Hsa as (st2 & E2 & L2 & Ca & Cb & Cc).
        rewrite T in E2. rewrite E2, Ez1. exists st2, (pos + k). split; [reflexivity|]. split; [lia|]. split; [congruence|]. split; [lia|]. split; [lia|].
        split; [|split; [|split; [|split]]].
        * intros i Hi. rewrite Cc by lia. rewrite C1. destruct (Nat.leb_spec (sz v1 - k) i); [lia|]. cbn [andb].
          destruct (Nat.leb_spec (sz v1 + n - k) i); [lia|]. cbn [andb]. apply H2. lia.
        * intros i Hi. destruct (Nat.lt_ge_cases i (sz v1 + n - k)) as [G|G].
          -- rewrite Ca by lia. rewrite C1. destruct (Nat.leb_spec (sz v1 - k) (i + (sz v1 - k) - (sz v1 + n - k))); [lia|]. cbn [andb].
             destruct (Nat.leb_spec (sz v1 + n - k) (i + (sz v1 - k) - (sz v1 + n - k))); [lia|]. cbn [andb]. rewrite H2 by lia. do 2 f_equal. lia.
          -- rewrite Cc by lia. rewrite C1. destruct (Nat.ltb_spec i (sz v1)).
             ++ lia.
             ++ rewrite andb_false_r. destruct (Nat.leb_spec (sz v1 + n - k) i); [|lia]. destruct (Nat.ltb_spec i (sz v1 + n)); [|lia]. cbn [andb].
                rewrite H2 by lia. do 2 f_equal. lia.
        * intros i Hi. destruct (Nat.lt_ge_cases i (sz v1 + n - k - m)) as [G|G].
          -- destruct (Nat.eq_dec m 0) as [M0|M0].
             ++ rewrite Cc by lia. rewrite C1. destruct (Nat.leb_spec (sz v1 - k) i); [|lia]. destruct (Nat.ltb_spec i (sz v1)); [|lia]. discriminate.
             ++ apply Cb; lia.
          -- lia.
        * intros i Hi. rewrite Cc by lia. rewrite C1. destruct (Nat.ltb_spec i (sz v1)); [lia|]. rewrite andb_false_r.
          destruct (Nat.leb_spec (sz v1 + n - k) i); [lia|]. cbn [andb]. apply H3. lia.
        * intros i Hi. rewrite Cc by lia. rewrite C1. destruct (Nat.ltb_spec i (sz v1)); [lia|]. rewrite andb_false_r.
          destruct (Nat.ltb_spec i (sz v1 + n)); [lia|]. rewrite andb_false_r. apply H3. lia.
  Qed.

  (** The outcome of an operation that may need memory: the sequence afterwards, and no leak. *)
  Definition outcome (w : world) (v : vec) (n : nat) (r : option (bool * vec * world)) (xs : list elt) (after : bool -> list elt) : Prop :=
    exists ok v' w', r = Some (ok, v', w') /\ inv v' (after ok) /\ balanced w v w' v' /\ length (inl v') = length (inl v) /\
      (alloc = true -> hd_error (oracle w) = Some true -> ok = true) /\ (length xs + n <= cap v -> ptr v <> Null -> ok = true) /\
      (ok = false -> cap v < length xs + n \/ ptr v = Null).

  Lemma insert_vals_ok : forall w v xs pos l, inv v xs -> fits (2 * cap v + length l + 1) -> pos <= length xs ->
    l <> [] \/ pos = length xs \/ triv = true ->
    outcome w v (length l) (insert_vals triv alloc esize w v pos l) xs (fun ok => if ok then insert_at pos l xs else xs).
  Proof using esize_pos.
    intros w v xs pos l I F Hp Hn. unfold insert_vals.
    destruct (make_room_ok w v xs pos (length l) I F Hp) as (ok & v1 & w' & I1 & B & Li & G2 & G4 & G3 & R).
    { destruct Hn as [Hn|Hn]; [left; destruct l; [congruence|cbn; lia]|right; exact Hn]. }
    destruct ok.
    2:{ rewrite R. cbn [negb]. exists false, v1, w'. split; [reflexivity|]. split; [exact I1|]. split; [exact B|]. split; [exact Li|]. split; [exact G2|].
        split; [intros Q1 Q2; now destruct (G4 Q1 Q2)|exact G3]. }
    destruct R as (st & fu & E & Hfu & Tfu & L & Hl & C1 & C2 & C3). rewrite E. cbn [negb]. rewrite stor_with_len by exact L.
    set (k := fu - pos). assert (Lf : length (firstn k l) = k) by (rewrite firstn_length; unfold k; lia).
    assert (Ls : length (skipn k l) = length l - k) by apply skipn_length.
    destruct (assign_vals_ok triv (firstn k l) st pos) as (st1 & E1 & L1 & D1); [rewrite Lf; unfold k; lia| |].
    { intros T j Hj. destruct (C3 T) as (Q & _ & _). apply Q. rewrite Lf in Hj. unfold k in Hj. lia. }
    rewrite E1. rewrite Lf in D1.
    destruct (construct_vals_ok triv (skipn k l) st1 fu) as (st2 & E2 & L2 & D2); [rewrite Ls, L1; unfold k; lia| |].
    { intros T j Hj. rewrite Ls in Hj. rewrite D1. unfold k in *. destruct (Nat.ltb_spec j (pos + (fu - pos))); [lia|]. rewrite andb_false_r. destruct (C3 T) as (_ & Q & _). apply Q. lia. }
    rewrite E2. rewrite Ls in D2. rewrite with_stor_twice by exact L. exists true, (with_sz (with_stor v1 st2) (length xs + length l)), w'.
    split; [reflexivity|]. split.
    - eapply inv_with; [exact I1|lia| |rewrite insert_at_length by exact Hp; reflexivity]. split; [rewrite insert_at_length by exact Hp; lia|]. split.
      + intros i Hi. rewrite insert_at_length in Hi by exact Hp. rewrite nth_insert_at by exact Hp. rewrite D2, D1. unfold k in *.
        destruct (Nat.ltb_spec i pos).
        * destruct (Nat.leb_spec fu i); [lia|]. cbn [andb]. destruct (Nat.leb_spec pos i); [lia|]. cbn [andb]. now apply C1.
        * destruct (Nat.ltb_spec i (pos + length l)).
          -- destruct (Nat.leb_spec fu i).
             ++ destruct (Nat.ltb_spec i (fu + (length l - (fu - pos)))); [|lia]. cbn [andb]. rewrite nth_skipn_plus. do 2 f_equal. lia.
             ++ cbn [andb]. destruct (Nat.leb_spec pos i); [|lia]. destruct (Nat.ltb_spec i (pos + (fu - pos))); [|lia]. cbn [andb]. f_equal. apply nth_firstn_lt. lia.
          -- destruct (Nat.ltb_spec i (fu + (length l - (fu - pos)))); [lia|]. rewrite andb_false_r.
             destruct (Nat.ltb_spec i (pos + (fu - pos))); [lia|]. rewrite andb_false_r. apply C2. lia.
      + intros T i Hi. rewrite insert_at_length in Hi by exact Hp. rewrite D2, D1. unfold k in *.
        destruct (Nat.ltb_spec i (fu + (length l - (fu - pos)))); [lia|]. rewrite andb_false_r.
        destruct (Nat.ltb_spec i (pos + (fu - pos))); [lia|]. rewrite andb_false_r. destruct (C3 T) as (_ & _ & Q). apply Q. lia.
    - split; [unfold balanced in *; rewrite owned_with; exact B|]. split; [rewrite inl_with by lia; exact Li|]. split; [auto|]. split; [auto|discriminate].
  Qed.

  (** Arguments. *)
  Definition value_of (xs : list elt) (x : arg A) : elt := match x with Ext a => Val a | Own i => nth i xs Moved end.
  Definition valid_arg (xs : list elt) (x : arg A) : Prop := match x with Ext _ => True | Own i => i < length xs end.
  Definition left_by (xs : list elt) (x : arg A) : list elt :=
    match x with Ext _ => xs | Own i => if triv then xs else replace_at i Moved xs end.
  Lemma copy_arg_ok : forall v xs x, inv v xs -> valid_arg xs x -> copy_arg v x = Some (value_of xs x).
  Proof using.
    clear esize_pos. intros v xs x I H. destruct x as [a|i]; [reflexivity|]. cbn [copy_arg value_of valid_arg] in *.
    pose proof (v_sz _ _ _ _ I) as Ez. pose proof (v_holds _ _ _ _ I) as (_ & H2 & _).
    destruct (Nat.ltb_spec i (sz v)); [|lia]. cbn [assert_]. apply read_ok. now apply H2.
  Qed.
  Lemma replace_at_length : forall {X} i (x : X) (xs : list X), i < length xs -> length (replace_at i x xs) = length xs.
  Proof using. clear esize_pos. intros X i x xs H. unfold replace_at. rewrite app_length, firstn_length. cbn [length]. rewrite skipn_length. lia. Qed.
  Lemma nth_replace_at : forall {X} (d : X) i x (xs : list X) j, i < length xs -> nth j (replace_at i x xs) d = if j =? i then x else nth j xs d.
  Proof using.
    clear esize_pos. unfold replace_at. intros X d i x xs. revert i. induction xs as [|y xs IH]; intros i j H; [cbn in H; lia|].
    destruct i as [|i]; destruct j as [|j]; try reflexivity. cbn [firstn skipn app nth]. cbn [Nat.eqb]. rewrite <- IH by (cbn in H; lia). reflexivity.
  Qed.
  Lemma move_arg_ok : forall v xs x, inv v xs -> valid_arg xs x ->
    exists v1, move_arg triv v x = Some (value_of xs x, v1) /\ inv v1 (left_by xs x) /\ ptr v1 = ptr v /\ cap v1 = cap v /\ sz v1 = sz v /\ length (inl v1) = length (inl v).
  Proof using.
   clear esize_pos. intros v xs x I H. destruct x as [a|i]; [exists v; cbn; auto 10|]. cbn [move_arg value_of valid_arg left_by] in *.
    pose proof (v_sz _ _ _ _ I) as Ez. pose proof (v_holds _ _ _ _ I) as (H1 & H2 & H3).
    destruct (Nat.ltb_spec i (sz v)); [|lia]. cbn [assert_]. rewrite (take_ok triv _ _ _ (H2 i H)).
    destruct (Bool.bool_dec triv true) as [T|T]; [|apply not_true_is_false in T]; rewrite T in I |- *.
    - rewrite with_stor_same. exists v. auto 10.
    - set (st := upd (stor v) i (Live Moved)). assert (L : length st = length (stor v)) by (apply upd_length; lia).
      exists (with_stor v st). split; [reflexivity|]. destruct (with_stor_fields v st) as (F1 & F2 & F3 & F4). split; [|split; [exact F1|split; [exact F3|split; [exact F2|now apply with_stor_inl_length]]]].
      rewrite with_sz_stor. eapply inv_with; [exact I|exact L| |rewrite replace_at_length by exact H; exact Ez]. split; [rewrite replace_at_length by exact H; lia|]. split.
      + intros j Hj. rewrite replace_at_length in Hj by exact H. unfold st. rewrite cell_upd by lia. rewrite nth_replace_at by exact H. destruct (Nat.eqb_spec j i); [reflexivity|]. now apply H2.
      + intros _ j Hj. rewrite replace_at_length in Hj by exact H. unfold st. rewrite cell_upd by lia. destruct (Nat.eqb_spec j i); [lia|]. apply (H3 T). lia.
  Qed.

  Lemma insert_ok : forall w v xs pos x, inv v xs -> fits (2 * cap v + 2) -> pos <= length xs -> valid_arg xs x ->
    outcome w v 1 (insert triv alloc esize w v pos x) xs (fun ok => if ok then insert_at pos [value_of xs x] xs else xs).
  Proof using esize_pos.
    intros w v xs pos x I F Hp Ha. unfold insert. rewrite (inv_has_ptr triv alloc v xs I). cbn [assert_]. rewrite (copy_arg_ok v xs x I Ha).
    pose proof (v_sz _ _ _ _ I) as Ez. destruct (Nat.leb_spec pos (sz v)); [|lia]. cbn [assert_].
    apply (insert_vals_ok w v xs pos [value_of xs x] I); [cbn [length]; eapply fits_le; [|exact F]; lia|exact Hp|left; discriminate].
  Qed.
  Lemma insert_n_ok : forall w v xs pos n x, inv v xs -> fits (2 * cap v + n + 1) -> pos <= length xs -> valid_arg xs x ->
    1 <= n \/ pos = length xs \/ triv = true ->
    outcome w v n (insert_n triv alloc esize w v pos n x) xs (fun ok => if ok then insert_at pos (repeat (value_of xs x) n) xs else xs).
  Proof using esize_pos.
    intros w v xs pos n x I F Hp Ha Hn. unfold insert_n. rewrite (inv_has_ptr triv alloc v xs I). cbn [assert_]. rewrite (copy_arg_ok v xs x I Ha).
    pose proof (v_sz _ _ _ _ I) as Ez. destruct (Nat.leb_spec pos (sz v)); [|lia]. cbn [assert_].
    pose proof (insert_vals_ok w v xs pos (repeat (value_of xs x) n) I) as R. rewrite repeat_length in R. apply R; [exact F|exact Hp|].
    destruct Hn as [Hn|Hn]; [left; destruct n; [lia|discriminate]|right; exact Hn].
  Qed.
  Lemma insert_move_ok : forall w v xs pos x, inv v xs -> fits (2 * cap v + 2) -> pos <= length xs -> valid_arg xs x ->
    outcome w v 1 (insert_move triv alloc esize w v pos x) xs (fun ok => if ok then insert_at pos [value_of xs x] (left_by xs x) else left_by xs x).
  Proof using esize_pos.
    intros w v xs pos x I F Hp Ha. unfold insert_move. rewrite (inv_has_ptr triv alloc v xs I). cbn [assert_].
    destruct (move_arg_ok v xs x I Ha) as (v1 & E & I1 & P1 & C1 & Z1 & L1). rewrite E.
    pose proof (v_sz _ _ _ _ I) as Ez. pose proof (v_sz _ _ _ _ I1) as Ez1. destruct (Nat.leb_spec pos (sz v1)); [|lia]. cbn [assert_].
    pose proof (insert_vals_ok w v1 (left_by xs x) pos [value_of xs x] I1) as R. rewrite C1 in R. cbn [length] in R. replace (2 * cap v + 1 + 1) with (2 * cap v + 2) in R by lia.
    specialize (R F ltac:(lia) ltac:(left; discriminate)). unfold outcome in *. rewrite <- Ez1, Z1, Ez, C1, P1 in R.
    assert (Ow : owned v1 = owned v) by (unfold owned; now rewrite P1). unfold balanced in *. rewrite Ow, L1 in R. exact R.
  Qed.
  Lemma insert_range_ok : forall w v xs pos null_range l, inv v xs -> fits (2 * cap v + length l + 1) -> pos <= length xs ->
    (null_range = true -> ptr v <> Null) ->
    outcome w v (length l) (insert_range triv alloc esize w v pos null_range l) xs (fun ok => if ok then insert_at pos (map Val l) xs else xs).
  Proof using esize_pos.
    intros w v xs pos nr l I F Hp Hnr. unfold insert_range. rewrite (inv_has_ptr triv alloc v xs I). cbn [assert_].
    assert (En : negb (nr && null v) = true). { unfold null. destruct nr; [|reflexivity]. destruct (ptr v); try reflexivity. now elim Hnr. }
    rewrite En. cbn [assert_]. pose proof (v_sz _ _ _ _ I) as Ez. destruct (Nat.leb_spec pos (sz v)); [|lia]. cbn [assert_].
    destruct l as [|a l].
    - exists true, v, w. split; [reflexivity|]. split; [unfold insert_at; cbn [map app]; rewrite firstn_skipn; exact I|]. repeat split; auto. discriminate.
    - pose proof (insert_vals_ok w v xs pos (map Val (a :: l)) I) as R. rewrite map_length in R. apply R; [exact F|exact Hp|left; discriminate].
  Qed.
  Lemma emplace_ok : forall w v xs pos a, inv v xs -> fits (2 * cap v + 2) -> pos <= length xs ->
    outcome w v 1 (emplace triv alloc esize w v pos (Ext a)) xs (fun ok => if ok then insert_at pos [Val a] xs else xs).
  Proof using esize_pos.
    intros w v xs pos a I F Hp. assert (F' : fits (2 * cap v + length [Val a] + 1)) by (eapply fits_le; [|exact F]; cbn; lia).
    pose proof (insert_vals_ok w v xs pos [Val a] I F' Hp ltac:(left; discriminate)) as (ok & v' & w' & E & R).
    exists ok, v', w'. split; [|exact R]. unfold emplace. rewrite (inv_has_ptr triv alloc v xs I). cbn [assert_]. rewrite <- E. unfold insert_vals. cbn [length].
    destruct (make_room_ok w v xs pos 1 I F' Hp ltac:(left; lia)) as (ok1 & v1 & w1 & I1 & B & Li & G2 & G4 & G3 & Rm).
    destruct ok1; [|rewrite Rm; reflexivity].
    destruct Rm as (st & fu & Em & Hfu & Tfu & L & Hl & C1 & C2 & C3). rewrite Em. cbn [negb].
    assert (Hc : fu = pos \/ fu = pos + 1) by lia. destruct Hc as [Hc|Hc]; subst fu.
    - rewrite Nat.sub_diag, Nat.eqb_refl. cbn [firstn skipn assign_vals construct_vals]. destruct (construct triv _ pos (Val a)); reflexivity.
    - replace (pos + 1 - pos) with 1 by lia. destruct (Nat.eqb_spec pos (pos + 1)); [lia|]. cbn [firstn skipn assign_vals construct_vals].
      destruct (assign triv _ pos (Val a)); reflexivity.
  Qed.
  Lemma resized_shrink : forall {X} n (x : X) (xs : list X), n <= length xs -> resized n x xs = erase_at n (length xs) xs.
  Proof using. clear esize_pos. intros X n x xs H. unfold resized, erase_at. replace (n - length xs) with 0 by lia. cbn [repeat]. rewrite skipn_all. reflexivity. Qed.
  Lemma resized_grow : forall {X} n (x : X) (xs : list X), length xs <= n -> resized n x xs = insert_at (length xs) (repeat x (n - length xs)) xs.
  Proof using. clear esize_pos. intros X n x xs H. unfold resized, insert_at. rewrite skipn_all, app_nil_r, firstn_all2, firstn_all by lia. reflexivity. Qed.
  Lemma resize_ok : forall w v xs n x, inv v xs -> fits (2 * cap v + n + 1) -> valid_arg xs x ->
    outcome w v (n - length xs) (resize triv alloc esize w v n x) xs (fun ok => if ok then resized n (value_of xs x) xs else xs).
  Proof using esize_pos.
    intros w v xs n x I F Ha. pose proof (v_sz _ _ _ _ I) as Ez. unfold resize. destruct (Nat.eqb_spec (sz v) n) as [En|En].
    - exists true, v, w. split; [reflexivity|]. split; [|repeat split; auto; discriminate]. rewrite resized_shrink by lia. replace n with (length xs) by lia.
      unfold erase_at. rewrite firstn_skipn. exact I.
    - destruct (Nat.ltb_spec n (sz v)) as [G|G].
      + destruct (erase_ok triv alloc v xs n (length xs) I ltac:(lia) ltac:(lia)) as (v' & E & I' & O & L & C). rewrite Ez, E.
        pose proof (v_sz _ _ _ _ I') as Ez'. rewrite erase_at_length in Ez' by lia. destruct (Nat.eqb_spec (sz v') (length xs)); [lia|]. cbn [negb].
        exists true, v', w. split; [reflexivity|]. split; [rewrite resized_shrink by lia; exact I'|]. split; [unfold balanced; now rewrite O|]. split; [exact L|]. repeat split; auto; discriminate.
      + destruct (insert_n_ok w v xs (length xs) (n - length xs) x I) as (ok & v' & w' & E & I' & B & L & G1 & G2 & G3); try lia.
        { eapply fits_le; [|exact F]. lia. }
        { exact Ha. }
        rewrite Ez, E. pose proof (v_sz _ _ _ _ I') as Ez'. exists ok, v', w'. split.
        * destruct ok; [rewrite insert_at_length, repeat_length in Ez' by lia|]; destruct (Nat.eqb_spec (sz v') (length xs)); try lia; reflexivity.
        * split; [|auto 10]. destruct ok; [rewrite resized_grow by lia|]; exact I'.
  Qed.
  Lemma reserve_ok : forall w v xs n, inv v xs -> fits (2 * cap v + n + 1) ->
    outcome w v (n - length xs) (reserve triv alloc esize w v n) xs (fun _ => xs) /\
    forall ok v' w', reserve triv alloc esize w v n = Some (ok, v', w') -> ok = true ->
      n <= cap v \/ sz v + (n - cap v) <= cap v /\ ptr v <> Null \/ n <= cap v'.
  Proof using esize_pos.
    intros w v xs n I F. pose proof (v_sz _ _ _ _ I) as Ez. pose proof (inv_le triv alloc v xs I) as Hle. unfold reserve. destruct (Nat.leb_spec n (cap v)) as [G|G].
    - split; [|intros; left; exact G]. exists true, v, w. split; [reflexivity|]. split; [exact I|]. repeat split; auto; discriminate.
    - destruct (grow_by_ok triv alloc esize esize_pos w v xs (n - cap v) I) as (ok & v' & w' & E & I' & B & L & G1 & G3 & G2 & G4).
      { eapply fits_le; [|exact F]. lia. }
      rewrite E. split.
      + exists ok, v', w'. split; [reflexivity|]. split; [exact I'|]. split; [exact B|]. split; [exact L|]. split; [exact G2|]. split; [intros Q1 Q2; apply G4; [lia|exact Q2]|].
        intros Q. destruct (G3 Q) as [Q'|Q']; [left; lia|right; exact Q'].
      + intros ok0 v0 w0 E0 ->. assert (ok = true /\ v' = v0) by (split; congruence). destruct H as [-> ->]. specialize (G1 eq_refl).
        destruct (Nat.le_gt_cases n (cap v0)) as [Q|Q]; [right; right; exact Q|]. right. left.
        (* the capacity did not grow *)
        destruct (ptr v) eqn:Ep.
        * destruct (inv_null triv alloc v xs I Ep) as (-> & Z0 & C0). cbn [length] in *. lia.
        * split; [|discriminate]. destruct (Nat.le_gt_cases (sz v + (n - cap v)) (cap v)) as [G5|G5]; [exact G5|]. exfalso.
          unfold grow_by in E. destruct (in_range _); [|discriminate E]. cbn [assert_] in E. destruct alloc; cbn [negb] in E.
          -- unfold null in E. rewrite Ep in E. destruct (Nat.leb_spec (sz v + (n - cap v)) (cap v)); [lia|].
             pose proof (next_capacity_bounds (cap v) (n - cap v)) as Bc. set (nc := next_capacity (cap v) (n - cap v)) in *. clearbody nc.
             assert (cap v0 = nc); [|lia].
             destruct (triv && negb (is_sbo v)); [discriminate E|]. destruct (ask w) as [b w1]. destruct b; cbn [negb] in E; [|congruence].
             destruct (if triv then _ else _) as [[old new]|] in E; [|discriminate E]. destruct (if is_sbo v then _ else _) in E; [|discriminate E].
             destruct (in_range nc); [|discriminate E]. cbn [assert_] in E. inversion E. reflexivity.
          -- inversion E as [[Q1 Q2 Q3]]. lia.
        * split; [|discriminate]. destruct (Nat.le_gt_cases (sz v + (n - cap v)) (cap v)) as [G5|G5]; [exact G5|]. exfalso.
          unfold grow_by in E. destruct (in_range _); [|discriminate E]. cbn [assert_] in E. destruct alloc eqn:Ea; cbn [negb] in E.
          -- unfold null in E. rewrite Ep in E. destruct (Nat.leb_spec (sz v + (n - cap v)) (cap v)); [lia|].
             pose proof (next_capacity_bounds (cap v) (n - cap v)) as Bc. set (nc := next_capacity (cap v) (n - cap v)) in *. clearbody nc.
             assert (cap v0 = nc); [|lia].
             assert (Mo : forall w0, (let '(ok, w1) := ask w0 in
               if negb ok then Some (false, v, w1)
               else
                 ' (old, new) <- (if triv then new <- copy_slots (fresh_slots esize nc) 0 (stor v) 0 (sz v) ;; Some (stor v, new)
                                  else relocate triv (stor v) 0 (fresh_slots esize nc) 0 (sz v)) ;;
                 let v1 := with_stor v old in
                 w2 <- (if is_sbo v then Some w1 else release w1 v) ;;
                 assert_ (in_range nc) (Some (true, Vec Heap (sz v) nc false (inl v1) new, more w2 1))) = Some (true, v0, w') -> cap v0 = nc).
             { intros wx Ex. destruct (ask wx) as [b w1]. destruct b; cbn [negb] in Ex; [|congruence].
               destruct (if triv then _ else _) as [[old new]|] in Ex; [|discriminate Ex]. destruct (if is_sbo v then _ else _) in Ex; [|discriminate Ex].
               destruct (in_range nc); [|discriminate Ex]. cbn [assert_] in Ex. inversion Ex. reflexivity. }
             destruct (triv && negb (is_sbo v)); [|now apply Mo in E]. destruct (ask w) as [b w1]. destruct b; [|now apply Mo in E].
             destruct (in_range nc); [|discriminate E]. cbn [assert_] in E. inversion E. reflexivity.
          -- now elim (v_alloc _ _ _ _ I eq_refl).
  Qed.
End Ops.
