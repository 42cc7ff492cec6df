(** The operations of the small vector on well-formed vectors. *)
From Coq Require Import Arith NArith ZArith List Bool Lia ZifyBool ZifyNat.
From Verif Require Import Base SvModel SvSpec SvCells.
Import ListNotations.

Lemma nth_firstn_lt : forall {X} (d : X) n l i, i < n -> nth i (firstn n l) d = nth i l d.
Proof.
  induction n as [|n IH]; intros l i H; [lia|]. destruct l as [|x l]; [reflexivity|]. destruct i as [|i]; [reflexivity|].
  cbn [firstn nth]. apply IH. lia.
Qed.
Lemma nth_skipn_plus : forall {X} (d : X) n l i, nth i (skipn n l) d = nth (n + i) l d.
Proof. induction n as [|n IH]; intros l i; [reflexivity|]. destruct l as [|x l]; [destruct i; reflexivity|]. cbn [skipn Nat.add nth]. apply IH. Qed.
Lemma nth_insert_at : forall {X} (d : X) pos l xs i, pos <= length xs ->
  nth i (insert_at pos l xs) d = if i <? pos then nth i xs d else if i <? pos + length l then nth (i - pos) l d else nth (i - length l) xs d.
Proof.
  intros X d pos l xs i H. unfold insert_at. assert (L : length (firstn pos xs) = pos) by (rewrite firstn_length; lia).
  destruct (Nat.ltb_spec i pos) as [G|G]; [rewrite app_nth1 by lia; now apply nth_firstn_lt|]. rewrite app_nth2 by lia. rewrite L.
  destruct (Nat.ltb_spec i (pos + length l)) as [G'|G']; [now rewrite app_nth1 by lia|]. rewrite app_nth2 by lia.
  rewrite nth_skipn_plus. f_equal. lia.
Qed.
Lemma insert_at_length : forall {X} pos (l xs : list X), pos <= length xs -> length (insert_at pos l xs) = length xs + length l.
Proof. intros X pos l xs H. unfold insert_at. rewrite !app_length, firstn_length, skipn_length. lia. Qed.
Lemma nth_erase_at : forall {X} (d : X) f l xs i, f <= l -> l <= length xs ->
  nth i (erase_at f l xs) d = if i <? f then nth i xs d else nth (i - f + l) xs d.
Proof.
  intros X d f l xs i H1 H2. unfold erase_at. assert (L : length (firstn f xs) = f) by (rewrite firstn_length; lia).
  destruct (Nat.ltb_spec i f) as [G|G]; [rewrite app_nth1 by lia; now apply nth_firstn_lt|]. rewrite app_nth2 by lia. rewrite L, nth_skipn_plus. f_equal. lia.
Qed.
Lemma erase_at_length : forall {X} f l (xs : list X), f <= l -> l <= length xs -> length (erase_at f l xs) = length xs - (l - f).
Proof. intros X f l xs H1 H2. unfold erase_at. rewrite app_length, firstn_length, skipn_length. lia. Qed.

Section Inv.
  Context {A : Type}.
  Variables triv alloc : bool.
  Variable esize : N.
  Hypothesis esize_pos : (1 <= esize)%N.
  Notation slot := (slot A).
  Notation elt := (elt A).
  Notation vec := (vec A).

  (** Exactly the first slots hold the elements; nothing else lives in the storage (of a trivially copyable type:
      the rest does not matter). *)
  Definition holds (st : list slot) (xs : list elt) : Prop :=
    length xs <= length st /\ (forall i, i < length xs -> cell st i = Live (nth i xs Moved)) /\
    (triv = false -> forall i, length xs <= i -> cell st i = Dead).

  Record inv (v : vec) (xs : list elt) : Prop := {
    v_sz : sz v = length xs;
    v_holds : holds (stor v) xs;
    v_cap : cap v = length (stor v);
    v_sbo : is_sbo v = match ptr v with Inline => true | _ => false end;
    v_inl : triv = false -> ptr v <> Inline -> forall i, cell (inl v) i = Dead;
    v_alloc : alloc = false -> ptr v <> Heap }.

  Definition owned (v : vec) : Z := match ptr v with Heap => 1 | _ => 0 end.
  (** All sizes in bytes are far from wrapping around. *)
  Definition fits (n : nat) : Prop := (esize * N.of_nat n < 2 ^ 63)%N.

  Lemma fits_le : forall n m, n <= m -> fits m -> fits n.
  Proof using. clear esize_pos. intros n m H F. unfold fits in *. nia. Qed.
  Lemma fits_range : forall n, fits n -> in_range n = true.
  Proof using esize_pos. intros n F. unfold fits in F. unfold in_range, max_count. apply N.leb_le. nia. Qed.
  Lemma fresh_length : forall n, fits n -> length (fresh_slots (A:=A) esize n) = n.
  Proof using esize_pos.
    intros n F. unfold fits in F. unfold fresh_slots. rewrite repeat_length. unfold w64.
    rewrite N.mod_small by lia. rewrite N.mul_comm, N.div_mul by lia. apply Nat2N.id.
  Qed.
  Lemma fresh_cell : forall n i, cell (fresh_slots (A:=A) esize n) i = Dead.
  Proof using. clear esize_pos. intros. apply cell_repeat. Qed.

  Lemma inv_null : forall v xs, inv v xs -> ptr v = Null -> xs = [] /\ sz v = 0 /\ cap v = 0.
  Proof using. clear esize_pos.
    intros v xs I E. pose proof (v_cap _ _ I) as C. pose proof (v_holds _ _ I) as (H & _). pose proof (v_sz _ _ I) as Z0.
    unfold stor in *. rewrite E in *. cbn in H, C. destruct xs; [auto|cbn in H; lia].
  Qed.
  Lemma inv_has_ptr : forall v xs, inv v xs -> has_ptr v = true.
  Proof using. clear esize_pos.
    intros v xs I. unfold has_ptr, null. destruct (ptr v) eqn:E; try reflexivity.
    destruct (inv_null v xs I E) as (_ & -> & ->). reflexivity.
  Qed.
  Lemma inv_le : forall v xs, inv v xs -> sz v <= cap v.
  Proof using. clear esize_pos. intros v xs I. rewrite (v_sz _ _ I), (v_cap _ _ I). exact (proj1 (v_holds _ _ I)). Qed.

  Lemma stor_with : forall (v : vec) st, ptr v <> Null -> stor (with_stor v st) = st.
  Proof using. clear esize_pos. intros v st H. unfold stor, with_stor. destruct (ptr v) eqn:E; cbn [ptr]; rewrite ?E; try congruence; reflexivity. Qed.
  Lemma with_stor_fields : forall (v : vec) st, ptr (with_stor v st) = ptr v /\ sz (with_stor v st) = sz v /\ cap (with_stor v st) = cap v /\ is_sbo (with_stor v st) = is_sbo v.
  Proof using. clear esize_pos. intros v st. unfold with_stor. destruct (ptr v) eqn:E; cbn [ptr sz cap is_sbo]; auto. Qed.
  Lemma with_stor_inl : forall (v : vec) st, ptr v <> Inline -> inl (with_stor v st) = inl v.
  Proof using. clear esize_pos. intros v st H. unfold with_stor. destruct (ptr v); try reflexivity. congruence. Qed.
  Lemma with_stor_inl_length : forall (v : vec) st, length st = length (stor v) -> length (inl (with_stor v st)) = length (inl v).
  Proof using. clear esize_pos. intros v st H. unfold with_stor, stor in *. destruct (ptr v); cbn [inl]; auto. Qed.

  (** New contents in the same storage. *)
  Lemma inv_with : forall v xs st n ys, inv v xs -> length st = length (stor v) -> holds st ys -> n = length ys ->
    inv (with_sz (with_stor v st) n) ys.
  Proof using. clear esize_pos.
    intros v xs st n ys I L H En. destruct (with_stor_fields v st) as (F1 & F2 & F3 & F4).
    assert (Es : stor (with_stor v st) = st).
    { destruct (ptr v) eqn:E; try (apply stor_with; congruence). unfold stor, with_stor in *. rewrite E in *. rewrite E. destruct st; [reflexivity|discriminate L]. }
    assert (Es' : stor (with_sz (with_stor v st) n) = st) by (unfold with_sz, stor in *; cbn [ptr inl blk]; exact Es).
    constructor.
    - exact En.
    - now rewrite Es'.
    - rewrite Es', L. cbn [with_sz cap]. rewrite F3. exact (v_cap _ _ I).
    - cbn [with_sz is_sbo ptr]. rewrite F1, F4. exact (v_sbo _ _ I).
    - cbn [with_sz ptr inl]. rewrite F1. intros T Hp. rewrite with_stor_inl by exact Hp. exact (v_inl _ _ I T Hp).
    - cbn [with_sz ptr]. rewrite F1. exact (v_alloc _ _ I).
  Qed.
  Lemma owned_with : forall (v : vec) st n, owned (with_sz (with_stor v st) n) = owned v.
  Proof using. clear esize_pos. intros v st n. unfold owned, with_sz. cbn [ptr]. now rewrite (proj1 (with_stor_fields v st)). Qed.
  Lemma inl_with : forall (v : vec) st n, length st = length (stor v) -> length (inl (with_sz (with_stor v st) n)) = length (inl v).
  Proof using. clear esize_pos. intros v st n H. cbn [with_sz inl]. now apply with_stor_inl_length. Qed.
  Lemma with_sz_stor : forall (v : vec) st, with_stor v st = with_sz (with_stor v st) (sz v).
  Proof using. clear esize_pos. intros v st. rewrite <- (proj1 (proj2 (with_stor_fields v st))). destruct (with_stor v st). reflexivity. Qed.
  Lemma with_stor_same : forall (v : vec), with_stor v (stor v) = v.
  Proof using. clear esize_pos. intros v. unfold with_stor, stor. destruct (ptr v) eqn:E; destruct v; cbn in *; subst; reflexivity. Qed.

  (** ** Shrinking *)
  Lemma pop_back_ok : forall v xs, inv v xs -> xs <> [] ->
    exists v', pop_back triv v = Some v' /\ inv v' (removelast xs) /\ owned v' = owned v /\ length (inl v') = length (inl v) /\ cap v' = cap v.
  Proof using. clear esize_pos.
    intros v xs I Hn. pose proof (v_sz _ _ I) as Ez. pose proof (v_holds _ _ I) as (H1 & H2 & H3).
    assert (Hl : 1 <= length xs) by (destruct xs; [congruence|cbn; lia]).
    assert (Np : null v = false).
    { unfold null. destruct (ptr v) eqn:E; try reflexivity. now destruct (inv_null v xs I E). }
    assert (Er : removelast xs = firstn (length xs - 1) xs) by (rewrite removelast_firstn_len; f_equal; lia).
    assert (Lr : length (removelast xs) = length xs - 1) by (rewrite Er, firstn_length; lia).
    unfold pop_back. rewrite Np. cbn [negb assert_]. destruct (Nat.ltb_spec 0 (sz v)); [|lia]. cbn [assert_].
    assert (Hd : exists st, destruct triv (stor v) (sz v - 1) = Some st /\ length st = length (stor v) /\
      forall j, cell st j = if negb triv && (j =? sz v - 1) then Dead else cell (stor v) j).
    { destruct (Bool.bool_dec triv true) as [T|T].
      - exists (stor v). split; [unfold destruct; now rewrite T|]. split; [reflexivity|]. intros j. now rewrite T.
      - apply not_true_is_false in T. rewrite destruct_ok; [|exact T|rewrite H2 by lia; discriminate].
        eexists. split; [reflexivity|]. split; [apply upd_length; lia|]. intros j. rewrite T. cbn [negb andb]. apply cell_upd. lia. }
    destruct Hd as (st & Ed & Ls & Cs). rewrite Ed. eexists. split; [reflexivity|]. split; [|split; [apply owned_with|split; [now apply inl_with|]]].
    - eapply inv_with; [exact I|exact Ls| |lia]. split; [lia|]. split.
      + intros i Hi. rewrite Cs. destruct (Nat.eqb_spec i (sz v - 1)); [lia|]. rewrite andb_false_r, H2 by lia.
        rewrite Er. f_equal. symmetry. apply nth_firstn_lt. lia.
      + intros T i Hi. rewrite Cs, T. cbn [negb andb]. destruct (Nat.eqb_spec i (sz v - 1)); [reflexivity|]. apply (H3 T). lia.
    - cbn [with_sz cap]. apply with_stor_fields.
  Qed.
  Lemma clear_ok : forall v xs, inv v xs ->
    exists v', clear triv v = Some v' /\ inv v' [] /\ owned v' = owned v /\ length (inl v') = length (inl v) /\ cap v' = cap v.
  Proof using. clear esize_pos.
    intros v xs I. pose proof (v_sz _ _ I) as Ez. pose proof (v_holds _ _ I) as (H1 & H2 & H3).
    unfold clear. rewrite (inv_has_ptr v xs I). cbn [assert_].
    assert (Hd : exists st, destruct_down triv (stor v) (sz v) = Some st /\ length st = length (stor v) /\ (triv = false -> forall j, cell st j = Dead)).
    { destruct (Bool.bool_dec triv true) as [T|T].
      - exists (stor v). split; [now apply destruct_down_triv|]. split; [reflexivity|]. congruence.
      - apply not_true_is_false in T. destruct (destruct_down_ok triv (sz v) (stor v) T) as (st & E & L & C).
        + intros j Hj. rewrite H2 by lia. discriminate.
        + exists st. split; [exact E|]. split; [exact L|]. intros _ j. rewrite C. destruct (Nat.ltb_spec j (sz v)); [reflexivity|]. apply (H3 T). lia. }
    destruct Hd as (st & Ed & Ls & Cs). rewrite Ed. eexists. split; [reflexivity|]. split; [|split; [apply owned_with|split; [now apply inl_with|]]].
    - eapply inv_with; [exact I|exact Ls| |reflexivity]. split; [cbn; lia|]. split; [cbn; intros; lia|]. intros T i _. now apply Cs.
    - cbn [with_sz cap]. apply with_stor_fields.
  Qed.
  Lemma erase_ok : forall v xs f l, inv v xs -> f <= l -> l <= length xs ->
    exists v', erase triv v f l = Some v' /\ inv v' (erase_at f l xs) /\ owned v' = owned v /\ length (inl v') = length (inl v) /\ cap v' = cap v.
  Proof using. clear esize_pos.
    intros v xs f l I Hf Hl. pose proof (v_sz _ _ I) as Ez. pose proof (v_holds _ _ I) as (H1 & H2 & H3).
    unfold erase. rewrite (inv_has_ptr v xs I). cbn [assert_].
    assert (E1 : (f <=? sz v) && (l <=? sz v) = true) by lia. rewrite E1. destruct (Nat.leb_spec f l); [|lia]. cbn [assert_].
    destruct (Nat.eqb_spec f l) as [Efl|Nfl].
    - exists v. split; [reflexivity|]. split; [|auto]. subst l. unfold erase_at. rewrite firstn_skipn. exact I.
    - set (n := l - f).
      assert (Hd : exists st, (if triv then (if l =? sz v then Some (stor v) else copy_slots (stor v) f (stor v) l (sz v - l))
              else
                st1 <- (if l =? sz v then Some (stor v) else move_down triv (sz v - l) (stor v) f l) ;;
                destruct_n triv st1 (sz v - n) n) = Some st /\ length st = length (stor v) /\
          (forall j, j < sz v - n -> cell st j = cell (stor v) (if j <? f then j else j - f + l)) /\
          (triv = false -> forall j, sz v - n <= j -> cell st j = Dead)).
      { destruct (Bool.bool_dec triv true) as [T|T]; [|apply not_true_is_false in T].
        - assert (Hc : exists st, (if l =? sz v then Some (stor v) else copy_slots (stor v) f (stor v) l (sz v - l)) = Some st /\ length st = length (stor v) /\
            (forall j, j < sz v - n -> cell st j = cell (stor v) (if j <? f then j else j - f + l))).
          { destruct (Nat.eqb_spec l (sz v)) as [El|Nl].
            - exists (stor v). split; [reflexivity|]. split; [reflexivity|]. intros j Hj. unfold n in Hj. destruct (Nat.ltb_spec j f); [reflexivity|lia].
            - destruct (copy_slots_ok (stor v) f (stor v) l (sz v - l)) as (st & E & L & C); [lia|lia|].
              exists st. split; [exact E|]. split; [exact L|]. intros j Hj. unfold n in Hj. rewrite C.
              destruct (Nat.leb_spec f j), (Nat.ltb_spec j (f + (sz v - l))), (Nat.ltb_spec j f); cbn [andb]; try lia; reflexivity. }
          destruct Hc as (st & E & L & C). exists st. split; [now rewrite T|]. split; [exact L|]. split; [exact C|congruence].
        - assert (Hc : exists st1, (if l =? sz v then Some (stor v) else move_down triv (sz v - l) (stor v) f l) = Some st1 /\ length st1 = length (stor v) /\
            (forall j, j < sz v - n -> cell st1 j = cell (stor v) (if j <? f then j else j - f + l)) /\
            (forall j, sz v - n <= j < sz v -> cell st1 j <> Dead) /\ (forall j, sz v <= j -> cell st1 j = Dead)).
          { destruct (Nat.eqb_spec l (sz v)) as [El|Nl].
            - exists (stor v). split; [reflexivity|]. split; [reflexivity|]. split; [|split].
              + intros j Hj. unfold n in Hj. destruct (Nat.ltb_spec j f); [reflexivity|lia].
              + intros j Hj. rewrite H2 by lia. discriminate.
              + intros j Hj. apply (H3 T). lia.
            - destruct (move_down_ok triv (sz v - l) (stor v) f l T ltac:(lia)) as (st & E & L & Ca & Cb & Cc).
              + intros k Hk. rewrite H2 by lia. discriminate.
              + exists st. split; [exact E|]. split; [exact L|]. unfold n. split; [|split].
                * intros j Hj. destruct (Nat.ltb_spec j f); [apply Cc; lia|apply Ca; lia].
                * intros j Hj. apply Cb. lia.
                * intros j Hj. rewrite Cc by lia. apply (H3 T). lia. }
          destruct Hc as (st1 & E & L & Ca & Cb & Cc).
          destruct (destruct_n_ok triv n st1 (sz v - n) T) as (st & E2 & L2 & C2); [intros j Hj; apply Cb; unfold n in *; lia|].
          exists st. split; [rewrite T in E, E2 |- *; rewrite E; exact E2|]. split; [congruence|]. split.
          + intros j Hj. rewrite C2. destruct (Nat.leb_spec (sz v - n) j); [lia|]. cbn [andb]. now apply Ca.
          + intros _ j Hj. rewrite C2. destruct (Nat.leb_spec (sz v - n) j); [|lia]. cbn [andb].
            destruct (Nat.ltb_spec j (sz v - n + n)); [reflexivity|]. apply Cc. unfold n in *. lia. }
      destruct Hd as (st & E & L & Ca & Cb). rewrite E. eexists. split; [reflexivity|]. split; [|split; [apply owned_with|split; [now apply inl_with|cbn [with_sz cap]; apply with_stor_fields]]].
      eapply inv_with; [exact I|exact L| |rewrite erase_at_length by lia; unfold n; lia].
      assert (Le : length (erase_at f l xs) = sz v - n) by (rewrite erase_at_length by lia; unfold n; lia).
      split; [lia|]. split.
      + intros i Hi. rewrite Ca by lia. rewrite nth_erase_at by lia. destruct (Nat.ltb_spec i f); apply H2; unfold n in *; lia.
      + intros T i Hi. apply (Cb T). lia.
  Qed.

  (** ** Growing *)
  Lemma next_capacity_bounds : forall c n, c + n <= next_capacity c n <= 2 * c + n + 1.
  Proof using. clear esize_pos.
    intros c n. unfold next_capacity. pose proof (Nat.div_le_upper_bound c 2 c ltac:(lia) ltac:(lia)).
    destruct (Nat.ltb_spec (c + c / 2 + 1) (c + n)); lia.
  Qed.

  Definition balanced (w : world) (v : vec) (w' : world) (v' : vec) : Prop := (blocks w' - owned v' = blocks w - owned v)%Z.

  (** The new block holds the old elements. *)
  Lemma moved_inv : forall v xs new_capacity new inl', inv v xs -> alloc = true -> length new = new_capacity -> length xs <= new_capacity ->
    (forall i, i < length xs -> cell new i = cell (stor v) i) -> (triv = false -> forall i, length xs <= i -> cell new i = Dead) ->
    (triv = false -> forall i, cell inl' i = Dead) -> inv (Vec Heap (sz v) new_capacity false inl' new) xs.
  Proof using. clear esize_pos.
    intros v xs nc new inl' I Ea L1 L2 C1 C2 Ci. pose proof (v_holds _ _ I) as (H1 & H2 & H3). constructor; cbn [sz cap is_sbo ptr stor inl blk].
    - exact (v_sz _ _ I).
    - split; [lia|]. split; [|exact C2]. intros i Hi. rewrite C1 by exact Hi. now apply H2.
    - now rewrite L1.
    - reflexivity.
    - intros T _. now apply Ci.
    - congruence.
  Qed.

  Lemma grow_by_ok : forall w v xs n, inv v xs -> fits (2 * cap v + n + 1) ->
    exists ok v' w', grow_by triv alloc esize w v n = Some (ok, v', w') /\ inv v' xs /\ balanced w v w' v' /\
      length (inl v') = length (inl v) /\ (ok = true -> length xs + n <= cap v') /\ (ok = false -> cap v < length xs + n \/ ptr v = Null) /\
      (alloc = true -> hd_error (oracle w) = Some true -> ok = true) /\ (length xs + n <= cap v -> ptr v <> Null -> ok = true /\ v' = v /\ w' = w).
  Proof using esize_pos.
    intros w v xs n I F. pose proof (v_sz _ _ I) as Ez. pose proof (inv_le v xs I) as Hle. pose proof (v_holds _ _ I) as (H1 & H2 & H3).
    unfold grow_by. rewrite (fits_range (sz v + n)) by (eapply fits_le; [|exact F]; lia). cbn [assert_].
    destruct alloc eqn:Ea; cbn [negb].
    2:{ exists (sz v + n <=? cap v), v, w. split; [reflexivity|]. split; [exact I|]. split; [reflexivity|]. split; [reflexivity|].
        split; [intros Q; lia|]. split; [intros Q; left; lia|]. split; [discriminate|]. intros Q _. split; [lia|auto]. }
    unfold null at 1. destruct (ptr v) eqn:Ep.
    - (* no storage yet *)
      destruct (inv_null v xs I Ep) as (-> & Z0 & C0). rewrite Z0, C0. cbn [Nat.eqb andb assert_]. unfold become_new.
      assert (Fn : fits n) by (eapply fits_le; [|exact F]; lia).
      destruct (ask w) as [b w1] eqn:Eq. unfold ask in Eq. destruct b.
      + rewrite (fits_range n Fn). cbn [assert_ null ptr negb]. eexists true, _, _. split; [reflexivity|]. split.
        * constructor; cbn [sz cap is_sbo ptr stor inl blk length].
          -- reflexivity.
          -- split; [lia|]. split; [intros i Hi; cbn in Hi; lia|]. intros _ i _. apply fresh_cell.
          -- rewrite fresh_length by exact Fn. reflexivity.
          -- reflexivity.
          -- intros T _. apply (v_inl _ _ I T). congruence.
          -- congruence.
        * split; [unfold balanced, owned; rewrite Ep; cbn [ptr more blocks]; destruct (oracle w) as [|b r]; inversion Eq; subst; cbn [blocks]; lia|].
          split; [reflexivity|]. split; [cbn; lia|]. split; [discriminate|]. split; [auto|]. intros _ Q. congruence.
      + cbn [null ptr negb]. eexists false, _, _. split; [reflexivity|]. split.
        * constructor; cbn [sz cap is_sbo ptr stor inl blk length].
          -- reflexivity.
          -- split; [lia|]. split; [intros i Hi; cbn in Hi; lia|]. intros _ [|i] _; reflexivity.
          -- reflexivity.
          -- reflexivity.
          -- intros T _. apply (v_inl _ _ I T). congruence.
          -- congruence.
        * split; [unfold balanced, owned; rewrite Ep; cbn [ptr]; destruct (oracle w) as [|b r]; inversion Eq; subst; cbn [blocks]; lia|].
          split; [reflexivity|]. split; [discriminate|]. split; [auto|]. split; [|intros _ Q; congruence].
          intros _ Q. destruct (oracle w) as [|b r]; [discriminate Q|]. cbn in Q. congruence.
    - (* inline *) all: cbn [negb].
      destruct (Nat.leb_spec (sz v + n) (cap v)) as [G|G].
      { exists true, v, w. split; [reflexivity|]. split; [exact I|]. split; [reflexivity|]. split; [reflexivity|]. split; [lia|]. split; [discriminate|]. auto. }
      pose proof (v_sbo _ _ I) as Sb. rewrite Ep in Sb. rewrite Sb. cbn [negb]. rewrite andb_false_r.
      pose proof (next_capacity_bounds (cap v) n) as Bc. set (nc := next_capacity (cap v) n) in *. clearbody nc.
      assert (Fn : fits nc) by (eapply fits_le; [|exact F]; lia).
      destruct (ask w) as [b w1] eqn:Eq. unfold ask in Eq. destruct b; cbn [negb].
      + assert (Hm : exists old new, (if triv then new <- copy_slots (fresh_slots esize nc) 0 (stor v) 0 (sz v) ;; Some (stor v, new)
                            else relocate triv (stor v) 0 (fresh_slots esize nc) 0 (sz v)) = Some (old, new) /\ length old = length (stor v) /\ length new = nc /\
                 (forall i, i < length xs -> cell new i = cell (stor v) i) /\ (triv = false -> forall i, length xs <= i -> cell new i = Dead) /\
                 (triv = false -> forall i, cell old i = Dead)).
        { pose proof (v_cap _ _ I) as Ec. destruct (Bool.bool_dec triv true) as [T|T]; [|apply not_true_is_false in T].
          - destruct (copy_slots_ok (fresh_slots esize nc) 0 (stor v) 0 (sz v)) as (st & E & L & C); [rewrite fresh_length by exact Fn; lia|lia|].
            exists (stor v), st. rewrite T, E. split; [reflexivity|]. split; [reflexivity|]. rewrite fresh_length in L by exact Fn. split; [exact L|].
            split; [|split; congruence]. intros i Hi. rewrite C. destruct (Nat.ltb_spec i (0 + sz v)); [|lia]. cbn [Nat.leb andb]. f_equal. lia.
          - destruct (relocate_ok triv (sz v) (stor v) 0 (fresh_slots esize nc) 0 T) as (old & new & E & L1 & L2 & C1 & C2).
            + intros k Hk. rewrite H2 by lia. discriminate.
            + rewrite fresh_length by exact Fn. lia.
            + intros k Hk. apply fresh_cell.
            + exists old, new. split; [rewrite T in E |- *; exact E|]. rewrite fresh_length in L2 by exact Fn. split; [exact L1|]. split; [exact L2|]. split; [|split].
              * intros i Hi. rewrite C2. destruct (Nat.ltb_spec i (0 + sz v)); [|lia]. cbn [Nat.leb andb]. f_equal. lia.
              * intros _ i Hi. rewrite C2. destruct (Nat.ltb_spec i (0 + sz v)); [lia|]. cbn [Nat.leb andb]. apply fresh_cell.
              * intros _ i. rewrite C1. destruct (Nat.ltb_spec i (0 + sz v)); cbn [Nat.leb andb]; [reflexivity|]. apply (H3 T). lia. }
        destruct Hm as (old & new & E & L1 & L2 & C1 & C2 & C3). rewrite E. rewrite (fits_range nc Fn). cbn [assert_].
        eexists true, _, _. split; [reflexivity|]. split.
        * apply (moved_inv v xs); [exact I|exact Ea|exact L2|lia|exact C1|exact C2|]. unfold with_stor. rewrite Ep. exact C3.
        * split; [unfold balanced, owned; rewrite Ep; cbn [ptr more blocks]; destruct (oracle w) as [|b r]; inversion Eq; subst; cbn [blocks]; lia|].
          split; [cbn [inl]; now apply with_stor_inl_length|]. split; [cbn [cap]; lia|]. split; [discriminate|]. split; [auto|]. lia.
      + exists false, v, w1. split; [reflexivity|]. split; [exact I|]. split; [unfold balanced; destruct (oracle w) as [|b r]; inversion Eq; subst; reflexivity|].
        split; [reflexivity|]. split; [discriminate|]. split; [left; lia|]. split; [|lia].
        intros _ Q. destruct (oracle w) as [|b r]; [discriminate Q|]. cbn in Q. congruence.
    - (* on the heap *)
      cbn [negb]. destruct (Nat.leb_spec (sz v + n) (cap v)) as [G|G].
      { exists true, v, w. split; [reflexivity|]. split; [exact I|]. split; [reflexivity|]. split; [reflexivity|]. split; [lia|]. split; [discriminate|]. auto. }
      pose proof (v_sbo _ _ I) as Sb. rewrite Ep in Sb. rewrite Sb. cbn [negb]. rewrite andb_true_r.
      pose proof (next_capacity_bounds (cap v) n) as Bc. set (nc := next_capacity (cap v) n) in *. clearbody nc.
      assert (Fn : fits nc) by (eapply fits_le; [|exact F]; lia). rewrite (fits_range nc Fn). cbn [assert_].
      pose proof (v_cap _ _ I) as Ec. assert (Est : stor v = blk v) by (unfold stor; now rewrite Ep).
      destruct (Bool.bool_dec triv true) as [T|T]; [|apply not_true_is_false in T]; rewrite T.
      + destruct (ask w) as [b w1] eqn:Eq. unfold ask in Eq. destruct b.
        * (* realloc *)
          eexists true, _, _. split; [reflexivity|]. rewrite fresh_length by exact Fn. split.
          -- apply (moved_inv v xs); try assumption; try congruence; try lia.
             ++ rewrite app_length, firstn_length, repeat_length. rewrite <- Est, <- Ec. lia.
             ++ intros i Hi. rewrite cell_app, firstn_length, cell_firstn. rewrite <- Est, <- Ec.
                destruct (Nat.ltb_spec i (Nat.min nc (cap v))); [|lia]. destruct (Nat.ltb_spec i nc); [reflexivity|lia].
          -- split; [unfold balanced, owned; rewrite Ep; cbn [ptr]; destruct (oracle w) as [|b r]; inversion Eq; subst; cbn [blocks]; lia|].
             split; [reflexivity|]. split; [cbn [cap]; lia|]. split; [discriminate|]. split; [auto|]. lia.
        * (* malloc *)
          assert (Q0 : hd_error (oracle w) <> Some true) by (destruct (oracle w) as [|b r]; [discriminate|]; inversion Eq; subst; discriminate).
          assert (B1 : blocks w1 = blocks w) by (destruct (oracle w) as [|b r]; inversion Eq; subst; reflexivity).
          destruct (ask w1) as [b w2] eqn:Eq2. unfold ask in Eq2.
          assert (B2 : blocks w2 = blocks w) by (rewrite <- B1; destruct (oracle w1) as [|? r]; inversion Eq2; subst; reflexivity).
          destruct b; cbn [negb].
          -- destruct (copy_slots_ok (fresh_slots esize nc) 0 (stor v) 0 (sz v)) as (st & E & L & C); [rewrite fresh_length by exact Fn; lia|lia|].
             rewrite E. unfold release. rewrite Ep. eexists true, _, _. split; [reflexivity|]. rewrite fresh_length in L by exact Fn. split.
             ++ apply (moved_inv v xs); try assumption; try congruence; try lia.
                intros i Hi. rewrite C. destruct (Nat.ltb_spec i (0 + sz v)); [|lia]. cbn [Nat.leb andb]. f_equal. lia.
             ++ split; [unfold balanced, owned; rewrite Ep; cbn [ptr more blocks]; lia|]. split; [cbn [inl]; now apply with_stor_inl_length|].
                split; [cbn [cap]; lia|]. split; [discriminate|]. split; [auto|]. lia.
          -- exists false, v, w2. split; [reflexivity|]. split; [exact I|]. split; [unfold balanced; now rewrite B2|]. split; [reflexivity|]. split; [discriminate|].
             split; [left; lia|]. split; [tauto|lia].
      + destruct (ask w) as [b w1] eqn:Eq. unfold ask in Eq.
        assert (B1 : blocks w1 = blocks w) by (destruct (oracle w) as [|? r]; inversion Eq; subst; reflexivity). destruct b; cbn [negb].
        * destruct (relocate_ok triv (sz v) (stor v) 0 (fresh_slots esize nc) 0 T) as (old & new & E & L1 & L2 & C1 & C2).
          -- intros k Hk. rewrite H2 by lia. discriminate.
          -- rewrite fresh_length by exact Fn. lia.
          -- intros k Hk. apply fresh_cell.
          -- rewrite T in E. rewrite E. unfold release. rewrite Ep. rewrite fresh_length in L2 by exact Fn. eexists true, _, _. split; [reflexivity|]. split.
             ++ apply (moved_inv v xs); try assumption; try congruence; try lia.
                ** intros i Hi. rewrite C2. destruct (Nat.ltb_spec i (0 + sz v)); [|lia]. cbn [Nat.leb andb]. f_equal. lia.
                ** intros _ i Hi. rewrite C2. destruct (Nat.ltb_spec i (0 + sz v)); [lia|]. cbn [Nat.leb andb]. apply fresh_cell.
                ** intros _. rewrite with_stor_inl by congruence. apply (v_inl _ _ I T). congruence.
             ++ split; [unfold balanced, owned; rewrite Ep; cbn [ptr more blocks]; lia|]. split; [cbn [inl]; now apply with_stor_inl_length|].
                split; [cbn [cap]; lia|]. split; [discriminate|]. split; [auto|]. lia.
        * exists false, v, w1. split; [reflexivity|]. split; [exact I|]. split; [unfold balanced; now rewrite B1|]. split; [reflexivity|]. split; [discriminate|].
          split; [left; lia|]. split; [|lia]. intros _ Q. destruct (oracle w) as [|? r]; [discriminate Q|]. cbn in Q. congruence.
  Qed.
End Inv.
