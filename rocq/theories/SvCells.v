(** Element storage of the small vector, slot by slot. *)
From Coq Require Import Arith NArith ZArith List Bool Lia ZifyBool ZifyNat.
From Verif Require Import Base SvModel.
Import ListNotations.

Section Cells.
  Context {A : Type}.
  Variable triv : bool.
  Notation slot := (slot A).
  Notation elt := (elt A).

  (** What is in slot i; outside of the storage nothing lives. *)
  Definition cell (st : list slot) (i : nat) : slot := nth i st Dead.
  Definition upd (st : list slot) (i : nat) (c : slot) : list slot := firstn i st ++ c :: skipn (S i) st.

  Lemma write_upd : forall (st : list slot) i c, i < length st -> write st i c = Some (upd st i c).
  Proof.
    induction st as [|x st IH]; intros i c H; [cbn in H; lia|]. destruct i as [|i]; [reflexivity|].
    cbn [write]. rewrite IH by (cbn in H; lia). reflexivity.
  Qed.
  Lemma upd_length : forall st i c, i < length st -> length (upd st i c) = length st.
  Proof. intros st i c H. unfold upd. rewrite app_length, firstn_length. cbn [length]. rewrite skipn_length. lia. Qed.
  Lemma cell_upd : forall st i c j, i < length st -> cell (upd st i c) j = if j =? i then c else cell st j.
  Proof.
    unfold cell, upd. induction st as [|x st IH]; intros i c j H; [cbn in H; lia|].
    destruct i as [|i]; destruct j as [|j]; try reflexivity. cbn [firstn skipn app nth]. rewrite IH by (cbn in H; lia). reflexivity.
  Qed.
  Lemma cell_out : forall st i, length st <= i -> cell st i = Dead.
  Proof. intros. unfold cell. now apply nth_overflow. Qed.
  Lemma cell_in : forall st i, cell st i <> Dead -> i < length st.
  Proof. intros st i H. destruct (Nat.lt_ge_cases i (length st)) as [G|G]; [exact G|]. now rewrite cell_out in H. Qed.
  Lemma cell_nth_error : forall st i, i < length st -> nth_error st i = Some (cell st i).
  Proof. intros. unfold cell. now apply nth_error_nth'. Qed.
  Lemma cells_eq : forall a b, length a = length b -> (forall i, i < length a -> cell a i = cell b i) -> a = b.
  Proof. intros a b L H. apply nth_ext with Dead Dead; [exact L|exact H]. Qed.
  Lemma cell_repeat : forall n i, cell (repeat Dead n) i = Dead.
  Proof. intros n i. unfold cell. revert i. induction n as [|n IH]; intros [|i]; cbn; auto. Qed.
  Lemma cell_app : forall a b i, cell (a ++ b) i = if i <? length a then cell a i else cell b (i - length a).
  Proof.
    intros a b i. unfold cell. destruct (Nat.ltb_spec i (length a)) as [G|G]; [now apply app_nth1|now apply app_nth2].
  Qed.
  Lemma cell_firstn : forall n a i, cell (firstn n a) i = if i <? n then cell a i else Dead.
  Proof.
    unfold cell. induction n as [|n IH]; intros a i; [destruct i; reflexivity|].
    destruct a as [|x a]; [destruct i as [|i]; cbn [firstn nth]; [reflexivity|destruct (S i <? S n); reflexivity]|]. destruct i as [|i]; [reflexivity|]. cbn [firstn nth]. rewrite IH. reflexivity.
  Qed.
  Lemma cell_skipn : forall n a i, cell (skipn n a) i = cell a (n + i).
  Proof.
    unfold cell. induction n as [|n IH]; intros a i; [reflexivity|]. destruct a as [|x a]; [destruct i; reflexivity|].
    cbn [skipn Nat.add nth]. apply IH.
  Qed.

  (** ** Single elements *)
  Lemma read_ok : forall st i e, cell st i = Live e -> read st i = Some e.
  Proof. intros st i e H. unfold read. rewrite cell_nth_error by (apply cell_in; congruence). now rewrite H. Qed.
  Lemma construct_ok : forall st i e, i < length st -> (triv = false -> cell st i = Dead) -> construct triv st i e = Some (upd st i (Live e)).
  Proof.
    intros st i e H D. unfold construct. rewrite cell_nth_error by exact H.
    destruct (cell st i); [now apply write_upd|]. destruct triv; [now apply write_upd|]. discriminate (D eq_refl).
  Qed.
  Lemma assign_ok : forall st i e, i < length st -> (triv = false -> cell st i <> Dead) -> assign triv st i e = Some (upd st i (Live e)).
  Proof.
    intros st i e H D. unfold assign. rewrite cell_nth_error by exact H.
    destruct (cell st i); [|now apply write_upd]. destruct triv; [now apply write_upd|]. now elim (D eq_refl).
  Qed.
  Lemma destruct_ok : forall st i, triv = false -> cell st i <> Dead -> destruct triv st i = Some (upd st i Dead).
  Proof.
    intros st i -> D. unfold destruct. pose proof (cell_in _ _ D) as H. rewrite cell_nth_error by exact H.
    destruct (cell st i); [congruence|now apply write_upd].
  Qed.
  Lemma take_ok : forall st i e, cell st i = Live e -> take triv st i = Some (e, if triv then st else upd st i (Live Moved)).
  Proof.
    intros st i e H. unfold take. rewrite (read_ok _ _ _ H). destruct triv; [reflexivity|].
    rewrite write_upd by (apply cell_in; congruence). reflexivity.
  Qed.

  Lemma take_nt : forall st i e, triv = false -> cell st i = Live e -> take triv st i = Some (e, upd st i (Live Moved)).
  Proof. intros st i e T H. rewrite (take_ok _ _ _ H), T. reflexivity. Qed.

  (** ** Loops *)
  Lemma assign_vals_ok : forall l st i, i + length l <= length st ->
    (triv = false -> forall j, i <= j < i + length l -> cell st j <> Dead) ->
    exists st', assign_vals triv st i l = Some st' /\ length st' = length st /\
      forall j, cell st' j = if (i <=? j) && (j <? i + length l) then Live (nth (j - i) l Moved) else cell st j.
  Proof.
    induction l as [|e l IH]; intros st i H D; cbn [assign_vals length] in *.
    - exists st. split; [reflexivity|]. split; [reflexivity|]. intros j.
      destruct (Nat.leb_spec i j), (Nat.ltb_spec j (i + 0)); cbn [andb]; try reflexivity; lia.
    - rewrite assign_ok; [|lia|intros T; apply (D T); lia].
      destruct (IH (upd st i (Live e)) (S i)) as (st' & E & L & C).
      + rewrite upd_length; lia.
      + intros T j Hj. rewrite cell_upd by lia. destruct (Nat.eqb_spec j i); [discriminate|]. apply (D T). lia.
      + exists st'. split; [exact E|]. split; [rewrite L; apply upd_length; lia|]. intros j. rewrite C.
        rewrite cell_upd by lia. destruct (Nat.eqb_spec j i) as [->|Hn].
        * destruct (Nat.leb_spec (S i) i); [lia|]. cbn [andb]. rewrite Nat.leb_refl. destruct (Nat.ltb_spec i (i + S (length l))); [|lia].
          cbn [andb]. rewrite Nat.sub_diag. reflexivity.
        * destruct (Nat.leb_spec (S i) j), (Nat.leb_spec i j), (Nat.ltb_spec j (S i + length l)), (Nat.ltb_spec j (i + S (length l)));
            cbn [andb]; try lia; try reflexivity. replace (j - i) with (S (j - S i)) by lia. reflexivity.
  Qed.
  Lemma construct_vals_ok : forall l st i, i + length l <= length st ->
    (triv = false -> forall j, i <= j < i + length l -> cell st j = Dead) ->
    exists st', construct_vals triv st i l = Some st' /\ length st' = length st /\
      forall j, cell st' j = if (i <=? j) && (j <? i + length l) then Live (nth (j - i) l Moved) else cell st j.
  Proof.
    induction l as [|e l IH]; intros st i H D; cbn [construct_vals length] in *.
    - exists st. split; [reflexivity|]. split; [reflexivity|]. intros j.
      destruct (Nat.leb_spec i j), (Nat.ltb_spec j (i + 0)); cbn [andb]; try reflexivity; lia.
    - rewrite construct_ok; [|lia|intros T; apply (D T); lia].
      destruct (IH (upd st i (Live e)) (S i)) as (st' & E & L & C).
      + rewrite upd_length; lia.
      + intros T j Hj. rewrite cell_upd by lia. destruct (Nat.eqb_spec j i); [lia|]. apply (D T). lia.
      + exists st'. split; [exact E|]. split; [rewrite L; apply upd_length; lia|]. intros j. rewrite C.
        rewrite cell_upd by lia. destruct (Nat.eqb_spec j i) as [->|Hn].
        * destruct (Nat.leb_spec (S i) i); [lia|]. cbn [andb]. rewrite Nat.leb_refl. destruct (Nat.ltb_spec i (i + S (length l))); [|lia].
          cbn [andb]. rewrite Nat.sub_diag. reflexivity.
        * destruct (Nat.leb_spec (S i) j), (Nat.leb_spec i j), (Nat.ltb_spec j (S i + length l)), (Nat.ltb_spec j (i + S (length l)));
            cbn [andb]; try lia; try reflexivity. replace (j - i) with (S (j - S i)) by lia. reflexivity.
  Qed.
  Lemma destruct_n_triv : forall n (st : list slot) i, triv = true -> destruct_n triv st i n = Some st.
  Proof. induction n as [|n IH]; intros st i T; cbn [destruct_n]; [reflexivity|]. unfold destruct. rewrite T at 1. now apply IH. Qed.
  Lemma destruct_n_ok : forall n st i, triv = false -> (forall j, i <= j < i + n -> cell st j <> Dead) ->
    exists st', destruct_n triv st i n = Some st' /\ length st' = length st /\
      forall j, cell st' j = if (i <=? j) && (j <? i + n) then Dead else cell st j.
  Proof.
    induction n as [|n IH]; intros st i T D; cbn [destruct_n].
    - exists st. split; [reflexivity|]. split; [reflexivity|]. intros j.
      destruct (Nat.leb_spec i j), (Nat.ltb_spec j (i + 0)); cbn [andb]; try reflexivity; lia.
    - assert (Di : cell st i <> Dead) by (apply D; lia). pose proof (cell_in _ _ Di) as Hi. rewrite (destruct_ok _ _ T Di).
      destruct (IH (upd st i Dead) (S i) T) as (st' & E & L & C).
      + intros j Hj. rewrite cell_upd by lia. destruct (Nat.eqb_spec j i); [lia|]. apply D. lia.
      + exists st'. split; [exact E|]. split; [rewrite L; apply upd_length; lia|]. intros j. rewrite C, cell_upd by lia.
        destruct (Nat.eqb_spec j i), (Nat.leb_spec (S i) j), (Nat.leb_spec i j), (Nat.ltb_spec j (S i + n)), (Nat.ltb_spec j (i + S n));
          cbn [andb]; try lia; reflexivity.
  Qed.
  Lemma destruct_down_triv : forall n (st : list slot), triv = true -> destruct_down triv st n = Some st.
  Proof. induction n as [|n IH]; intros st T; cbn [destruct_down]; [reflexivity|]. unfold destruct. rewrite T at 1. now apply IH. Qed.
  Lemma destruct_down_ok : forall n st, triv = false -> (forall j, j < n -> cell st j <> Dead) ->
    exists st', destruct_down triv st n = Some st' /\ length st' = length st /\
      forall j, cell st' j = if j <? n then Dead else cell st j.
  Proof.
    induction n as [|n IH]; intros st T D; cbn [destruct_down].
    - exists st. split; [reflexivity|]. split; [reflexivity|]. intros j. destruct (Nat.ltb_spec j 0); [lia|reflexivity].
    - assert (Dn : cell st n <> Dead) by (apply D; lia). pose proof (cell_in _ _ Dn) as Hn. rewrite (destruct_ok _ _ T Dn).
      destruct (IH (upd st n Dead) T) as (st' & E & L & C).
      + intros j Hj. rewrite cell_upd by lia. destruct (Nat.eqb_spec j n); [lia|]. apply D. lia.
      + exists st'. split; [exact E|]. split; [rewrite L; apply upd_length; lia|]. intros j. rewrite C, cell_upd by lia.
        destruct (Nat.eqb_spec j n), (Nat.ltb_spec j n), (Nat.ltb_spec j (S n)); try lia; reflexivity.
  Qed.
  Lemma copy_slots_ok : forall dst j (src : list slot) i n, j + n <= length dst -> i + n <= length src ->
    exists st', copy_slots dst j src i n = Some st' /\ length st' = length dst /\
      forall k, cell st' k = if (j <=? k) && (k <? j + n) then cell src (k - j + i) else cell dst k.
  Proof.
    intros dst j src i n H1 H2. unfold copy_slots.
    assert (E : (j + n <=? length dst) && (i + n <=? length src) = true) by lia. rewrite E.
    eexists. split; [reflexivity|].
    assert (L1 : length (firstn j dst) = j) by (rewrite firstn_length; lia).
    assert (L2 : length (firstn n (skipn i src)) = n) by (rewrite firstn_length, skipn_length; lia).
    split; [rewrite !app_length, L1, L2, skipn_length; lia|]. intros k. rewrite !cell_app, L1, L2, !cell_firstn, !cell_skipn.
    destruct (Nat.ltb_spec k j).
    - destruct (Nat.leb_spec j k); [lia|]. reflexivity.
    - destruct (Nat.leb_spec j k); [|lia]. cbn [andb]. destruct (Nat.ltb_spec (k - j) n), (Nat.ltb_spec k (j + n)); try lia; f_equal; lia.
  Qed.
  Lemma relocate_ok : forall n old i new j, triv = false -> (forall k, i <= k < i + n -> cell old k <> Dead) ->
    j + n <= length new -> (forall k, j <= k < j + n -> cell new k = Dead) ->
    exists old' new', relocate triv old i new j n = Some (old', new') /\ length old' = length old /\ length new' = length new /\
      (forall k, cell old' k = if (i <=? k) && (k <? i + n) then Dead else cell old k) /\
      (forall k, cell new' k = if (j <=? k) && (k <? j + n) then cell old (k - j + i) else cell new k).
  Proof.
    induction n as [|n IH]; intros old i new j T Do Hn Dn; cbn [relocate].
    - exists old, new. split; [reflexivity|]. split; [reflexivity|]. split; [reflexivity|]. split; intros k.
      + destruct (Nat.leb_spec i k), (Nat.ltb_spec k (i + 0)); cbn [andb]; try reflexivity; lia.
      + destruct (Nat.leb_spec j k), (Nat.ltb_spec k (j + 0)); cbn [andb]; try reflexivity; lia.
    - assert (Di : cell old i <> Dead) by (apply Do; lia). pose proof (cell_in _ _ Di) as Hi.
      destruct (cell old i) as [|e] eqn:Ei; [congruence|]. rewrite (take_nt _ _ _ T Ei).
      rewrite construct_ok; [|lia|intros _; apply Dn; lia].
      rewrite (destruct_ok (upd old i (Live Moved))) by (try exact T; rewrite cell_upd, Nat.eqb_refl by lia; discriminate).
      destruct (IH (upd (upd old i (Live Moved)) i Dead) (S i) (upd new j (Live e)) (S j) T) as (old' & new' & E & L1 & L2 & C1 & C2).
      + intros k Hk. rewrite cell_upd by (rewrite upd_length; lia). rewrite cell_upd by lia. destruct (Nat.eqb_spec k i); [lia|]. apply Do. lia.
      + rewrite upd_length; lia.
      + intros k Hk. rewrite cell_upd by lia. destruct (Nat.eqb_spec k j); [lia|]. apply Dn. lia.
      + exists old', new'. split; [exact E|]. rewrite upd_length in L1 by (rewrite upd_length; lia). rewrite upd_length in L1, L2 by lia.
        split; [exact L1|]. split; [exact L2|]. split; intros k.
        * rewrite C1, cell_upd by (rewrite upd_length; lia). rewrite cell_upd by lia.
          destruct (Nat.eqb_spec k i), (Nat.leb_spec (S i) k), (Nat.leb_spec i k), (Nat.ltb_spec k (S i + n)), (Nat.ltb_spec k (i + S n));
            cbn [andb]; try lia; reflexivity.
        * rewrite C2, (cell_upd new) by lia.
          assert (Eo : forall q, S i <= q -> cell (upd (upd old i (Live Moved)) i Dead) q = cell old q).
          { intros q Hq. rewrite cell_upd by (rewrite upd_length; lia). rewrite cell_upd by lia. destruct (Nat.eqb_spec q i); [lia|reflexivity]. }
          rewrite Eo by lia. destruct (Nat.eqb_spec k j) as [->|Hne].
          -- destruct (Nat.leb_spec (S j) j); [lia|]. cbn [andb]. rewrite Nat.leb_refl. destruct (Nat.ltb_spec j (j + S n)); [|lia]. cbn [andb].
             rewrite Nat.sub_diag. cbn [Nat.add]. now rewrite Ei.
          -- destruct (Nat.leb_spec (S j) k), (Nat.leb_spec j k), (Nat.ltb_spec k (S j + n)), (Nat.ltb_spec k (j + S n));
               cbn [andb]; try lia; try reflexivity. f_equal. lia.
  Qed.
  Lemma take_all_ok : forall n st i, (forall k, i <= k < i + n -> cell st k <> Dead) ->
    exists l st', take_all triv st i n = Some (l, st') /\ length l = n /\ length st' = length st /\
      (forall k, k < n -> cell st (i + k) = Live (nth k l Moved)) /\
      (forall k, cell st' k = if negb triv && (i <=? k) && (k <? i + n) then Live Moved else cell st k).
  Proof.
    induction n as [|n IH]; intros st i D; cbn [take_all].
    - exists [], st. split; [reflexivity|]. split; [reflexivity|]. split; [reflexivity|]. split; [intros; lia|]. intros k.
      destruct (Nat.leb_spec i k), (Nat.ltb_spec k (i + 0)); rewrite ?andb_false_r; cbn [andb]; try reflexivity; lia.
    - assert (Di : cell st i <> Dead) by (apply D; lia). pose proof (cell_in _ _ Di) as Hi.
      destruct (cell st i) as [|e] eqn:Ei; [congruence|]. rewrite (take_ok _ _ _ Ei).
      set (st1 := if triv then st else upd st i (Live Moved)).
      assert (C1 : forall k, cell st1 k = if negb triv && (k =? i) then Live Moved else cell st k).
      { intros k. unfold st1. destruct triv; cbn [negb andb]; [reflexivity|]. rewrite cell_upd by lia. reflexivity. }
      assert (L1 : length st1 = length st) by (unfold st1; destruct triv; [reflexivity|apply upd_length; lia]).
      destruct (IH st1 (S i)) as (l & st' & E & L & L' & C2 & C3).
      + intros k Hk. rewrite C1. destruct (Nat.eqb_spec k i); [lia|]. rewrite andb_false_r. apply D. lia.
      + rewrite E. exists (e :: l), st'. split; [reflexivity|]. split; [cbn; lia|]. split; [lia|]. split; intros k.
        * intros Hk. destruct k as [|k]; [rewrite Nat.add_0_r; exact Ei|]. cbn [nth]. rewrite <- C2 by lia. rewrite C1.
          destruct (Nat.eqb_spec (S i + k) i); [lia|]. rewrite andb_false_r. f_equal. lia.
        * rewrite C3, C1. destruct triv; cbn [negb andb]; [reflexivity|].
          destruct (Nat.eqb_spec k i), (Nat.leb_spec (S i) k), (Nat.leb_spec i k), (Nat.ltb_spec k (S i + n)), (Nat.ltb_spec k (i + S n));
            cbn [andb]; try lia; reflexivity.
  Qed.
  Lemma read_all_ok : forall n st i, (forall k, i <= k < i + n -> cell st k <> Dead) ->
    exists l, read_all st i n = Some l /\ length l = n /\ (forall k, k < n -> cell st (i + k) = Live (nth k l Moved)).
  Proof.
    induction n as [|n IH]; intros st i D; cbn [read_all].
    - exists []. split; [reflexivity|]. split; [reflexivity|]. intros; lia.
    - assert (Di : cell st i <> Dead) by (apply D; lia). destruct (cell st i) as [|e] eqn:Ei; [congruence|]. rewrite (read_ok _ _ _ Ei).
      destruct (IH st (S i)) as (l & E & L & C); [intros k Hk; apply D; lia|]. rewrite E.
      exists (e :: l). split; [reflexivity|]. split; [cbn; lia|]. intros k Hk. destruct k as [|k]; [rewrite Nat.add_0_r; exact Ei|].
      cbn [nth]. rewrite <- C by lia. f_equal. lia.
  Qed.
  Lemma move_assign_ok : forall st d s e, cell st s = Live e -> d <> s -> d < length st -> triv = false -> cell st d <> Dead ->
    exists st', move_assign triv st d s = Some st' /\ length st' = length st /\
      forall k, cell st' k = if k =? d then Live e else if k =? s then Live Moved else cell st k.
  Proof.
    intros st d s e Es Hn Hd T Dd. unfold move_assign. destruct (Nat.eqb_spec d s); [lia|]. rewrite (take_nt _ _ _ T Es).
    assert (Hs : s < length st) by (apply cell_in; congruence).
    assert (Ea : assign triv (upd st s (Live Moved)) d e = Some (upd (upd st s (Live Moved)) d (Live e))).
    { apply assign_ok; [rewrite upd_length; lia|]. intros _. rewrite cell_upd by lia. destruct (d =? s); [discriminate|exact Dd]. }
    rewrite Ea. eexists. split; [reflexivity|]. split; [rewrite !upd_length; try lia; rewrite upd_length; lia|].
    intros k. rewrite cell_upd by (rewrite upd_length; lia). rewrite cell_upd by lia. reflexivity.
  Qed.
  (** Moving n elements from s to the smaller d: the places left behind are moved from. *)
  Lemma move_down_ok : forall n st d s, triv = false -> d < s -> (forall k, d <= k < s + n -> cell st k <> Dead) ->
    exists st', move_down triv n st d s = Some st' /\ length st' = length st /\
      (forall k, d <= k < d + n -> cell st' k = cell st (k - d + s)) /\
      (forall k, d + n <= k < s + n -> cell st' k <> Dead) /\
      (forall k, k < d \/ s + n <= k -> cell st' k = cell st k).
  Proof.
    induction n as [|n IH]; intros st d s T Hd D; cbn [move_down].
    - exists st. split; [reflexivity|]. split; [reflexivity|]. split; [intros; lia|]. split; [intros k Hk; apply D; lia|reflexivity].
    - assert (Ds : cell st s <> Dead) by (apply D; lia). destruct (cell st s) as [|e] eqn:Es; [congruence|].
      assert (Dd : cell st d <> Dead) by (apply D; lia). pose proof (cell_in _ _ Dd) as Hl.
      destruct (move_assign_ok st d s e Es ltac:(lia) Hl T Dd) as (st1 & E1 & L1 & C1). rewrite E1.
      destruct (IH st1 (S d) (S s) T ltac:(lia)) as (st' & E & L & Ca & Cb & Cc).
      + intros k Hk. rewrite C1. destruct (k =? d), (k =? s); try discriminate. apply D. lia.
      + exists st'. split; [exact E|]. split; [lia|]. split; [|split].
        * intros k Hk. destruct (Nat.eq_dec k d) as [->|Hne].
          -- rewrite Cc by lia. rewrite C1, Nat.eqb_refl, Nat.sub_diag. cbn [Nat.add]. now rewrite Es.
          -- rewrite Ca by lia. rewrite C1. destruct (Nat.eqb_spec (k - S d + S s) d); [lia|]. destruct (Nat.eqb_spec (k - S d + S s) s); [lia|]. f_equal. lia.
        * intros k Hk. destruct (Nat.eq_dec k (d + n + 1)) as [->|]; apply Cb; lia.
        * intros k Hk. rewrite Cc by lia. rewrite C1. destruct (Nat.eqb_spec k d); [lia|]. destruct (Nat.eqb_spec k s); [lia|]. reflexivity.
  Qed.
  (** The same without leaving anything behind: copies. *)
  Lemma copy_down_ok : forall n st d s, d <= s -> (forall k, d <= k < s + n -> cell st k <> Dead) ->
    exists st', copy_down triv n st d s = Some st' /\ length st' = length st /\
      (forall k, d <= k < d + n -> cell st' k = cell st (k - d + s)) /\
      (forall k, k < d \/ d + n <= k -> cell st' k = cell st k).
  Proof.
    induction n as [|n IH]; intros st d s Hd D; cbn [copy_down].
    - exists st. split; [reflexivity|]. split; [reflexivity|]. split; [intros; lia|reflexivity].
    - assert (Ds : cell st s <> Dead) by (apply D; lia). destruct (cell st s) as [|e] eqn:Es; [congruence|]. rewrite (read_ok _ _ _ Es).
      assert (Dd : cell st d <> Dead) by (apply D; lia). pose proof (cell_in _ _ Dd) as Hl.
      rewrite assign_ok by auto. destruct (IH (upd st d (Live e)) (S d) (S s) ltac:(lia)) as (st' & E & L & Ca & Cb).
      + intros k Hk. rewrite cell_upd by lia. destruct (k =? d); [discriminate|]. apply D. lia.
      + exists st'. split; [exact E|]. split; [rewrite L; apply upd_length; lia|]. split.
        * intros k Hk. destruct (Nat.eq_dec k d) as [->|Hne].
          -- rewrite Cb by lia. rewrite cell_upd, Nat.eqb_refl, Nat.sub_diag by lia. cbn [Nat.add]. now rewrite Es.
          -- rewrite Ca by lia. rewrite cell_upd by lia. destruct (Nat.eqb_spec (k - S d + S s) d); [lia|]. f_equal. lia.
        * intros k Hk. rewrite Cb by lia. rewrite cell_upd by lia. destruct (Nat.eqb_spec k d); [lia|reflexivity].
  Qed.
  (** The two loops of make_room. *)
  Lemma shift_construct_ok : forall n st t c, triv = false -> n <= t -> t <= c - n -> n <= c -> c <= length st ->
    (forall k, t - n <= k < t -> cell st k <> Dead) -> (forall k, c - n <= k < c -> cell st k = Dead) ->
    exists st', shift_construct triv n st t c = Some st' /\ length st' = length st /\
      forall k, cell st' k = if (t - n <=? k) && (k <? t) then Live Moved
                             else if (c - n <=? k) && (k <? c) then cell st (k + t - c) else cell st k.
  Proof.
    induction n as [|n IH]; intros st t c T H1 H2 H3 H4 Dt Dc; cbn [shift_construct].
    - exists st. split; [reflexivity|]. split; [reflexivity|]. intros k.
      destruct (Nat.leb_spec (t - 0) k), (Nat.ltb_spec k t), (Nat.leb_spec (c - 0) k), (Nat.ltb_spec k c); cbn [andb]; try reflexivity; lia.
    - assert (Di : cell st (t - 1) <> Dead) by (apply Dt; lia). pose proof (cell_in _ _ Di) as Hi.
      destruct (cell st (t - 1)) as [|e] eqn:Ei; [congruence|]. rewrite (take_nt _ _ _ T Ei).
      rewrite construct_ok; [|rewrite upd_length; lia|intros _; rewrite cell_upd by lia; destruct (Nat.eqb_spec (c - 1) (t - 1)); [lia|]; apply Dc; lia].
      set (st2 := upd (upd st (t - 1) (Live Moved)) (c - 1) (Live e)).
      assert (C2 : forall k, cell st2 k = if k =? c - 1 then Live e else if k =? t - 1 then Live Moved else cell st k).
      { intros k. unfold st2. rewrite cell_upd by (rewrite upd_length; lia). rewrite cell_upd by lia. reflexivity. }
      assert (L2 : length st2 = length st) by (unfold st2; rewrite !upd_length; try lia; rewrite upd_length; lia).
      clearbody st2. destruct (IH st2 (t - 1) (c - 1) T ltac:(lia) ltac:(lia) ltac:(lia) ltac:(lia)) as (st' & E & L & C).
      + intros k Hk. rewrite C2. destruct (Nat.eqb_spec k (c - 1)); [lia|]. destruct (k =? t - 1); [discriminate|]. apply Dt. lia.
      + intros k Hk. rewrite C2. destruct (Nat.eqb_spec k (c - 1)); [lia|]. destruct (Nat.eqb_spec k (t - 1)); [lia|]. apply Dc. lia.
      + exists st'. split; [exact E|]. split; [lia|]. intros k. rewrite C, !C2.
        destruct (Nat.leb_spec (t - 1 - n) k), (Nat.ltb_spec k (t - 1)), (Nat.leb_spec (t - S n) k), (Nat.ltb_spec k t); cbn [andb]; try lia; try reflexivity;
        destruct (Nat.leb_spec (c - 1 - n) k), (Nat.ltb_spec k (c - 1)), (Nat.leb_spec (c - S n) k), (Nat.ltb_spec k c); cbn [andb]; try lia;
        destruct (Nat.eqb_spec k (c - 1)); try lia; destruct (Nat.eqb_spec k (t - 1)); try lia; try reflexivity;
        repeat match goal with |- context [?a =? ?b] => destruct (Nat.eqb_spec a b); try lia end; try reflexivity; try (f_equal; lia).
        all: try (subst k; rewrite <- Ei; f_equal; lia).
  Qed.
  Lemma shift_assign_ok : forall n st t c, triv = false -> n <= t -> t < c -> c <= length st ->
    (forall k, t - n <= k < c -> cell st k <> Dead) ->
    exists st', shift_assign triv n st t c = Some st' /\ length st' = length st /\
      (forall k, c - n <= k < c -> cell st' k = cell st (k + t - c)) /\
      (forall k, t - n <= k < c - n -> cell st' k <> Dead) /\
      (forall k, k < t - n \/ c <= k -> cell st' k = cell st k).
  Proof.
    induction n as [|n IH]; intros st t c T H1 H2 H3 D; cbn [shift_assign].
    - exists st. split; [reflexivity|]. split; [reflexivity|]. split; [intros; lia|]. split; [intros k Hk; apply D; lia|reflexivity].
    - assert (Ds : cell st (t - 1) <> Dead) by (apply D; lia). destruct (cell st (t - 1)) as [|e] eqn:Es; [congruence|].
      assert (Dd : cell st (c - 1) <> Dead) by (apply D; lia). pose proof (cell_in _ _ Dd) as Hl.
      destruct (move_assign_ok st (c - 1) (t - 1) e Es ltac:(lia) Hl T Dd) as (st1 & E1 & L1 & C1). rewrite E1.
      destruct (IH st1 (t - 1) (c - 1) T ltac:(lia) ltac:(lia) ltac:(lia)) as (st' & E & L & Ca & Cb & Cc).
      + intros k Hk. rewrite C1. destruct (k =? c - 1), (k =? t - 1); try discriminate. apply D. lia.
      + exists st'. split; [exact E|]. split; [lia|]. split; [|split].
        * intros k Hk. destruct (Nat.eq_dec k (c - 1)) as [->|Hne].
          -- rewrite Cc by lia. rewrite C1, Nat.eqb_refl. rewrite <- Es. f_equal. lia.
          -- rewrite Ca by lia. rewrite C1. destruct (Nat.eqb_spec (k + (t - 1) - (c - 1)) (c - 1)); [lia|].
             destruct (Nat.eqb_spec (k + (t - 1) - (c - 1)) (t - 1)); [lia|]. f_equal. lia.
        * intros k Hk. apply Cb. lia.
        * intros k Hk. rewrite Cc by lia. rewrite C1. destruct (Nat.eqb_spec k (c - 1)); [lia|]. destruct (Nat.eqb_spec k (t - 1)); [lia|]. reflexivity.
  Qed.
  Lemma swap_slots_ok : forall n a b i, (forall k, i <= k < i + n -> cell a k <> Dead /\ cell b k <> Dead) ->
    exists a' b', swap_slots triv n a b i = Some (a', b') /\ length a' = length a /\ length b' = length b /\
      (forall k, cell a' k = if (i <=? k) && (k <? i + n) then cell b k else cell a k) /\
      (forall k, cell b' k = if (i <=? k) && (k <? i + n) then cell a k else cell b k).
  Proof.
    induction n as [|n IH]; intros a b i D; cbn [swap_slots].
    - exists a, b. split; [reflexivity|]. split; [reflexivity|]. split; [reflexivity|]. split; intros k;
        destruct (Nat.leb_spec i k), (Nat.ltb_spec k (i + 0)); cbn [andb]; try reflexivity; lia.
    - destruct (D i ltac:(lia)) as [Da Db]. pose proof (cell_in _ _ Da). pose proof (cell_in _ _ Db).
      destruct (cell a i) as [|x] eqn:Ea; [congruence|]. destruct (cell b i) as [|y] eqn:Eb; [congruence|].
      rewrite (read_ok _ _ _ Ea), (read_ok _ _ _ Eb). rewrite !assign_ok by (try lia; congruence).
      destruct (IH (upd a i (Live y)) (upd b i (Live x)) (S i)) as (a' & b' & E & L1 & L2 & C1 & C2).
      + intros k Hk. rewrite !cell_upd by lia. destruct (Nat.eqb_spec k i); [lia|]. apply D. lia.
      + exists a', b'. split; [exact E|]. rewrite upd_length in L1, L2 by lia. split; [exact L1|]. split; [exact L2|].
        split; intros k; [rewrite C1|rewrite C2]; rewrite !cell_upd by lia;
        destruct (Nat.eqb_spec k i), (Nat.leb_spec (S i) k), (Nat.leb_spec i k), (Nat.ltb_spec k (S i + n)), (Nat.ltb_spec k (i + S n));
          cbn [andb]; try lia; try reflexivity; subst k; congruence.
  Qed.
End Cells.
