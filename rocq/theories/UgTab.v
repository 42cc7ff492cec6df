(** Staged tables: adding entries is an update of the map from code points to entries, removing duplicate blocks keeps it. *)
From Coq Require Import ZArith NArith List Bool Lia Arith.
From Verif Require Import UgModel UgLists UgOne UgTriv.
Import ListNotations.

Definition row (t : staged) (i : nat) : option rawblock :=
  match nth_error (one t) i with Some (Some b) => nth_error (two t) b | _ => None end.
(** The entry of cell j of block i; [None] if there is none. *)
Definition look (t : staged) (i j : nat) : option nat :=
  match row t i with
  | Some blk => match nth_error blk j with Some c => c | None => None end
  | None => None
  end.
Record wf (B : nat) (t : staged) : Prop := {
  wf_zero : nth_error (two t) 0 = Some (repeat (Some 0%nat) B);
  wf_len : forall b blk, nth_error (two t) b = Some blk -> List.length blk = B;
  wf_in : forall i b, nth_error (one t) i = Some (Some b) -> (1 <= b < List.length (two t))%nat;
  wf_inj : forall i i' b, nth_error (one t) i = Some (Some b) -> nth_error (one t) i' = Some (Some b) -> i = i' }.

Lemma wf_init B : wf B (r_staged (ucd_init B)).
Proof.
  constructor; cbn; auto.
  - intros [|[|b]] blk H; cbn in H; try discriminate. injection H as <-. apply repeat_length.
  - intros i b H. destruct i; discriminate.
  - intros i i' b H. destruct i; discriminate.
Qed.
Lemma look_init B i j : look (r_staged (ucd_init B)) i j = None.
Proof. unfold look, row. cbn. destruct i; reflexivity. Qed.

Lemma nth_error_repeat_any {A} (x : A) n i y : nth_error (repeat x n) i = Some y -> y = x /\ (i < n)%nat.
Proof.
  intros H. assert (L : (i < n)%nat). { rewrite <- (repeat_length x n). apply nth_error_Some. congruence. }
  rewrite nth_error_repeat in H by exact L. split; [congruence|exact L].
Qed.

Lemma add_to_table_spec B t cp e t' : (0 < B)%nat -> wf B t -> add_to_table B t cp e = Some t' ->
  let i0 := N.to_nat (cp / N.of_nat B) in let j0 := N.to_nat (cp mod N.of_nat B) in
  wf B t' /\ look t i0 j0 = None /\ look t' i0 j0 = Some e /\
  (forall i j, (i, j) <> (i0, j0) -> look t' i j = look t i j) /\
  (i0 < List.length (one t'))%nat /\ (List.length (one t) <= List.length (one t'))%nat.
Proof.
  intros HB W H i0 j0. unfold add_to_table in H. fold i0 j0 in H.
  set (one1 := if (List.length (one t) <=? i0)%nat then one t ++ repeat None (S i0 - List.length (one t)) else one t) in H.
  assert (L1 : (i0 < List.length one1)%nat /\ (List.length (one t) <= List.length one1)%nat).
  { unfold one1. destruct (List.length (one t) <=? i0)%nat eqn:E.
    - apply Nat.leb_le in E. rewrite app_length, repeat_length. lia.
    - apply Nat.leb_gt in E. lia. }
  assert (N1 : forall i b, nth_error one1 i = Some (Some b) <-> nth_error (one t) i = Some (Some b)).
  { intros i b. unfold one1. destruct (List.length (one t) <=? i0)%nat; [|reflexivity].
    destruct (Nat.lt_ge_cases i (List.length (one t))) as [L|L].
    - rewrite nth_error_app1 by exact L. reflexivity.
    - rewrite nth_error_app2 by exact L. split; intros Q.
      + apply nth_error_repeat_any in Q. destruct Q; discriminate.
      + assert (i < List.length (one t))%nat by (apply nth_error_Some; congruence). lia. }
  assert (J0 : (j0 < B)%nat).
  { unfold j0. assert ((cp mod N.of_nat B < N.of_nat B)%N) by (apply N.mod_lt; lia). lia. }
  assert (Row1 : forall i, (match nth_error one1 i with Some (Some b) => nth_error (two t) b | _ => None end) = row t i).
  { intros i. unfold row. destruct (nth_error one1 i) as [[b|]|] eqn:E.
    - apply N1 in E. now rewrite E.
    - destruct (nth_error (one t) i) as [[b|]|] eqn:E'; try reflexivity. apply N1 in E'. congruence.
    - destruct (nth_error (one t) i) as [[b|]|] eqn:E'; try reflexivity. apply N1 in E'. congruence. }
  destruct (nth_error one1 i0) as [o|] eqn:O; [|discriminate]. cbn [obind] in H.
  destruct o as [index|].
  - (* the block exists *)
    destruct (nth_error (two t) index) as [block|] eqn:Bk; [|discriminate]. cbn [obind] in H.
    destruct (nth_error block j0) as [c|] eqn:Cj; [|discriminate]. cbn [obind] in H.
    destruct c as [c|]; [discriminate|]. cbn [guard obind] in H. injection H as <-. cbn [one two].
    assert (Oi : nth_error (one t) i0 = Some (Some index)) by now apply N1.
    assert (Ir := wf_in _ _ W _ _ Oi).
    assert (R0 : row t i0 = Some block) by (unfold row; now rewrite Oi).
    assert (R : forall i, i <> i0 -> row {| one := one1; two := set_nth index (set_nth j0 (Some e) block) (two t) |} i = row t i).
    { intros i D. unfold row at 1. cbn [one two]. rewrite <- Row1.
      destruct (nth_error one1 i) as [[b|]|] eqn:E; try reflexivity. apply set_nth_other. intros ->.
      apply N1 in E. apply D. eapply wf_inj; eauto. }
    assert (R0' : row {| one := one1; two := set_nth index (set_nth j0 (Some e) block) (two t) |} i0 = Some (set_nth j0 (Some e) block)).
    { unfold row. cbn [one two]. rewrite O. apply set_nth_same. lia. }
    split; [|split; [|split; [|split; [|lia]]]].
    + constructor; cbn [one two].
      * rewrite set_nth_other by lia. apply W.
      * intros b blk Q. destruct (Nat.eq_dec index b) as [->|D].
        -- rewrite set_nth_same in Q by lia. injection Q as <-. rewrite set_nth_length. eapply wf_len; eauto.
        -- rewrite set_nth_other in Q by exact D. eapply wf_len; eauto.
      * intros i b Q. rewrite set_nth_length. apply N1 in Q. eapply wf_in; eauto.
      * intros i i' b Q Q'. apply N1 in Q, Q'. eapply wf_inj; eauto.
    + unfold look. now rewrite R0, Cj.
    + unfold look. rewrite R0', set_nth_same; [reflexivity|]. apply nth_error_Some. congruence.
    + intros i j D. unfold look. destruct (Nat.eq_dec i i0) as [->|Di].
      * rewrite R0', R0. rewrite set_nth_other; [reflexivity|]. congruence.
      * now rewrite R.
  - (* a new block *)
    rewrite nth_error_app2 in H by lia. rewrite Nat.sub_diag in H. cbn [nth_error obind] in H.
    rewrite nth_error_repeat in H by exact J0. cbn [guard obind] in H. injection H as <-. cbn [one two].
    set (n := List.length (two t)).
    assert (Ln : (1 <= n)%nat). { assert (Z0 := wf_zero _ _ W). unfold n. destruct (two t); [discriminate|cbn; lia]. }
    assert (Two : forall b, (b < n)%nat -> nth_error (set_nth n (set_nth j0 (Some e) (repeat None B)) (two t ++ [repeat None B])) b = nth_error (two t) b).
    { intros b L. rewrite set_nth_other by lia. now apply nth_error_app1. }
    assert (TwoN : nth_error (set_nth n (set_nth j0 (Some e) (repeat None B)) (two t ++ [repeat None B])) n = Some (set_nth j0 (Some e) (repeat None B))).
    { apply set_nth_same. rewrite app_length. cbn. unfold n. lia. }
    set (t' := {| one := set_nth i0 (Some n) one1; two := set_nth n (set_nth j0 (Some e) (repeat None B)) (two t ++ [repeat None B]) |}).
    assert (Rn : row t i0 = None).
    { rewrite <- Row1, O. reflexivity. }
    assert (R0' : row t' i0 = Some (set_nth j0 (Some e) (repeat None B))).
    { unfold row, t'. cbn [one two]. rewrite set_nth_same by lia. exact TwoN. }
    assert (One : forall i b, nth_error (one t') i = Some (Some b) -> i = i0 /\ b = n \/ i <> i0 /\ nth_error (one t) i = Some (Some b)).
    { intros i b Q. unfold t' in Q. cbn [one] in Q. destruct (Nat.eq_dec i i0) as [->|D].
      - rewrite set_nth_same in Q by lia. injection Q as <-. now left.
      - rewrite set_nth_other in Q by congruence. right. split; [exact D|]. now apply N1. }
    assert (R : forall i, i <> i0 -> row t' i = row t i).
    { intros i D. unfold row at 1. unfold t'. cbn [one two]. rewrite set_nth_other by congruence. rewrite <- Row1.
      destruct (nth_error one1 i) as [[b|]|] eqn:E; try reflexivity. apply Two. apply N1 in E. apply (wf_in _ _ W) in E. unfold n. lia. }
    split; [|split; [|split; [|split; [|unfold t'; cbn [one]; rewrite set_nth_length; lia]]]].
    + constructor.
      * unfold t'. cbn [two]. rewrite Two by lia. apply W.
      * unfold t'. cbn [two]. intros b blk Q. destruct (Nat.lt_ge_cases b n) as [L|L].
        -- rewrite Two in Q by exact L. eapply wf_len; eauto.
        -- assert (b = n). { assert (Lb : (b < List.length (set_nth n (set_nth j0 (Some e) (repeat None B)) (two t ++ [repeat None B])))%nat) by (apply nth_error_Some; intros X; discriminate (eq_trans (eq_sym Q) X)).
             rewrite set_nth_length, app_length in Lb. cbn in Lb. fold n in Lb. lia. }
           subst b. assert (Qe := eq_trans (eq_sym Q) TwoN). injection Qe as ->. rewrite set_nth_length. apply repeat_length.
      * intros i b Q. assert (Lt : List.length (two t') = S n). { unfold t'. cbn [two]. rewrite set_nth_length, app_length. cbn. fold n. lia. }
        rewrite Lt. destruct (One i b Q) as [[_ ->]|[_ Q']]; [lia|]. apply (wf_in _ _ W) in Q'. fold n in Q'. lia.
      * intros i i' b Q Q'. destruct (One _ _ Q) as [[-> Eb]|[D E]]; destruct (One _ _ Q') as [[-> Eb']|[D' E']]; auto.
        -- subst b. apply (wf_in _ _ W) in E'. fold n in E'. lia.
        -- subst b. apply (wf_in _ _ W) in E. fold n in E. lia.
        -- eapply wf_inj; eauto.
    + unfold look. now rewrite Rn.
    + unfold look. rewrite R0', set_nth_same; [reflexivity|]. now rewrite repeat_length.
    + intros i j D. unfold look. destruct (Nat.eq_dec i i0) as [->|Di].
      * rewrite R0', Rn. rewrite set_nth_other by congruence. destruct (nth_error (repeat None B) j) as [c|] eqn:E; [|reflexivity].
        apply nth_error_repeat_any in E. now destruct E as [-> _].
      * now rewrite R.
Qed.

(** Duplicates *)
Fixpoint first_eq (bs : list (list nat)) (b : list nat) : option nat :=
  match bs with
  | [] => None
  | x :: r => if nlist_eqb b x then Some 0%nat else option_map S (first_eq r b)
  end.
Lemma first_eq_snoc l x b : first_eq (l ++ [x]) b =
  match first_eq l b with Some k => Some k | None => if nlist_eqb b x then Some (List.length l) else None end.
Proof.
  induction l as [|y l IH]; cbn [app first_eq List.length].
  - destruct (nlist_eqb b x); reflexivity.
  - destruct (nlist_eqb b y); [reflexivity|]. rewrite IH. destruct (first_eq l b); [reflexivity|].
    destruct (nlist_eqb b x); reflexivity.
Qed.
Lemma first_eq_some l b : forall k, first_eq l b = Some k -> nth_error l k = Some b /\ first_eq (firstn k l) b = None.
Proof.
  induction l as [|y l IH]; intros k H; cbn [first_eq] in H; [discriminate|].
  destruct (nlist_eqb b y) eqn:E.
  - injection H as <-. apply nlist_eqb_eq in E. subst y. now split.
  - destruct (first_eq l b) as [m|] eqn:F; [|discriminate]. cbn in H. injection H as <-.
    destruct (IH m eq_refl) as [A1 A2]. split; [exact A1|]. cbn [firstn first_eq]. rewrite E, A2. reflexivity.
Qed.
Lemma first_eq_none l b : first_eq l b = None -> ~ In b l.
Proof.
  induction l as [|y l IH]; cbn [first_eq]; intros H I; [exact I|].
  destruct (nlist_eqb b y) eqn:E; [discriminate|]. destruct (first_eq l b); [discriminate|].
  destruct I as [->|I]; [|now apply IH]. rewrite (proj2 (nlist_eqb_eq b b) eq_refl) in E. discriminate.
Qed.
Lemma mark_from_spec n : forall l pre, (List.length l <= n)%nat ->
  (forall p, In p l -> snd p = first_eq pre (fst p)) ->
  forall k p, nth_error (mark_from (List.length pre) l n) k = Some p ->
    nth_error (map fst l) k = Some (fst p) /\ snd p = first_eq (pre ++ firstn k (map fst l)) (fst p).
Proof.
  induction n as [|n IH]; intros l pre L M k p N.
  - destruct l; [|cbn in L; lia]. cbn in N. destruct k; discriminate.
  - destruct l as [|x r]; cbn [mark_from] in N; [destruct k; discriminate|].
    cbn [List.length] in L. destruct k as [|k].
    + cbn in N. injection N as ->. cbn [map firstn]. split; [reflexivity|]. rewrite app_nil_r. apply M. now left.
    + cbn [nth_error] in N.
      assert (Lp : S (List.length pre) = List.length (pre ++ [fst x])) by (rewrite app_length; cbn; lia). rewrite Lp in N.
      assert (Fm : map fst (mark (fst x) (List.length pre) r) = map fst r).
      { unfold mark. rewrite map_map. apply map_ext. intros [a [o|]]; cbn; [reflexivity|]. destruct (nlist_eqb a (fst x)); reflexivity. }
      apply IH in N.
      * rewrite Fm in N. cbn [map firstn nth_error]. rewrite <- app_assoc in N. exact N.
      * unfold mark. rewrite map_length. lia.
      * intros q Q. unfold mark in Q. apply in_map_iff in Q. destruct Q as [[a o] [Q1 Q2]]. cbn [fst snd] in Q1.
        assert (Ma := M _ (or_intror Q2)). cbn [fst snd] in Ma.
        destruct o as [o|].
        -- subst q. cbn [fst snd]. rewrite first_eq_snoc, <- Ma. reflexivity.
        -- destruct (nlist_eqb a (fst x)) eqn:E; subst q; cbn [fst snd]; rewrite first_eq_snoc, <- Ma, E; reflexivity.
Qed.
Lemma mark_from_length n : forall i l, List.length (mark_from i l n) = List.length l.
Proof.
  induction n as [|n IH]; intros i l; cbn [mark_from]; [reflexivity|]. destruct l as [|x r]; [reflexivity|].
  cbn. rewrite IH. unfold mark. now rewrite map_length.
Qed.
Lemma mark_all_spec bs k p : nth_error (mark_all bs) k = Some p ->
  nth_error bs k = Some (fst p) /\ snd p = first_eq (firstn k bs) (fst p).
Proof.
  unfold mark_all. intros H.
  assert (Fm : map fst (map (fun b : list nat => (b, @None nat)) bs) = bs) by (rewrite map_map; apply map_id).
  apply (mark_from_spec _ _ []) in H.
  - rewrite Fm in H. exact H.
  - now rewrite map_length.
  - intros q Q. apply in_map_iff in Q. destruct Q as [b [<- _]]. reflexivity.
Qed.
Lemma mark_all_length bs : List.length (mark_all bs) = List.length bs.
Proof. unfold mark_all. now rewrite mark_from_length, map_length. Qed.

Lemma rebind_spec bs o i : rebind (mark_all bs) o = Some i -> (o = None -> bs <> []) ->
  exists blk, nth_error (mark_all bs) i = Some (blk, None) /\
    match o with None => i = 0%nat | Some b => nth_error bs b = Some blk end.
Proof.
  unfold rebind. intros H NE. destruct o as [b|].
  - destruct (nth_error (mark_all bs) b) as [[blk m]|] eqn:E; [|discriminate]. cbn [obind snd] in H.
    destruct (mark_all_spec _ _ _ E) as [S1 S2]. cbn [fst snd] in S1, S2.
    destruct m as [r|].
    + destruct (nth_error (mark_all bs) r) as [[blk' m']|] eqn:E'; [|discriminate]. cbn [obind snd] in H.
      destruct m'; [discriminate|]. cbn [guard obind] in H. injection H as <-.
      symmetry in S2. apply first_eq_some in S2. destruct S2 as [Q _].
      destruct (mark_all_spec _ _ _ E') as [S1' _]. cbn [fst] in S1'.
      assert (Lr : (r < b)%nat). { assert (r < List.length (firstn b bs))%nat by (apply nth_error_Some; congruence). rewrite firstn_length in H. lia. }
      rewrite nth_error_firstn_lt in Q by exact Lr. exists blk'. split; [exact E'|]. congruence.
    + injection H as <-. exists blk. now split.
  - injection H as <-. destruct bs as [|blk bs]; [now destruct (NE eq_refl)|].
    destruct (nth_error (mark_all (blk :: bs)) 0) as [[blk' m]|] eqn:E.
    + destruct (mark_all_spec _ _ _ E) as [_ S2]. cbn [firstn first_eq fst snd] in S2. subst m. exists blk'. now split.
    + apply nth_error_None in E. rewrite mark_all_length in E. cbn in E. lia.
Qed.

Lemma compact_spec s1 : forall l i k bs idx, compact s1 i k l = Some (bs, idx) ->
  List.length idx = List.length l /\
  (forall pos p, nth_error l pos = Some p -> In (i + pos)%nat s1 ->
     exists m, nth_error idx pos = Some (Some (k + m)%nat) /\ nth_error bs m = Some (fst p)) /\
  (forall m b, nth_error bs m = Some b -> exists pos, nth_error l pos = Some (b, None) /\ In (i + pos)%nat s1 /\
     nth_error idx pos = Some (Some (k + m)%nat)).
Proof.
  induction l as [|p l IH]; intros i k bs idx H; cbn [compact] in H.
  - injection H as <- <-. split; [reflexivity|]. split; [intros pos q Q; destruct pos; discriminate|]. intros m b Q. destruct m; discriminate.
  - destruct (existsb (Nat.eqb i) s1) eqn:E.
    + destruct (snd p) eqn:Sp; [discriminate|]. cbn [guard obind] in H.
      destruct (compact s1 (S i) (S k) l) as [[bs' idx']|] eqn:C; [|discriminate]. cbn [obind] in H. injection H as <- <-.
      destruct (IH _ _ _ _ C) as (A1 & A2 & A3). split; [cbn; now rewrite A1|]. split.
      * intros pos q Q I. destruct pos as [|pos].
        -- cbn in Q. injection Q as <-. exists 0%nat. cbn. rewrite Nat.add_0_r. now split.
        -- cbn [nth_error] in Q. destruct (A2 pos q Q) as [m [M1 M2]]; [now replace (S i + pos)%nat with (i + S pos)%nat by lia|].
           exists (S m). cbn [nth_error]. split; [|exact M2]. rewrite M1. do 2 f_equal. lia.
      * intros m b Q. destruct m as [|m].
        -- cbn in Q. injection Q as <-. exists 0%nat. cbn [nth_error]. split; [destruct p; cbn in *; congruence|].
           split; [|now rewrite Nat.add_0_r]. apply existsb_exists in E. destruct E as [x [X1 X2]]. apply Nat.eqb_eq in X2. subst x. now rewrite Nat.add_0_r.
        -- cbn [nth_error] in Q. destruct (A3 m b Q) as [pos (P1 & P2 & P3)]. exists (S pos). cbn [nth_error].
           split; [exact P1|]. split; [now replace (i + S pos)%nat with (S i + pos)%nat by lia|]. rewrite P3. do 2 f_equal. lia.
    + destruct (compact s1 (S i) k l) as [[bs' idx']|] eqn:C; [|discriminate]. cbn [obind] in H. injection H as <- <-.
      destruct (IH _ _ _ _ C) as (A1 & A2 & A3). split; [cbn; now rewrite A1|]. split.
      * intros pos q Q I. destruct pos as [|pos].
        -- rewrite Nat.add_0_r in I. assert (T : existsb (Nat.eqb i) s1 = true) by (apply existsb_exists; exists i; split; [exact I|apply Nat.eqb_refl]). congruence.
        -- cbn [nth_error] in *. apply A2; [exact Q|]. now replace (S i + pos)%nat with (i + S pos)%nat by lia.
      * intros m b Q. destruct (A3 m b Q) as [pos (P1 & P2 & P3)]. exists (S pos). cbn [nth_error].
        split; [exact P1|]. split; [now replace (i + S pos)%nat with (S i + pos)%nat by lia|exact P3].
Qed.

Definition cell_of (o : option nat) : nat := match o with Some e => e | None => 0%nat end.
(** Cells that must be found: the entry, or 0. *)
Lemma normalize_nth (b : rawblock) j : nth_error (normalize b) j = option_map cell_of (nth_error b j).
Proof. unfold normalize. rewrite nth_error_map. reflexivity. Qed.

(** Removing duplicates keeps every cell; no two blocks are the same, and each is used. *)
Lemma prune_duplicates_spec B t s1 bs : wf B t -> prune_duplicates t = Some (s1, bs) ->
  List.length s1 = List.length (one t) /\
  (forall i, (i < List.length (one t))%nat -> exists b blk, nth_error s1 i = Some b /\ nth_error bs b = Some blk /\
     List.length blk = B /\ (forall j, (j < B)%nat -> nth_error blk j = Some (cell_of (look t i j)))) /\
  NoDup bs /\ (forall b, (b < List.length bs)%nat -> In b s1) /\
  (forall blk, In blk bs -> List.length blk = B) /\
  (forall i, (i < List.length (one t))%nat -> (forall j, (j < B)%nat -> cell_of (look t i j) = 0%nat) -> nth_error bs 0 = Some (repeat 0%nat B)).
Proof.
  intros W H. unfold prune_duplicates in H. set (nb := map normalize (two t)) in *.
  assert (NB : nth_error nb 0 = Some (repeat 0%nat B)).
  { unfold nb. rewrite nth_error_map, (wf_zero _ _ W). cbn. f_equal. unfold normalize. clear. induction B; cbn; [reflexivity|]. now rewrite IHB. }
  assert (NE : nb <> []) by (intros E; rewrite E in NB; discriminate).
  destruct (omap (rebind (mark_all nb)) (one t)) as [s|] eqn:E1; [|discriminate]. cbn [obind] in H.
  destruct (compact s 0 0 (mark_all nb)) as [[bs' idx]|] eqn:E2; [|discriminate]. cbn [obind] in H.
  destruct (omap (rebind2 idx) s) as [s1'|] eqn:E3; [|discriminate]. cbn [obind] in H. injection H as <- <-.
  destruct (compact_spec _ _ _ _ _ _ E2) as (C1 & C2 & C3).
  assert (Ls : List.length s = List.length (one t)) by apply (omap_length _ _ _ E1).
  assert (Ls1 : List.length s1' = List.length (one t)) by (rewrite (omap_length _ _ _ E3); exact Ls).
  assert (LenB : forall blk, In blk bs' -> List.length blk = B).
  { intros blk I. apply In_nth_error in I. destruct I as [m M]. destruct (C3 m blk M) as [pos (P1 & _)].
    apply mark_all_spec in P1. cbn [fst] in P1. destruct P1 as [P1 _]. unfold nb in P1. rewrite nth_error_map in P1.
    destruct (nth_error (two t) pos) as [rb|] eqn:R; [|discriminate]. cbn in P1. injection P1 as <-.
    unfold normalize. rewrite map_length. eapply wf_len; eauto. }
  (* cells *)
  assert (Cells : forall i, (i < List.length (one t))%nat -> exists b blk, nth_error s1' i = Some b /\ nth_error bs' b = Some blk /\
     List.length blk = B /\ (forall j, (j < B)%nat -> nth_error blk j = Some (cell_of (look t i j)))).
  { intros i L. destruct (nth_error (one t) i) as [o|] eqn:O; [|apply nth_error_None in O; lia].
    destruct (omap_nth _ _ _ _ _ E1 O) as [b1 [B1 R1]].
    destruct (rebind_spec _ _ _ R1 (fun _ => NE)) as [blk [M1 M2]].
    destruct (C2 b1 _ M1) as [m [I1 I2]]; [cbn; eapply nth_error_In; eauto|]. cbn [fst Nat.add] in I1, I2.
    destruct (omap_nth _ _ _ _ _ E3 B1) as [b2 [B2 R2]]. unfold rebind2 in R2. rewrite I1 in R2. cbn [obind] in R2. injection R2 as <-.
    exists m, blk. split; [exact B2|]. split; [exact I2|]. split; [apply LenB; eapply nth_error_In; eauto|].
    intros j J. unfold look, row. rewrite O. destruct o as [b|].
    - unfold nb in M2. rewrite nth_error_map in M2. destruct (nth_error (two t) b) as [rb|] eqn:R; [|discriminate].
      cbn in M2. injection M2 as <-. rewrite normalize_nth.
      destruct (nth_error rb j) as [c|] eqn:Q; [reflexivity|]. apply nth_error_None in Q. rewrite (wf_len _ _ W _ _ R) in Q. lia.
    - subst b1. apply mark_all_spec in M1. cbn [fst] in M1. destruct M1 as [M1 _]. rewrite NB in M1. injection M1 as <-.
      now rewrite nth_error_repeat. }
  assert (ND : NoDup bs').
  { apply NoDup_nth_error. intros m m' Lm Em.
    destruct (nth_error bs' m) as [b|] eqn:M; [|apply nth_error_None in M; lia]. symmetry in Em.
    destruct (C3 m b M) as [pos (P1 & _ & P3)]. destruct (C3 m' b Em) as [pos' (P1' & _ & P3')].
    assert (pos = pos').
    { apply mark_all_spec in P1, P1'. cbn [fst snd] in P1, P1'. destruct P1 as [Q1 Q2], P1' as [Q1' Q2'].
      symmetry in Q2, Q2'. apply first_eq_none in Q2, Q2'.
      destruct (Nat.lt_trichotomy pos pos') as [X|[X|X]]; [|exact X|].
      - destruct Q2'. eapply nth_error_In. rewrite nth_error_firstn_lt by exact X. exact Q1.
      - destruct Q2. eapply nth_error_In. rewrite nth_error_firstn_lt by exact X. exact Q1'. }
    subst pos'. rewrite P3 in P3'. injection P3' as ->. reflexivity. }
  split; [exact Ls1|]. split; [exact Cells|]. split; [exact ND|]. split; [|split; [exact LenB|]].
  - intros b L. destruct (nth_error bs' b) as [blk|] eqn:M; [|apply nth_error_None in M; lia].
    destruct (C3 b blk M) as [pos (P1 & P2 & P3)]. cbn [Nat.add] in P2, P3. apply In_nth_error in P2. destruct P2 as [i I].
    destruct (omap_nth _ _ _ _ _ E3 I) as [b2 [B2 R2]]. unfold rebind2 in R2. rewrite P3 in R2. cbn [obind] in R2. injection R2 as <-.
    eapply nth_error_In; eauto.
  - intros i L Zero. destruct (Cells i L) as (b & blk & Q1 & Q2 & Q3 & Q4).
    assert (blk = repeat 0%nat B).
    { apply nth_error_ext. intros j. destruct (Nat.lt_ge_cases j B) as [J|J].
      - rewrite Q4 by exact J. rewrite nth_error_repeat by exact J. now rewrite Zero.
      - rewrite (proj2 (nth_error_None _ _)) by lia. symmetry. apply nth_error_None. rewrite repeat_length. exact J. }
    subst blk. destruct (C3 b _ Q2) as [pos (P1 & P2 & P3)].
    apply mark_all_spec in P1. cbn [fst snd] in P1. destruct P1 as [P1 F]. destruct pos as [|pos].
    + cbn [Nat.add] in P2, P3. assert (b = 0%nat); [|now subst b].
      clear -E2 P2 P3 Q2. destruct (mark_all nb) as [|p l]; [cbn in E2; injection E2 as <- <-; destruct b; discriminate|].
      cbn [compact] in E2. assert (T : existsb (Nat.eqb 0) s = true) by (apply existsb_exists; exists 0%nat; now split). rewrite T in E2.
      destruct (snd p); [discriminate|]. cbn [guard obind] in E2. destruct (compact s 1 1 l) as [[x y]|]; [|discriminate].
      cbn [obind] in E2. injection E2 as <- <-. cbn in P3. congruence.
    + exfalso. symmetry in F. apply first_eq_none in F. apply F. eapply nth_error_In with (n := 0%nat).
      rewrite nth_error_firstn_lt by lia. exact NB.
Qed.
