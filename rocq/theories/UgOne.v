(** The accessor of stage one: it gives the cell of stage one for every index. *)
From Coq Require Import ZArith NArith List Bool Lia Arith.
From Verif Require Import UgModel UgLists.
Import ListNotations.

Lemma run_length_nth v l : forall i, (i < run_length v l)%nat -> nth_error l i = Some v.
Proof.
  induction l as [|x l IH]; intros i H; cbn [run_length] in H; [lia|].
  destruct (x =? v)%nat eqn:E; [|lia]. apply Nat.eqb_eq in E. subst x.
  destruct i; cbn; [reflexivity|]. apply IH. lia.
Qed.
Lemma run_length_le v l : (run_length v l <= List.length l)%nat.
Proof. induction l as [|x l IH]; cbn [run_length List.length]; [lia|]. destruct (x =? v)%nat; lia. Qed.
Lemma run_length_end v l : nth_error l (run_length v l) <> Some v.
Proof.
  induction l as [|x l IH]; cbn [run_length]; [discriminate|].
  destruct (x =? v)%nat eqn:E; cbn [nth_error]; [apply IH|]. intros H. injection H as ->. now rewrite Nat.eqb_refl in E.
Qed.

(** What [collect] guarantees about the cells of [l], which start at index [pos]. *)
Definition cell (l : list nat) (pos i : nat) : option nat := if (pos <=? i)%nat then nth_error l (i - pos) else None.
Fixpoint ordered (lo hi : nat) (rs : list range) : Prop :=
  match rs with
  | [] => True
  | r :: rest => (lo <= rg_first r)%nat /\ (rg_first r < rg_last r)%nat /\ (rg_last r <= hi)%nat /\ ordered (rg_last r) hi rest
  end.
Lemma ordered_weaken lo lo' hi rs : (lo' <= lo)%nat -> ordered lo hi rs -> ordered lo' hi rs.
Proof. destruct rs as [|r rs]; cbn; [auto|]. intros ? ?. intuition lia. Qed.
Lemma collect_spec dflt fuel : forall pos l os rs, (List.length l <= fuel)%nat -> collect fuel dflt pos l = (os, rs) ->
  (forall i v, In (i, v) os -> cell l pos i = Some v) /\
  (forall r i, In r rs -> (rg_first r <= i < rg_last r)%nat -> cell l pos i = Some (rg_value r)) /\
  ordered pos (pos + List.length l) rs /\
  (forall i v, cell l pos i = Some v -> v <> dflt ->
     In (i, v) os \/ exists r, In r rs /\ (rg_first r <= i < rg_last r)%nat).
Proof.
  induction fuel as [|fuel IH]; intros pos l os rs L H.
  - destruct l; [|cbn in L; lia]. cbn in H. injection H as <- <-.
    split; [intros ? ? []|split; [intros ? ? []|split; [exact I|]]].
    intros i v C. unfold cell in C. destruct (pos <=? i)%nat; [|discriminate]. destruct (i - pos)%nat; discriminate.
  - destruct l as [|v r]; cbn [collect] in H.
    + injection H as <- <-. split; [intros ? ? []|split; [intros ? ? []|split; [exact I|]]].
      intros i v C. unfold cell in C. destruct (pos <=? i)%nat; [|discriminate]. destruct (i - pos)%nat; discriminate.
    + cbn [List.length] in L. destruct (v =? dflt)%nat eqn:E.
      * apply Nat.eqb_eq in E. subst v. assert (L' : (List.length r <= fuel)%nat) by lia. destruct (IH _ _ _ _ L' H) as (A1 & A2 & A3 & A4).
        assert (M : forall i x, cell r (S pos) i = Some x -> cell (dflt :: r) pos i = Some x).
        { intros i x C. unfold cell in *. destruct (S pos <=? i)%nat eqn:G; [|discriminate]. apply Nat.leb_le in G.
          rewrite (proj2 (Nat.leb_le pos i)) by lia. replace (i - pos)%nat with (S (i - S pos)) by lia. exact C. }
        split; [intros i v I; now apply M, A1|].
        split; [intros q i I R; now apply M, A2|].
        split; [apply ordered_weaken with (S pos); [lia|]; cbn [List.length]; replace (pos + S (List.length r))%nat with (S pos + List.length r)%nat by lia; exact A3|].
        intros i v C N. apply A4; [|exact N]. unfold cell in *. destruct (pos <=? i)%nat eqn:G; [|discriminate].
        apply Nat.leb_le in G. destruct (i - pos)%nat as [|k] eqn:K.
        { cbn in C. injection C as <-. congruence. }
        rewrite (proj2 (Nat.leb_le (S pos) i)) by lia. replace (i - S pos)%nat with k by lia. exact C.
      * set (k := run_length v r) in *.
        assert (Kl : (k <= List.length r)%nat) by apply run_length_le.
        destruct (collect fuel dflt (pos + 1 + k) (skipn k r)) as [os' rs'] eqn:C.
        assert (L' : (List.length (skipn k r) <= fuel)%nat) by (rewrite skipn_length; lia).
        destruct (IH _ _ _ _ L' C) as (A1 & A2 & A3 & A4).
        assert (M : forall i x, cell (skipn k r) (pos + 1 + k) i = Some x -> cell (v :: r) pos i = Some x).
        { intros i x D. unfold cell in *. destruct (pos + 1 + k <=? i)%nat eqn:G; [|discriminate]. apply Nat.leb_le in G.
          rewrite (proj2 (Nat.leb_le pos i)) by lia. rewrite nth_error_skipn in D.
          replace (i - pos)%nat with (S (k + (i - (pos + 1 + k)))) by lia. exact D. }
        assert (Here : forall i, (pos <= i < pos + 1 + k)%nat -> cell (v :: r) pos i = Some v).
        { intros i I. unfold cell. rewrite (proj2 (Nat.leb_le pos i)) by lia. destruct (i - pos)%nat as [|m] eqn:K; [reflexivity|].
          cbn [nth_error]. apply run_length_nth. fold k. lia. }
        assert (Split : forall i x, cell (v :: r) pos i = Some x ->
                  (pos <= i < pos + 1 + k)%nat /\ x = v \/ cell (skipn k r) (pos + 1 + k) i = Some x).
        { intros i x D. destruct (Nat.lt_ge_cases i (pos + 1 + k)) as [Q|Q].
          - left. assert (G : (pos <= i)%nat). { unfold cell in D. destruct (pos <=? i)%nat eqn:G; [now apply Nat.leb_le|discriminate]. }
            rewrite (Here i ltac:(lia)) in D. injection D as <-. split; [lia|reflexivity].
          - right. unfold cell in *. rewrite (proj2 (Nat.leb_le pos i)) in D by lia.
            rewrite (proj2 (Nat.leb_le (pos + 1 + k) i)) by lia. rewrite nth_error_skipn.
            replace (i - pos)%nat with (S (k + (i - (pos + 1 + k)))) in D by lia. exact D. }
        rewrite skipn_length in A3. cbn [List.length].
        replace (pos + 1 + k + (List.length r - k))%nat with (pos + S (List.length r))%nat in A3 by lia.
        destruct (1 + k <? 5)%nat eqn:W; assert (Eo := f_equal fst H); assert (Er := f_equal snd H); cbn [fst snd] in Eo, Er; subst os rs; clear H.
        -- split; [|split; [|split]].
           ++ intros i x I. apply in_app_or in I. destruct I as [I|I]; [|now apply M, A1].
              apply in_map_iff in I. destruct I as [q [Q1 Q2]]. injection Q1 as -> <-. apply in_seq in Q2. apply Here. lia.
           ++ intros q i I R. now apply M, A2.
           ++ apply ordered_weaken with (pos + 1 + k)%nat; [lia|exact A3].
           ++ intros i x D N. destruct (Split i x D) as [[Q ->]|D'].
              ** left. apply in_or_app. left. apply in_map_iff. exists i. split; [reflexivity|]. apply in_seq. lia.
              ** destruct (A4 i x D' N) as [I|I]; [left; apply in_or_app; now right|now right].
        -- split; [|split; [|split]].
           ++ intros i x I. now apply M, A1.
           ++ intros q i [<-|I] R; cbn in *; [apply Here; lia|now apply M, A2].
           ++ cbn. split; [lia|]. split; [lia|]. split; [lia|exact A3].
           ++ intros i x D N. destruct (Split i x D) as [[Q ->]|D'].
              ** right. eexists. split; [left; reflexivity|]. cbn. lia.
              ** destruct (A4 i x D' N) as [I|[q [I R]]]; [now left|right; exists q; split; [now right|exact R]].
Qed.

(** Joined ranges: wrong only at outliers, and at least as large. *)
Definition outlier (os : list (nat * nat)) (i : nat) : Prop := exists v, In (i, v) os.
Lemma join_spec (l : nat -> option nat) os hi : forall rs cur lo, ordered lo hi (cur :: rs) ->
  (forall r i, In r (cur :: rs) -> (rg_first r <= i < rg_last r)%nat -> ~ outlier os i -> l i = Some (rg_value r)) ->
  (forall r i, In r (join os cur rs) -> (rg_first r <= i < rg_last r)%nat -> ~ outlier os i -> l i = Some (rg_value r)) /\
  (forall r, In r (join os cur rs) -> (rg_last r <= hi)%nat) /\
  (forall i r, In r (cur :: rs) -> (rg_first r <= i < rg_last r)%nat ->
     exists r', In r' (join os cur rs) /\ (rg_first r' <= i < rg_last r')%nat).
Proof.
  induction rs as [|next rest IH]; intros cur lo O A.
  - cbn [join]. split; [exact A|]. split; [|intros i r I R; eauto]. intros r [<-|[]]. cbn in O. lia.
  - cbn [join]. cbn [ordered] in O. destruct O as (O1 & O2 & O3 & O4 & O5 & O6 & O7).
    destruct ((rg_value cur =? rg_value next)%nat && _) eqn:E.
    + apply andb_true_iff in E. destruct E as [E1 E2]. apply Nat.eqb_eq in E1.
      set (m := {| rg_first := rg_first cur; rg_last := rg_last next; rg_value := rg_value cur |}).
      assert (Gap : forall i, (rg_last cur <= i < rg_first next)%nat -> outlier os i).
      { intros i G. rewrite forallb_forall in E2. specialize (E2 i ltac:(apply in_seq; lia)).
        apply existsb_exists in E2. destruct E2 as [[a b] [I Q]]. apply Nat.eqb_eq in Q. cbn in Q. subst a. now exists b. }
      assert (Om : ordered lo hi (m :: rest)) by (cbn; repeat split; try lia; exact O7).
      assert (A' : forall r i, In r (m :: rest) -> (rg_first r <= i < rg_last r)%nat -> ~ outlier os i -> l i = Some (rg_value r)).
      { intros r i [<-|I] R N; [|apply A; [now right; right|exact R|exact N]]. unfold m in *. cbn in *.
        destruct (Nat.lt_ge_cases i (rg_last cur)) as [Q|Q]; [apply (A cur); auto; lia|].
        destruct (Nat.lt_ge_cases i (rg_first next)) as [Q'|Q'].
        - now destruct (N (Gap i ltac:(lia))).
        - rewrite E1. apply (A next); auto. lia. }
      destruct (IH m lo Om A') as (B1 & B2 & B3). split; [exact B1|]. split; [exact B2|].
      intros i r [<-|[<-|I]] R.
      * apply (B3 i m); [now left|cbn; lia].
      * apply (B3 i m); [now left|cbn; lia].
      * apply (B3 i r); [now right|exact R].
    + destruct (IH next (rg_last cur)) as (B1 & B2 & B3).
      { cbn. repeat split; try lia; exact O7. } { intros r i I. apply A. now right. }
      split; [|split].
      * intros r i [<-|I]; [apply A; now left|now apply B1].
      * intros r [<-|I]; [lia|now apply B2].
      * intros i r [<-|I] R; [exists cur; split; [now left|exact R]|].
        destruct (B3 i r I R) as [r' [I' R']]. exists r'. split; [now right|exact R'].
Qed.

(** Execution of the ranges. *)
Lemma run_ranges tab d rs : forall i,
  run_one tab (map (fun r => IfRange (rg_first r) (rg_last r) (rg_value r)) rs ++ [Return d]) i =
  match find (fun r => (rg_first r <=? i)%nat && (i <? rg_last r)%nat) rs with
  | Some r => Some (Z.of_nat (rg_value r))
  | None => Some d
  end.
Proof.
  induction rs as [|r rs IH]; intros i; cbn [map app run_one find]; [reflexivity|].
  destruct ((rg_first r <=? i)%nat && (i <? rg_last r)%nat); [reflexivity|]. apply IH.
Qed.

Definition one_cells (fl : flags) (t : tables) : list nat :=
  if f_prune1 fl then firstn (t_one_size t) (t_one t) else t_one t.

(** The accessor, for an index that stage one has. *)
Lemma one_function_in fl t tab i v :
  (t_one_size t <= List.length (t_one t))%nat ->
  tab = zs (one_cells fl t) ->
  nth_error (t_one t) i = Some v ->
  run_one tab (one_function fl t) i = Some (Z.of_nat v).
Proof.
  intros Hs -> Hi.
  assert (Li : (i < List.length (t_one t))%nat) by (apply nth_error_Some; congruence).
  unfold one_function. set (dflt := t_start t). set (rest := skipn (t_one_size t) (t_one t)).
  set (all_default := forallb (fun v0 => (v0 =? dflt)%nat) rest).
  assert (Pre : forall body, run_one (zs (one_cells fl t))
     ((if f_invalid fl then if negb (f_prune1 fl) || negb all_default then [IfGe (List.length (t_one t)) (Z.of_nat dflt)] else []
       else if f_assert fl then [Assert (List.length (t_one t))] else []) ++ body) i = run_one (zs (one_cells fl t)) body i).
  { intros body. destruct (f_invalid fl).
    - destruct (negb (f_prune1 fl) || negb all_default); cbn [app run_one]; [|reflexivity].
      destruct (List.length (t_one t) <=? i)%nat eqn:E; [apply Nat.leb_le in E; lia|reflexivity].
    - destruct (f_assert fl); cbn [app run_one]; [|reflexivity]. now rewrite (proj2 (Nat.ltb_lt _ _) Li). }
  rewrite Pre. clear Pre. unfold one_cells.
  assert (Tab : (i < t_one_size t)%nat -> nth_error (zs (firstn (t_one_size t) (t_one t))) i = Some (Z.of_nat v)).
  { intros L. unfold zs. erewrite map_nth_error; [reflexivity|]. rewrite nth_error_firstn_lt by exact L. exact Hi. }
  assert (Rest : (t_one_size t <= i)%nat -> nth_error rest (i - t_one_size t) = Some v).
  { intros L. unfold rest. rewrite nth_error_skipn. replace (t_one_size t + (i - t_one_size t))%nat with i by lia. exact Hi. }
  destruct (f_prune1 fl).
  - destruct all_default eqn:AD.
    + cbn [run_one]. destruct (i <? t_one_size t)%nat eqn:E; [apply Nat.ltb_lt in E; now apply Tab|]. apply Nat.ltb_ge in E.
      unfold all_default in AD. rewrite forallb_forall in AD.
      specialize (AD v (nth_error_In _ _ (Rest E))). apply Nat.eqb_eq in AD. now rewrite AD.
    + destruct (collect (List.length rest) dflt (t_one_size t) rest) as [os rs] eqn:C.
      destruct (collect_spec _ _ _ _ _ _ (le_n _) C) as (A1 & A2 & A3 & A4).
      cbn [app run_one]. destruct (i <? t_one_size t)%nat eqn:E; [apply Nat.ltb_lt in E; now apply Tab|]. apply Nat.ltb_ge in E.
      assert (Ce : cell rest (t_one_size t) i = Some v). { unfold cell. rewrite (proj2 (Nat.leb_le _ _) E). now apply Rest. }
      set (rs' := match rs with [] => [] | r :: rs0 => join os r rs0 end).
      assert (J : (forall r j, In r rs' -> (rg_first r <= j < rg_last r)%nat -> ~ outlier os j -> cell rest (t_one_size t) j = Some (rg_value r)) /\
                  (forall j r, In r rs -> (rg_first r <= j < rg_last r)%nat -> exists r', In r' rs' /\ (rg_first r' <= j < rg_last r')%nat)).
      { unfold rs'. destruct rs as [|r rs]; [split; [intros ? ? []|intros ? ? []]|].
        destruct (join_spec (cell rest (t_one_size t)) os _ _ _ _ A3 (fun q j I R _ => A2 q j I R)) as (B1 & _ & B3). now split. }
      destruct J as [J1 J2].
      assert (Body : ~ outlier os i -> run_one (zs (firstn (t_one_size t) (t_one t)))
                (map (fun r => IfRange (rg_first r) (rg_last r) (rg_value r)) rs' ++ [Return (Z.of_nat dflt)]) i = Some (Z.of_nat v)).
      { intros N. rewrite run_ranges.
        destruct (find _ rs') as [r|] eqn:F.
        - apply find_some in F. destruct F as [F1 F2]. apply andb_true_iff in F2. rewrite Nat.leb_le, Nat.ltb_lt in F2.
          rewrite (J1 r i F1 ltac:(lia) N) in Ce. now injection Ce as ->.
        - destruct (Nat.eq_dec v dflt) as [->|D]; [reflexivity|]. exfalso.
          destruct (A4 i v Ce D) as [I|[r [I R]]]; [apply N; now exists v|].
          destruct (J2 i r I R) as [r' [I' R']]. apply (find_none _ _ F) in I'.
          rewrite (proj2 (Nat.leb_le _ _)), (proj2 (Nat.ltb_lt _ _)) in I' by lia. discriminate. }
      destruct os as [|o os].
      * cbn [app]. apply Body. intros [w []].
      * cbn [app run_one]. destruct (find (fun c => (fst c =? i)%nat) (o :: os)) as [[a b]|] eqn:F.
        -- apply find_some in F. destruct F as [F1 F2]. apply Nat.eqb_eq in F2. cbn in F2. subst a.
           apply A1 in F1. rewrite F1 in Ce. now injection Ce as ->.
        -- apply Body. intros [w W]. apply (find_none _ _ F) in W. cbn in W. now rewrite Nat.eqb_refl in W.
  - cbn [run_one]. unfold zs. erewrite map_nth_error; [reflexivity|exact Hi].
Qed.

(** The accessor behind stage one, if invalid code points are handled. *)
Lemma one_function_out fl t tab i :
  (t_one_size t <= List.length (t_one t))%nat ->
  f_invalid fl = true -> (List.length (t_one t) <= i)%nat ->
  run_one tab (one_function fl t) i = Some (Z.of_nat (t_start t)).
Proof.
  intros Hs Hf Li. unfold one_function. rewrite Hf.
  destruct (f_prune1 fl); cbn [negb orb app].
  - destruct (forallb _ _); cbn [negb app run_one].
    + destruct (i <? t_one_size t)%nat eqn:E; [apply Nat.ltb_lt in E; lia|reflexivity].
    + destruct (collect _ _ _ _) as [os rs]. cbn [run_one]. now rewrite (proj2 (Nat.leb_le _ _) Li).
  - cbn [run_one]. now rewrite (proj2 (Nat.leb_le _ _) Li).
Qed.

Lemma shrink_le s1 d : forall i n, shrink s1 d i = Some n -> (i < List.length s1)%nat -> (n <= List.length s1)%nat.
Proof.
  induction i as [|i IH]; intros n H L; cbn [shrink] in H.
  - injection H as <-. lia.
  - destruct (nth_error s1 (S i)) as [v|]; [|discriminate]. cbn [obind] in H.
    destruct (v =? d)%nat; [apply IH; [exact H|lia]|]. injection H as <-. lia.
Qed.
