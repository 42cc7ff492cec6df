(** Blocks without a table: the expression of a case gives the cells of its block. Rearranging the blocks keeps every
    cell that can be reached from stage one. *)
From Coq Require Import ZArith NArith List Bool Lia Arith Permutation.
From Verif Require Import UgModel UgLists UgOne.
Import ListNotations.

Fixpoint tiles (pos : nat) (rs : list range) (e : nat) : Prop :=
  match rs with
  | [] => pos = e
  | r :: t => rg_first r = pos /\ (pos < rg_last r)%nat /\ tiles (rg_last r) t e
  end.
Lemma extract_spec n : forall pos l rs rest, extract n pos l = (rs, rest) ->
  tiles pos rs (pos + (List.length l - List.length rest)) /\ (List.length rest <= List.length l)%nat /\
  (forall r i, In r rs -> (rg_first r <= i < rg_last r)%nat -> cell l pos i = Some (rg_value r)).
Proof.
  induction n as [|n IH]; intros pos l rs rest H.
  - cbn in H. injection H as <- <-. cbn. split; [lia|]. split; [lia|]. intros ? ? [].
  - destruct l as [|v r]; cbn [extract] in H.
    + injection H as <- <-. cbn. split; [lia|]. split; [lia|]. intros ? ? [].
    + set (k := run_length v r) in *. assert (Kl : (k <= List.length r)%nat) by apply run_length_le.
      destruct (extract n (pos + 1 + k) (skipn k r)) as [rs' rest'] eqn:E.
      assert (Er := f_equal fst H); assert (Eo := f_equal snd H); cbn [fst snd] in Eo, Er; subst rs rest'; clear H.
      destruct (IH _ _ _ _ E) as (A1 & A2 & A3). rewrite skipn_length in A1, A2. cbn [List.length].
      split; [|split; [lia|]].
      * cbn [tiles rg_first rg_last]. split; [reflexivity|]. split; [lia|].
        replace (pos + (S (List.length r) - List.length rest))%nat with (pos + 1 + k + (List.length r - k - List.length rest))%nat by lia.
        exact A1.
      * intros q i [<-|I] R; cbn [rg_first rg_last rg_value] in *.
        -- unfold cell. rewrite (proj2 (Nat.leb_le pos i)) by lia. destruct (i - pos)%nat as [|m] eqn:K; [reflexivity|].
           cbn [nth_error]. apply run_length_nth. fold k. lia.
        -- specialize (A3 q i I R). unfold cell in *. destruct (pos + 1 + k <=? i)%nat eqn:G; [|discriminate]. apply Nat.leb_le in G.
           rewrite (proj2 (Nat.leb_le pos i)) by lia. rewrite nth_error_skipn in A3.
           replace (i - pos)%nat with (S (k + (i - (pos + 1 + k)))) by lia. exact A3.
Qed.

Lemma range_expr_eval B first last a b off : (first < last)%nat -> (off < B)%nat ->
  eval (range_expr B first last a b) off = if (first <=? off)%nat && (off <? last)%nat then a else b.
Proof.
  intros H O. unfold range_expr.
  destruct (last - first =? 1)%nat eqn:E1.
  - apply Nat.eqb_eq in E1. cbn [eval]. destruct (off =? first)%nat eqn:E; destruct (first <=? off)%nat eqn:F, (off <? last)%nat eqn:G;
      cbn [andb]; try reflexivity; rewrite ?Nat.eqb_eq, ?Nat.eqb_neq, ?Nat.leb_le, ?Nat.leb_gt, ?Nat.ltb_lt, ?Nat.ltb_ge in *; lia.
  - destruct (first =? 0)%nat eqn:E2.
    + apply Nat.eqb_eq in E2. subst first. reflexivity.
    + destruct (last =? B)%nat eqn:E3; cbn [eval].
      * apply Nat.eqb_eq in E3. subst last. rewrite (proj2 (Nat.ltb_lt _ _) O), andb_true_r. reflexivity.
      * reflexivity.
Qed.

Lemma nth_error_ext {A} : forall (a b : list A), (forall i, nth_error a i = nth_error b i) -> a = b.
Proof.
  induction a as [|x a IH]; intros [|y b] H; auto.
  - specialize (H 0%nat). discriminate.
  - specialize (H 0%nat). discriminate.
  - assert (H0 := H 0%nat). injection H0 as ->. f_equal. apply IH. intros i. exact (H (S i)).
Qed.
Lemma nth_error_repeat {A} (x : A) n i : (i < n)%nat -> nth_error (repeat x n) i = Some x.
Proof. revert i. induction n as [|n IH]; intros i H; [lia|]. destruct i; cbn; [reflexivity|]. apply IH. lia. Qed.

(** The cells of a block whose expression is wrong: x y x .. x y with at least two x in the middle. *)
Definition awkward (b : list nat) : Prop :=
  exists x y n, x <> y /\ (2 <= n)%nat /\ b = x :: y :: repeat x n ++ [y].

(** The expression of a block without a table. *)
Lemma trivial_case b rs off v : ~ awkward b -> trivial b = Some rs -> nth_error b off = Some v ->
  exists e, case_expr (List.length b) rs = Some e /\ eval e off = v.
Proof.
  unfold trivial. intros NA H N. assert (O : (off < List.length b)%nat) by (apply nth_error_Some; congruence).
  destruct (extract 5 0 b) as [rs' rest] eqn:E. destruct rest; [|discriminate].
  destruct (extract_spec _ _ _ _ _ E) as (T & _ & C). cbn [List.length] in T. rewrite Nat.sub_0_r, Nat.add_0_l in T.
  assert (V : forall r, In r rs' -> (rg_first r <= off < rg_last r)%nat -> rg_value r = v).
  { intros r I R. specialize (C r off I R). unfold cell in C. cbn [Nat.leb] in C. rewrite Nat.sub_0_r in C. congruence. }
  assert (Five : forall r, In r rs' -> (rg_first r < rg_last r)%nat).
  { clear -T. revert T. generalize 0%nat as pos. induction rs' as [|r l IH]; intros pos T q I; [destruct I|].
    cbn [tiles] in T. destruct T as (T1 & T2 & T3). destruct I as [<-|I]; [lia|eauto]. }
  destruct rs' as [|r0 [|r1 [|r2 [|r3 [|r4 [|r5 q]]]]]]; try discriminate.
  - injection H as <-. cbn [tiles] in T. eexists. split; [reflexivity|]. cbn [eval]. apply V; [now left|lia].
  - injection H as <-. cbn [tiles] in T. eexists. split; [reflexivity|]. rewrite range_expr_eval by lia.
    destruct ((rg_first r0 <=? off)%nat && (off <? rg_last r0)%nat) eqn:Q.
    + apply andb_true_iff in Q. rewrite Nat.leb_le, Nat.ltb_lt in Q. apply V; [now left|lia].
    + apply andb_false_iff in Q. rewrite Nat.leb_gt, Nat.ltb_ge in Q. apply V; [now right; left|lia].
  - destruct (rg_value r0 =? rg_value r2)%nat eqn:Q0; [|discriminate]. apply Nat.eqb_eq in Q0. injection H as <-. cbn [tiles] in T.
    eexists. split; [reflexivity|]. rewrite range_expr_eval by lia.
    destruct ((rg_first r1 <=? off)%nat && (off <? rg_last r1)%nat) eqn:Q.
    + apply andb_true_iff in Q. rewrite Nat.leb_le, Nat.ltb_lt in Q. apply V; [now right; left|lia].
    + apply andb_false_iff in Q. rewrite Nat.leb_gt, Nat.ltb_ge in Q.
      destruct (Nat.lt_ge_cases off (rg_last r0)); [apply V; [now left|lia]|rewrite Q0; apply V; [now right; right; left|lia]].
  - destruct (_ && _) eqn:Q in H; [|discriminate]. injection H as <-. cbn [tiles] in T.
    rewrite !andb_true_iff, orb_true_iff, !andb_true_iff, !Nat.eqb_eq in Q. unfold rg_length in Q.
    eexists. split; [reflexivity|]. unfold rg_length. destruct Q as [[Q0 Q1] Q2].
    destruct (rg_last r0 - rg_first r0 =? 1)%nat eqn:L; cbn [eval].
    + apply Nat.eqb_eq in L.
      destruct (off =? rg_first r0)%nat eqn:E0; cbn [orb]; [apply Nat.eqb_eq in E0; apply V; [now left|lia]|].
      apply Nat.eqb_neq in E0.
      destruct Q2 as [[_ Q2]|[Q2 Q3]].
      * destruct (off =? rg_first r2)%nat eqn:E2.
        -- apply Nat.eqb_eq in E2. rewrite Q0. apply V; [now right; right; left|lia].
        -- apply Nat.eqb_neq in E2. destruct (Nat.lt_ge_cases off (rg_last r1)); [apply V; [now right; left|lia]|].
           rewrite Q1. apply V; [now right; right; right; left|lia].
      * destruct (off =? rg_first r2)%nat eqn:E2.
        -- apply Nat.eqb_eq in E2. rewrite Q0. apply V; [now right; right; left|].
           assert (rg_first r2 < rg_last r2)%nat by (apply Five; now right; right; left). lia.
        -- apply Nat.eqb_neq in E2.
           destruct (Nat.lt_ge_cases off (rg_last r1)); [apply V; [now right; left|lia]|].
           destruct (Nat.lt_ge_cases off (rg_last r2)); [|rewrite Q1; apply V; [now right; right; right; left|lia]].
           destruct (Nat.eq_dec (rg_value r0) (rg_value r1)) as [Same|Differ].
           { rewrite <- Same, Q0. apply V; [now right; right; left|lia]. }
           exfalso. apply NA. exists (rg_value r0), (rg_value r1), (rg_last r2 - rg_first r2)%nat.
           split; [exact Differ|]. split; [lia|].
           assert (C' : forall r i, In r [r0; r1; r2; r3] -> (rg_first r <= i < rg_last r)%nat -> nth_error b i = Some (rg_value r)).
           { intros r i I R. specialize (C r i I R). unfold cell in C. cbn [Nat.leb] in C. rewrite Nat.sub_0_r in C. exact C. }
           set (n := (rg_last r2 - rg_first r2)%nat).
           assert (Lb : List.length b = (3 + n)%nat) by (unfold n; lia).
           apply nth_error_ext. intros i. destruct i as [|[|i]].
           ++ rewrite (C' r0); [reflexivity|now left|lia].
           ++ rewrite (C' r1); [reflexivity|now right; left|lia].
           ++ change (nth_error (rg_value r0 :: rg_value r1 :: repeat (rg_value r0) n ++ [rg_value r1]) (S (S i)))
                with (nth_error (repeat (rg_value r0) n ++ [rg_value r1]) i).
              destruct (Nat.lt_ge_cases i n) as [I|I].
              ** rewrite nth_error_app1 by (rewrite repeat_length; exact I). rewrite nth_error_repeat by exact I.
                 rewrite Q0. apply C'; [now right; right; left|unfold n in I; lia].
              ** rewrite nth_error_app2 by (rewrite repeat_length; exact I). rewrite repeat_length.
                 destruct (i - n)%nat as [|k] eqn:K.
                 --- change (nth_error [rg_value r1] 0) with (Some (rg_value r1)). rewrite Q1. apply C'; [now right; right; right; left|unfold n in *; lia].
                 --- rewrite (proj2 (nth_error_None b (S (S i)))) by lia. destruct k; reflexivity.
    + apply Nat.eqb_neq in L. destruct Q2 as [[Q2 _]|[Q2 Q3]]; [lia|].
      destruct (off =? rg_first r1)%nat eqn:E1; cbn [orb]; [apply Nat.eqb_eq in E1; apply V; [now right; left|lia]|].
      apply Nat.eqb_neq in E1. destruct (off =? rg_first r3)%nat eqn:E3.
      * apply Nat.eqb_eq in E3. rewrite Q1. apply V; [now right; right; right; left|lia].
      * apply Nat.eqb_neq in E3. destruct (Nat.lt_ge_cases off (rg_last r0)); [apply V; [now left|lia]|].
        rewrite Q0. apply V; [now right; right; left|lia].
  - destruct (_ && _) eqn:Q in H; [|discriminate]. injection H as <-. cbn [tiles] in T.
    rewrite !andb_true_iff, !Nat.eqb_eq in Q. unfold rg_length in Q. destruct Q as [[[Q0 Q1] Q2] [Q3 Q4]].
    eexists. split; [reflexivity|]. cbn [eval].
    destruct (off =? rg_first r1)%nat eqn:E1; cbn [orb]; [apply Nat.eqb_eq in E1; apply V; [now right; left|lia]|].
    apply Nat.eqb_neq in E1. destruct (off =? rg_first r3)%nat eqn:E3.
    + apply Nat.eqb_eq in E3. rewrite Q2. apply V; [now right; right; right; left|lia].
    + apply Nat.eqb_neq in E3. destruct (Nat.lt_ge_cases off (rg_last r0)); [apply V; [now left|lia]|].
      destruct (Nat.lt_ge_cases off (rg_last r2)); [rewrite Q0; apply V; [now right; right; left|lia]|].
      rewrite Q1. apply V; [now do 4 right; left|lia].
Qed.

(** Rearranging. *)
Definition nontrivial (p : placed) : bool := match pl_ranges p with None => true | Some _ => false end.
Lemma place_one_spec bs : forall cur ps n, place_one cur bs = (ps, n) ->
  List.map pl_block ps = bs /\
  (forall p, In p ps -> pl_ranges p = trivial (pl_block p)) /\
  map pl_index (filter nontrivial ps) = seq cur (n - cur) /\ (cur <= n)%nat.
Proof.
  induction bs as [|b bs IH]; intros cur ps n H; cbn [place_one] in H.
  - injection H as <- <-. cbn. rewrite Nat.sub_diag. split; [reflexivity|]. split; [intros ? []|]. split; [reflexivity|lia].
  - destruct (place_one _ bs) as [ps' n'] eqn:E in H. injection H as <- <-.
    destruct (IH _ _ _ E) as (A1 & A2 & A3 & A4). cbn [map pl_block]. split; [now rewrite A1|].
    split; [intros p [<-|I]; [reflexivity|now apply A2]|].
    unfold nontrivial in *. cbn [filter pl_ranges]. destruct (trivial b); cbn [map pl_index].
    + now split.
    + rewrite A3. split; [|lia]. replace (n' - cur)%nat with (S (n' - S cur)) by lia. reflexivity.
Qed.
Lemma place_two_spec ps : forall cur,
  map pl_block (place_two cur ps) = map pl_block ps /\
  map pl_ranges (place_two cur ps) = map pl_ranges ps /\
  filter nontrivial (place_two cur ps) = filter nontrivial ps /\
  map pl_index (filter (fun p => negb (nontrivial p)) (place_two cur ps)) =
    seq cur (List.length (filter (fun p => negb (nontrivial p)) ps)).
Proof.
  induction ps as [|p ps IH]; intros cur; cbn [place_two]; [repeat split; reflexivity|].
  destruct (pl_ranges p) eqn:R.
  - destruct (IH (S cur)) as (A1 & A2 & A3 & A4). cbn [map pl_block pl_ranges]. rewrite A1, A2.
    split; [reflexivity|]. split; [now rewrite R|]. cbn [filter].
    assert (N : nontrivial p = false) by (unfold nontrivial; now rewrite R).
    unfold nontrivial at 1. cbn [pl_ranges]. rewrite N. split; [exact A3|].
    unfold nontrivial at 1. cbn [pl_ranges negb]. cbn [map pl_index List.length seq]. now rewrite A4.
  - destruct (IH cur) as (A1 & A2 & A3 & A4). cbn [map]. rewrite A1, A2.
    split; [reflexivity|]. split; [reflexivity|]. cbn [filter].
    assert (N : nontrivial p = true) by (unfold nontrivial; now rewrite R).
    rewrite N. cbn [negb]. split; [now rewrite A3|exact A4].
Qed.

Lemma assign_other l : forall (init : list placed) k, ~ In k (map pl_index l) ->
  nth_error (fold_left (fun acc p => set_nth (pl_index p) p acc) l init) k = nth_error init k.
Proof.
  induction l as [|p l IH]; intros init k H; cbn [fold_left]; [reflexivity|].
  cbn [map] in H. rewrite IH by (intros I; apply H; now right). apply set_nth_other. intros E. apply H. now left.
Qed.
Lemma assign_get l : forall (init : list placed) x, NoDup (map pl_index l) ->
  (forall p, In p l -> (pl_index p < List.length init)%nat) -> In x l ->
  nth_error (fold_left (fun acc p => set_nth (pl_index p) p acc) l init) (pl_index x) = Some x.
Proof.
  induction l as [|p l IH]; intros init x D L I; [destruct I|].
  cbn [map] in D. apply NoDup_cons_iff in D. destruct D as [D1 D2]. cbn [fold_left]. destruct I as [<-|I].
  - rewrite assign_other by exact D1. apply set_nth_same. apply L. now left.
  - apply IH; [exact D2| |exact I]. intros q Q. rewrite set_nth_length. apply L. now right.
Qed.
Lemma assign_length l : forall (init : list placed),
  List.length (fold_left (fun acc p => set_nth (pl_index p) p acc) l init) = List.length init.
Proof. induction l as [|p l IH]; intros init; cbn [fold_left]; [reflexivity|]. rewrite IH. apply set_nth_length. Qed.

Lemma filter_split_length {A} (f : A -> bool) l :
  (List.length (filter f l) + List.length (filter (fun x => negb (f x)) l) = List.length l)%nat.
Proof. induction l as [|x l IH]; cbn; [reflexivity|]. destruct (f x); cbn; lia. Qed.
Lemma filter_or {A} (f : A -> bool) l x : In x l -> In x (filter f l) \/ In x (filter (fun x => negb (f x)) l).
Proof.
  intros I. destruct (f x) eqn:E; [left|right]; apply filter_In; split; auto. now rewrite E.
Qed.
Lemma nodup_nth_index (a : list placed) start : map pl_index a = seq start (List.length a) ->
  forall k p, nth_error a k = Some p -> pl_index p = (start + k)%nat.
Proof.
  intros H k p N. assert (M := map_nth_error pl_index k a N). rewrite H in M.
  assert (L : (k < List.length a)%nat) by (apply nth_error_Some; congruence).
  rewrite (nth_error_nth' _ 0%nat) in M by (rewrite seq_length; exact L). rewrite seq_nth in M by exact L. congruence.
Qed.

(** The rearranged vector: blocks with tables first, then those without; each block is at its index. *)
Lemma rearrange_spec ps start :
  map pl_index (filter nontrivial ps) = seq 0 start ->
  map pl_index (filter (fun p => negb (nontrivial p)) ps) = seq start (List.length (filter (fun p => negb (nontrivial p)) ps)) ->
  rearrange ps = filter nontrivial ps ++ filter (fun p => negb (nontrivial p)) ps.
Proof.
  intros H1 H2. set (a := filter nontrivial ps) in *. set (b := filter (fun p => negb (nontrivial p)) ps) in *.
  assert (La : List.length a = start). { rewrite <- (map_length pl_index a), H1. apply seq_length. }
  assert (Lab : (List.length a + List.length b = List.length ps)%nat) by apply filter_split_length.
  assert (Ia : forall k p, nth_error a k = Some p -> pl_index p = k).
  { intros k p N. rewrite (nodup_nth_index a 0) with (k := k); [lia| |exact N]. now rewrite La. }
  assert (Ib : forall k p, nth_error b k = Some p -> pl_index p = (start + k)%nat) by (apply nodup_nth_index; exact H2).
  assert (It : forall k p, nth_error (a ++ b) k = Some p -> pl_index p = k).
  { intros k p N. destruct (Nat.lt_ge_cases k (List.length a)) as [L|L].
    - rewrite nth_error_app1 in N by exact L. now apply Ia.
    - rewrite nth_error_app2 in N by exact L. apply Ib in N. lia. }
  assert (Ll : forall p, In p ps -> (pl_index p < List.length ps)%nat).
  { intros p I. destruct (filter_or nontrivial ps p I) as [J|J]; apply In_nth_error in J; destruct J as [k K].
    - rewrite (Ia k p K). assert (k < List.length a)%nat by (apply nth_error_Some; unfold a; congruence). lia.
    - rewrite (Ib k p K). assert (k < List.length b)%nat by (apply nth_error_Some; unfold b; congruence). lia. }
  assert (D : NoDup (map pl_index ps)).
  { assert (Perm : Permutation.Permutation (map pl_index ps) (map pl_index (a ++ b))).
    { apply Permutation.Permutation_map. unfold a, b. clear. induction ps as [|p ps IH]; cbn; [constructor|].
      destruct (nontrivial p); cbn; [now constructor|]. apply Permutation.Permutation_cons_app. exact IH. }
    apply (Permutation.Permutation_NoDup (Permutation.Permutation_sym Perm)).
    rewrite map_app, H1, H2, <- seq_app. apply seq_NoDup. }
  apply nth_error_ext. intros k. destruct (nth_error (a ++ b) k) as [p|] eqn:N.
  - assert (K := It k p N). subst k. unfold rearrange. apply assign_get; [exact D| |].
    + intros q Q. rewrite repeat_length. now apply Ll.
    + apply nth_error_In in N. apply in_app_or in N. destruct N as [N|N]; apply filter_In in N; tauto.
  - apply nth_error_None. apply nth_error_None in N. unfold rearrange. rewrite assign_length, repeat_length.
    rewrite app_length in N. lia.
Qed.
