(** Facts about the list functions of UgModel.v. *)
From Coq Require Import ZArith NArith List Bool Lia Arith.
From Verif Require Import UgModel.
Import ListNotations.

Lemma zlist_eqb_eq a : forall b, zlist_eqb a b = true <-> a = b.
Proof.
  induction a as [|x a IH]; intros [|y b]; cbn [zlist_eqb]; split; intros H; try discriminate; auto.
  - apply andb_true_iff in H. destruct H as [H1 H2]. apply Z.eqb_eq in H1. apply IH in H2. congruence.
  - injection H as -> ->. rewrite Z.eqb_refl. cbn. now apply IH.
Qed.
Lemma nlist_eqb_eq a : forall b, nlist_eqb a b = true <-> a = b.
Proof.
  induction a as [|x a IH]; intros [|y b]; cbn [nlist_eqb]; split; intros H; try discriminate; auto.
  - apply andb_true_iff in H. destruct H as [H1 H2]. apply Nat.eqb_eq in H1. apply IH in H2. congruence.
  - injection H as -> ->. rewrite Nat.eqb_refl. cbn. now apply IH.
Qed.
Lemma edata_eqb_eq a b : edata_eqb a b = true <-> a = b.
Proof.
  unfold edata_eqb. rewrite zlist_eqb_eq. split; [|now intros ->].
  destruct a, b. unfold edata_cells. cbn. intros H. injection H as -> -> -> -> -> -> -> -> -> -> -> -> -> -> -> -> ->. reflexivity.
Qed.

Lemma guard_some b u : guard b = Some u -> b = true.
Proof. unfold guard. destruct b; [auto|discriminate]. Qed.

Lemma set_nth_length {A} i (x : A) l : List.length (set_nth i x l) = List.length l.
Proof.
  unfold set_nth. destruct (i <? List.length l)%nat eqn:E; [|reflexivity]. apply Nat.ltb_lt in E.
  rewrite app_length. cbn [List.length]. rewrite firstn_length, skipn_length. lia.
Qed.
Lemma set_nth_same {A} i (x : A) l : (i < List.length l)%nat -> nth_error (set_nth i x l) i = Some x.
Proof.
  intros H. unfold set_nth. rewrite (proj2 (Nat.ltb_lt _ _) H).
  rewrite nth_error_app2; rewrite firstn_length; [|lia].
  replace (i - Nat.min i (List.length l))%nat with 0%nat by lia. reflexivity.
Qed.
Lemma nth_error_firstn_lt {A} (l : list A) : forall k i, (i < k)%nat -> nth_error (firstn k l) i = nth_error l i.
Proof.
  induction l as [|x l IH]; intros k i H.
  - rewrite firstn_nil. reflexivity.
  - destruct k; [lia|]. destruct i; cbn; [reflexivity|]. apply IH. lia.
Qed.
Lemma nth_error_skipn {A} (l : list A) : forall k i, nth_error (skipn k l) i = nth_error l (k + i).
Proof.
  induction l as [|x l IH]; intros k i.
  - rewrite skipn_nil. destruct i, k; reflexivity.
  - destruct k; cbn; [reflexivity|]. apply IH.
Qed.
Lemma set_nth_other {A} i j (x : A) l : i <> j -> nth_error (set_nth i x l) j = nth_error l j.
Proof.
  intros H. unfold set_nth. destruct (i <? List.length l)%nat eqn:E; [|reflexivity]. apply Nat.ltb_lt in E.
  destruct (Nat.lt_ge_cases j i) as [L|L].
  - rewrite nth_error_app1; [|rewrite firstn_length; lia]. now apply nth_error_firstn_lt.
  - rewrite nth_error_app2; rewrite firstn_length; [|lia].
    replace (j - Nat.min i (List.length l))%nat with (S (j - S i)) by lia. cbn [nth_error].
    rewrite nth_error_skipn. f_equal. lia.
Qed.

Lemma omap_length {A C} (f : A -> option C) l : forall r, omap f l = Some r -> List.length r = List.length l.
Proof.
  induction l as [|x l IH]; intros r H; cbn [omap] in H.
  - injection H as <-. reflexivity.
  - destruct (f x) as [y|]; [|discriminate]. cbn [obind] in H. destruct (omap f l) as [ys|] eqn:E; [|discriminate].
    cbn [obind] in H. injection H as <-. cbn. f_equal. now apply IH.
Qed.
Lemma omap_nth {A C} (f : A -> option C) l : forall r i x, omap f l = Some r -> nth_error l i = Some x ->
  exists y, nth_error r i = Some y /\ f x = Some y.
Proof.
  induction l as [|a l IH]; intros r i x H N; [destruct i; discriminate|]. cbn [omap] in H.
  destruct (f a) as [y|] eqn:F; [|discriminate]. cbn [obind] in H. destruct (omap f l) as [ys|] eqn:E; [|discriminate].
  cbn [obind] in H. injection H as <-. destruct i; cbn [nth_error] in *.
  - injection N as ->. eauto.
  - eapply IH; eauto.
Qed.
Lemma omap_in {A C} (f : A -> option C) l r y : omap f l = Some r -> In y r -> exists x, In x l /\ f x = Some y.
Proof.
  intros H I. apply In_nth_error in I. destruct I as [i I].
  assert (L : (i < List.length l)%nat). { rewrite <- (omap_length _ _ _ H). apply nth_error_Some. congruence. }
  destruct (nth_error l i) as [x|] eqn:E; [|apply nth_error_None in E; lia].
  destruct (omap_nth _ _ _ _ _ H E) as [y' [Y F]]. exists x. split; [eapply nth_error_In; eauto|congruence].
Qed.
Lemma omap_total {A C} (f : A -> option C) l : (forall x, In x l -> exists y, f x = Some y) -> exists r, omap f l = Some r.
Proof.
  induction l as [|x l IH]; intros H; [now exists []|].
  destruct (H x (or_introl eq_refl)) as [y F]. destruct (IH (fun z I => H z (or_intror I))) as [r R].
  exists (y :: r). cbn [omap]. rewrite F. cbn [obind]. rewrite R. reflexivity.
Qed.
