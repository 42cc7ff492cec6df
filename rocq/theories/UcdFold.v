(** The two case foldings as total functions and what the checks of UcdProofs say about them. *)
From Coq Require Import Arith NArith ZArith List Bool Lia ZifyBool ZifyNat ZifyN.
From Verif Require Import Base UniSpec UcdData UcdModel UcdProofs.
Import ListNotations.
Local Open Scope N_scope.

Definition sf (cp : N) : N := match simple_fold cp with Some f => f | None => cp end.
Definition ff (cp : N) : list N := match full_fold cp with Some l => l | None => [cp] end.

Lemma scalarb_spec v : scalarb v = true <-> scalar v.
Proof. unfold scalarb, scalar. lia. Qed.
Lemma scalar_le v : scalar v -> v <= 1114111.
Proof. unfold scalar. lia. Qed.
Lemma digitb_spec v : digitb v = true <-> is_digit v.
Proof. unfold digitb, is_digit. lia. Qed.
Lemma add_i32_0 cp : cp <= 1114111 -> add_i32 cp 0 = cp.
Proof. intros H. unfold add_i32. rewrite Z.add_0_r, Z.mod_small by lia. lia. Qed.

Lemma simple_fold_facts cp : cp <= 1114111 -> exists f, simple_fold cp = Some f /\ f <= 1114111 /\ (scalar f <-> scalar cp)
  /\ 2 * utf8_size f <= 3 * utf8_size cp /\ (is_digit f <-> is_digit cp) /\ (is_digit cp -> f = cp) /\ simple_fold f = Some f.
Proof.
  intros L. destruct (check_spec _ simple_check cp L) as [[[[b0 b1] full] off] [E C]].
  unfold simple_fold at 1. rewrite E. cbn beta iota in C. destruct (off =? 0)%Z eqn:Z0.
  - apply Z.eqb_eq in Z0. subst off. rewrite (add_i32_0 cp L). exists cp. split; [reflexivity|].
    split; [exact L|]. split; [tauto|]. split; [lia|]. split; [tauto|]. split; [reflexivity|].
    unfold simple_fold. rewrite E, (add_i32_0 cp L). reflexivity.
  - remember (add_i32 cp off) as f eqn:F. exists f. split; [reflexivity|].
    repeat (apply andb_prop in C as [C ?]). rename H into I, H0 into D1, H1 into D2, H2 into S2, H3 into S1.
    apply N.leb_le in C. apply Bool.eqb_prop in S1. apply N.leb_le in S2.
    apply negb_true_iff in D1, D2.
    split; [exact C|]. split; [rewrite <- !scalarb_spec, S1; tauto|]. split; [exact S2|].
    rewrite <- !digitb_spec, D1, D2. split; [tauto|]. split; [discriminate|].
    destruct (tmu_get_ucd_internal f) as [[[[c0 c1] full'] off']|] eqn:E'; [|discriminate].
    apply Z.eqb_eq in I. subst off'. unfold simple_fold. rewrite E', (add_i32_0 f C). reflexivity.
Qed.
Lemma full_fold_facts cp : cp <= 1114111 -> exists l, full_fold cp = Some l /\ l <> [] /\ (length l <= 3)%nat
  /\ (scalar cp -> Forall scalar l) /\ sum (map utf8_size l) <= 3 * utf8_size cp
  /\ (is_digit cp -> l = [cp]) /\ (~ is_digit cp -> Forall (fun c => ~ is_digit c) l)
  /\ Forall (fun c => full_fold c = Some [c]) l.
Proof.
  intros L. destruct (check_spec _ full_check cp L) as [[[[b0 b1] full] off] [E C]].
  unfold full_fold at 1. rewrite E. cbn beta iota in C. destruct ((full =? 0) && (off =? 0)%Z) eqn:Z0.
  - apply andb_prop in Z0 as [Z1 Z0]. rewrite Z1. apply Z.eqb_eq in Z0. subst off. rewrite (add_i32_0 cp L).
    exists [cp]. split; [reflexivity|]. split; [discriminate|]. split; [cbn [length]; lia|].
    split; [auto|]. split; [cbn [map sum fold_right]; lia|]. split; [reflexivity|]. split; [auto|].
    constructor; [|constructor]. unfold full_fold. rewrite E, Z1, (add_i32_0 cp L). reflexivity.
  - destruct (if full =? 0 then Some [add_i32 cp off] else read_run (skipn (N.to_nat full) tmu_codepoint_runs)) as [l|]; [|discriminate].
    exists l. split; [reflexivity|].
    repeat (apply andb_prop in C as [C ?]). rename H into I, H0 into S0, H1 into D, H2 into S3, H3 into S2.
    rewrite forallb_forall in I. apply negb_true_iff in D.
    split; [intros ->; discriminate|]. split; [lia|].
    split; [intros _; apply Forall_forall; intros c Hc; specialize (I c Hc); apply scalarb_spec; destruct (scalarb c); [reflexivity|rewrite andb_false_r in I; discriminate]|].
    split; [lia|]. split; [rewrite <- digitb_spec; congruence|].
    split; [intros _; apply Forall_forall; intros c Hc; specialize (I c Hc); rewrite <- digitb_spec; destruct (digitb c); [discriminate|discriminate]|].
    apply Forall_forall. intros c Hc. specialize (I c Hc). apply andb_prop in I as [I1 I2]. apply andb_prop in I1 as [_ I1].
    apply scalarb_spec, scalar_le in I1. unfold full_fold.
    destruct (tmu_get_ucd_internal c) as [[[[c0 c1] full'] off']|]; [|discriminate].
    apply andb_prop in I2 as [-> I2]. apply Z.eqb_eq in I2. subst off'. rewrite (add_i32_0 c I1). reflexivity.
Qed.

Lemma simple_ok v : scalar v -> simple_fold v = Some (sf v).
Proof. intros S. unfold sf. destruct (simple_fold_facts v (scalar_le v S)) as [f [-> _]]. reflexivity. Qed.
Lemma sf_scalar v : scalar v -> scalar (sf v).
Proof. intros S. unfold sf. destruct (simple_fold_facts v (scalar_le v S)) as [f [-> [_ [H _]]]]. tauto. Qed.
Lemma full_ok v : scalar v -> full_fold v = Some (ff v).
Proof. intros S. unfold ff. destruct (full_fold_facts v (scalar_le v S)) as [f [-> _]]. reflexivity. Qed.
Lemma full_ne v : scalar v -> ff v <> [].
Proof. intros S. unfold ff. destruct (full_fold_facts v (scalar_le v S)) as [f [-> [H _]]]. exact H. Qed.
Lemma ff_scalar v : scalar v -> Forall scalar (ff v).
Proof. intros S. unfold ff. destruct (full_fold_facts v (scalar_le v S)) as [f [-> [_ [_ [H _]]]]]. auto. Qed.
Lemma ff_digit v : is_digit v -> ff v = [v].
Proof. intros D. assert (L : v <= 1114111) by (unfold is_digit in D; lia). unfold ff. destruct (full_fold_facts v L) as [f [-> [_ [_ [_ [_ [H _]]]]]]]. auto. Qed.
Lemma ff_nodigit v : scalar v -> ~ is_digit v -> Forall (fun c => ~ is_digit c) (ff v).
Proof. intros S D. unfold ff. destruct (full_fold_facts v (scalar_le v S)) as [f [-> [_ [_ [_ [_ [_ [H _]]]]]]]]. auto. Qed.
Lemma sf_idem v : scalar v -> sf (sf v) = sf v.
Proof. intros S. unfold sf at 2 3. destruct (simple_fold_facts v (scalar_le v S)) as [f [-> [_ [_ [_ [_ [_ H]]]]]]]. unfold sf. rewrite H. reflexivity. Qed.
Lemma ff_idem v : scalar v -> flat_map ff (ff v) = ff v.
Proof.
  intros S. unfold ff at 2 3. destruct (full_fold_facts v (scalar_le v S)) as [l [-> [_ [_ [_ [_ [_ [_ H]]]]]]]].
  induction H as [|c l E F IH]; [reflexivity|]. cbn [flat_map]. rewrite IH. unfold ff. rewrite E. reflexivity.
Qed.
