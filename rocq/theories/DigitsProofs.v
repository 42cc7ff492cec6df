From Coq Require Import NArith ZArith List Bool Lia ZifyBool ZifyNat ZifyN.
From Verif Require Import Base Tactics DigitsSpec.
Import ListNotations.
Local Open Scope N_scope.
Ltac Zify.zify_post_hook ::= Z.div_mod_to_equations.

Lemma number_snoc : forall b ds d, number b (ds ++ [d]) = number b ds * b + d.
Proof. intros. unfold number. rewrite fold_left_app. reflexivity. Qed.

Lemma number_acc : forall b ds a, fold_left (fun a d => a * b + d) ds a = a * b ^ N.of_nat (length ds) + number b ds.
Proof.
  intros b ds. induction ds as [|d ds IH]; intros a.
  - cbn. lia.
  - unfold number. cbn [fold_left length]. rewrite IH, (IH (0 * b + d)).
    rewrite Nat2N.inj_succ, N.pow_succ_r'. lia.
Qed.

Lemma number_cons : forall b d ds, number b (d :: ds) = d * b ^ N.of_nat (length ds) + number b ds.
Proof. intros. unfold number at 1. cbn [fold_left]. rewrite number_acc. f_equal; f_equal; lia. Qed.

Lemma number_lt : forall b ds, 0 < b -> Forall (fun d => d < b) ds -> number b ds < b ^ N.of_nat (length ds).
Proof.
  intros b ds Hb H. induction H as [|d ds Hd Hds IH]; [cbn; lia|].
  rewrite number_cons. cbn [length]. rewrite Nat2N.inj_succ, N.pow_succ_r'. nia.
Qed.

Lemma canonical_zero : forall b, 0 < b -> canonical b 0 [0].
Proof. intros. repeat split; [repeat constructor; lia|discriminate]. Qed.

Lemma canonical_small : forall b v, v < b -> canonical b v [v].
Proof.
  intros. repeat split; [repeat constructor; lia|discriminate|]. cbn. intros ->; reflexivity.
Qed.

Lemma canonical_step : forall b v ds, 2 <= b -> b <= v -> canonical b (v / b) ds -> canonical b v (ds ++ [v mod b]).
Proof.
  intros b v ds Hb Hv (N1 & F & Ne & Hd).
  assert (D0 : v / b <> 0). { intro E. apply N.div_small_iff in E; lia. }
  split; [rewrite number_snoc, N1, N.mul_comm; symmetry; apply N.div_mod; lia|].
  split; [apply Forall_app; split; [assumption|repeat constructor; apply N.mod_lt; lia]|].
  split; [destruct ds; discriminate|].
  destruct ds as [|d ds]; [contradiction|]. cbn [hd app]. intros ->.
  specialize (Hd eq_refl). injection Hd as ->. cbn in N1. lia.
Qed.

Lemma canonical_exists : forall b v, 2 <= b -> exists ds, canonical b v ds.
Proof.
  intros b v Hb. induction v as [v IH] using (well_founded_induction N.lt_wf_0).
  destruct (N.lt_ge_cases v b) as [H|H].
  - exists [v]. now apply canonical_small.
  - destruct (IH (v / b)) as [ds E]; [apply N.div_lt; lia|].
    exists (ds ++ [v mod b]). now apply canonical_step.
Qed.

Lemma canonical_ge : forall b v ds, 2 <= b -> canonical b v ds -> v <> 0 ->
  b ^ N.of_nat (length ds - 1) <= v.
Proof.
  intros b v ds Hb (N1 & F & Ne & Hd) Hv. destruct ds as [|d ds]; [contradiction|].
  rewrite number_cons in N1. cbn [length]. rewrite Nat.sub_succ, Nat.sub_0_r.
  assert (d <> 0).
  { intros ->. specialize (Hd eq_refl). injection Hd as ->. cbn in N1. lia. }
  subst v. nia.
Qed.

Lemma canonical_lt : forall b v ds, 2 <= b -> canonical b v ds -> v < b ^ N.of_nat (length ds).
Proof. intros b v ds Hb (<- & F & _). apply number_lt; [lia|assumption]. Qed.

Lemma canonical_length_pos : forall b v ds, canonical b v ds -> (1 <= length ds)%nat.
Proof. intros b v [|d ds] (_ & _ & Ne & _); [contradiction|]. cbn. lia. Qed.

Lemma canonical_count : forall b v ds, 2 <= b -> canonical b v ds -> is_digit_count b v (length ds).
Proof.
  intros b v ds Hb C. split; [eapply canonical_length_pos; eassumption|].
  split; [now apply canonical_lt|]. intros H1.
  destruct (N.eq_dec v 0) as [->|Hv]; [|now apply canonical_ge].
  exfalso. destruct C as (N1 & F & Ne & Hd). destruct ds as [|d ds]; [contradiction|].
  rewrite number_cons in N1. assert (d = 0).
  { assert (b ^ N.of_nat (length ds) <> 0) by (apply N.pow_nonzero; lia). nia. }
  specialize (Hd H). rewrite Hd in H1. cbn in H1. lia.
Qed.

Lemma digit_count_unique : forall b v k l, 2 <= b -> is_digit_count b v k -> is_digit_count b v l -> k = l.
Proof.
  assert (A : forall b v k l, 2 <= b -> is_digit_count b v k -> is_digit_count b v l -> (k < l)%nat -> False).
  { intros b v k l Hb (K1 & K2 & K3) (L1 & L2 & L3) H.
    assert (b ^ N.of_nat k <= b ^ N.of_nat (l - 1)) by (apply N.pow_le_mono_r; lia).
    specialize (L3 ltac:(lia)). lia. }
  intros b v k l Hb K L. destruct (Nat.lt_trichotomy k l) as [H|[H|H]]; [|assumption|]; exfalso; eauto.
Qed.

(** the last digit of a canonical representation *)
Lemma canonical_split : forall b v ds, 2 <= b -> canonical b v ds -> b <= v ->
  exists ds', ds = ds' ++ [v mod b] /\ canonical b (v / b) ds'.
Proof.
  intros b v ds Hb C Hv. pose proof (canonical_count _ _ _ Hb C) as K.
  destruct C as (N1 & F & Ne & Hd).
  destruct (exists_last Ne) as (ds' & d & ->). rewrite number_snoc in N1.
  apply Forall_app in F. destruct F as [F1 F2]. inversion F2 as [|? ? Hdb _]; subst.
  assert (E1 : (number b ds' * b + d) mod b = d).
  { rewrite N.add_comm, N.mod_add by lia. now apply N.mod_small. }
  assert (E2 : (number b ds' * b + d) / b = number b ds').
  { rewrite N.add_comm, N.div_add by lia. rewrite N.div_small by assumption. reflexivity. }
  exists ds'. rewrite E1, E2. split; [reflexivity|]. split; [reflexivity|]. split; [assumption|].
  assert (ds' <> []). { intros ->. cbn in Hv. lia. }
  split; [assumption|]. destruct ds' as [|x ds']; [contradiction|]. cbn [hd app] in *.
  intros ->. specialize (Hd eq_refl). destruct ds'; discriminate.
Qed.

Lemma canonical_small_inv : forall b v ds, 2 <= b -> canonical b v ds -> v < b -> ds = [v].
Proof.
  intros b v ds Hb C Hv. assert (length ds = 1%nat).
  { eapply digit_count_unique; [exact Hb|eapply canonical_count; eassumption|].
    split; [lia|]. split; [change (N.of_nat 1) with 1; rewrite N.pow_1_r; lia|lia]. }
  destruct C as (N1 & _). destruct ds as [|d [|? ?]]; try discriminate. cbn in N1. now rewrite <- N1.
Qed.

Lemma canonical_unique : forall b v ds es, 2 <= b -> canonical b v ds -> canonical b v es -> ds = es.
Proof.
  intros b v. induction v as [v IH] using (well_founded_induction N.lt_wf_0). intros ds es Hb C D.
  destruct (N.lt_ge_cases v b) as [H|H].
  - rewrite (canonical_small_inv b v ds), (canonical_small_inv b v es) by assumption. reflexivity.
  - destruct (canonical_split b v ds) as (ds' & -> & C'); try assumption.
    destruct (canonical_split b v es) as (es' & -> & D'); try assumption.
    f_equal. eapply IH; try eassumption. apply N.div_lt; lia.
Qed.

(** Scanning: monotonicity of the number in the number of digits. *)
Lemma number_app_le : forall b ds es, 1 <= b -> number b ds <= number b (ds ++ es).
Proof.
  intros b ds es Hb. unfold number at 2. rewrite fold_left_app. fold (number b ds). rewrite number_acc.
  assert (b ^ N.of_nat (length es) <> 0) by (apply N.pow_nonzero; lia). nia.
Qed.

(** the range check used by every scanner *)
Lemma range_check : forall max b v d, 1 <= b -> d < b ->
  (max / b <? v) || ((v =? max / b) && (max mod b <? d)) = (max <? v * b + d).
Proof. intros. pose proof (N.div_mod max b). pose proof (N.mod_lt max b). nia. Qed.

(** round trip of digits *)
Lemma digit_value_char : forall lc d, d < 36 -> digit_value (digit_char lc d) = Some d.
Proof.
  intros lc d H.
  assert (E : match digit_value (digit_char lc d) with Some x => x =? d | None => false end = true).
  { pose (P := fun d => match digit_value (digit_char lc d) with Some x => x =? d | None => false end).
    change (P d = true).
    assert (S : forallb P (map N.of_nat (seq 0 36)) = true) by (destruct lc; vm_compute; reflexivity).
    rewrite forallb_forall in S. apply S. apply in_map_iff. exists (N.to_nat d).
    split; [lia|]. apply in_seq. lia. }
  destruct (digit_value (digit_char lc d)); [|discriminate]. apply N.eqb_eq in E. now subst.
Qed.

Lemma digit_run_chars : forall b lc ds rest, b <= 36 -> Forall (fun d => d < b) ds ->
  digit_run b rest = [] -> digit_run b (map (digit_char lc) ds ++ rest) = ds.
Proof.
  intros b lc ds rest Hb F Hr. induction F as [|d ds Hd F IH]; [assumption|].
  cbn [map app digit_run]. rewrite digit_value_char by lia.
  destruct (N.ltb_spec d b); [|lia]. now rewrite IH.
Qed.

Lemma scan_print : forall max b lc v ds rest, 2 <= b -> b <= 36 -> canonical b v ds -> v <= max ->
  digit_run b rest = [] ->
  scan_spec max b (map (digit_char lc) ds ++ rest) = Number (length ds) v.
Proof.
  intros max b lc v ds rest H2 H36 (N1 & F & Ne & Hd) Hv Hr. unfold scan_spec.
  rewrite digit_run_chars by assumption. destruct ds; [contradiction|].
  rewrite N1. destruct (N.leb_spec v max); [reflexivity|lia].
Qed.

(** [digit_char] never is NUL. *)
Lemma digit_char_nonzero : forall lc d, d < 36 -> digit_char lc d <> 0.
Proof.
  intros lc d H E. pose proof (digit_value_char lc d H) as X. rewrite E in X. discriminate.
Qed.

(** Writing digits backwards into a buffer. *)
Lemma write_app : forall A (pre : list A) x post c,
  write (pre ++ x :: post) (length pre) c = Some (pre ++ c :: post).
Proof.
  induction pre as [|h t IH]; intros x post c; cbn [app length write]; [reflexivity|].
  rewrite IH. reflexivity.
Qed.
