(** Consequences and counterexamples stated in U128Props.v. *)
From Coq Require Import NArith ZArith List Bool Lia ZifyBool ZifyNat ZifyN.
From Verif Require Import Base CTypeModel U128Model U128Spec Tactics U128Proofs U128Bits U128Scan U128Div
  DigitsSpec DigitsProofs U128TextModel U128Text U128FloatModel FloatSpec FloatProofs U128Float U128FromFloat.
Import ListNotations.
Local Open Scope N_scope.

Lemma sub_add_id : forall a b, wf a -> wf b -> tmi_sub (tmi_add a b) b = a.
Proof.
  intros a b Ha Hb. assert (Hw := add_wf a b Ha Hb).
  apply val_inj; [apply sub_wf; assumption|assumption|].
  rewrite sub_val, add_val by assumption.
  pose proof (val_lt_wf a Ha). pose proof (val_lt_wf b Hb).
  change (2 ^ 128) with W128 in *.
  destruct (N.lt_ge_cases (val a + val b) W128) as [L|L].
  - rewrite (N.mod_small (val a + val b)) by assumption.
    symmetry. apply N.mod_unique with 1; lia.
  - assert (E : (val a + val b) mod W128 = val a + val b - W128).
    { symmetry. apply N.mod_unique with 1; lia. }
    rewrite E. symmetry. apply N.mod_unique with 0; lia.
Qed.

Lemma mul_low_exact : forall a b, a < 2 ^ 64 -> b < 2 ^ 64 ->
  val (tmi_mul (tmi_make_low a) (tmi_make_low b)) = a * b.
Proof.
  intros a b Ha Hb.
  assert (Wa : wf (tmi_make_low a)) by (split; [exact Ha|reflexivity]).
  assert (Wb : wf (tmi_make_low b)) by (split; [exact Hb|reflexivity]).
  rewrite mul_val by assumption. unfold tmi_make_low, val. cbn [low high].
  rewrite !N.mul_0_l, !N.add_0_l. apply N.mod_small.
  change (2 ^ 128) with (2 ^ 64 * 2 ^ 64). apply N.mul_lt_mono; assumption.
Qed.

Lemma div_mod_ops : forall n d, wf n -> wf d -> val d <> 0 ->
  exists q r, tmi_div n d = Some q /\ tmi_mod n d = Some r /\ val q = val n / val d /\ val r = val n mod val d.
Proof.
  intros n d Hn Hd H0. destruct (divmod_correct n d Hn Hd H0) as (q & r & E & _ & _ & Q & R).
  exists q, r. unfold tmi_div, tmi_mod. rewrite E. split; [reflexivity|]. split; [reflexivity|].
  rewrite N.mul_comm in Q. split; [eapply N.div_unique|eapply N.mod_unique]; eassumption.
Qed.

Lemma fls_highest : forall v, wf v -> val v <> 0 -> exists k, tmi_fls v = Some k /\ highest_bit (val v) k.
Proof. intros v Hv H0. exists (N.log2 (val v)). split; [now apply fls_log2|now apply log2_highest]. Qed.

Lemma scan_s_correct : forall v, wf v ->
  (val v = 0 -> tmi_fls_s v = Some (-1)%Z /\ tmi_ffs_s v = Some (-1)%Z) /\
  (val v <> 0 -> exists h l, tmi_fls_s v = Some (Z.of_N h) /\ tmi_ffs_s v = Some (Z.of_N l) /\
     highest_bit (val v) h /\ lowest_bit (val v) l).
Proof.
  intros v Hv. unfold tmi_fls_s, tmi_ffs_s, scan_s. rewrite is_zero_val by assumption. split; intros H.
  - rewrite H. split; reflexivity.
  - destruct (N.eqb_spec (val v) 0); [contradiction|].
    destruct (fls_highest v Hv H) as (h & -> & Bh). destruct (ffs_lowest v Hv H) as (l & -> & Bl).
    exists h, l. auto.
Qed.

Lemma canonical_exists_unique : forall b v, 2 <= b ->
  exists ds, canonical b v ds /\ forall ds', canonical b v ds' -> ds' = ds.
Proof.
  intros b v Hb. destruct (canonical_exists b v Hb) as [ds C]. exists ds. split; [exact C|].
  intros ds' C'. exact (canonical_unique b v ds' ds Hb C' C).
Qed.

Lemma digits_count_length : forall v b ds, 2 <= b -> b <= 36 -> wf v -> canonical b (val v) ds ->
  tmi_get_digits_count_u128 v b = Some (length ds).
Proof.
  intros v b ds H1 H2 Wv C. destruct (digits_count_correct v b H1 H2 Wv) as (k & E & Hk).
  rewrite E. f_equal. exact (digit_count_unique b (val v) _ _ H1 Hk (canonical_count b (val v) ds H1 C)).
Qed.

Lemma finite32_fits : forall b, finite32 b -> value32 b < 2 ^ 128 * unit32.
Proof.
  intros b F. destruct (value32_split b F) as (e & m & He & Hm & _ & ->).
  unfold unit32. destruct (N.eqb_spec e 0).
  - eapply N.lt_le_trans; [exact Hm|]. rewrite <- N.pow_add_r. apply N.pow_le_mono_r; lia.
  - apply N.lt_le_trans with (2 ^ 24 * 2 ^ (e - 1)).
    + apply N.mul_lt_mono_pos_r; [apply N.neq_0_lt_0, N.pow_nonzero; discriminate|].
      change (2 ^ 24) with (2 ^ 23 + 2 ^ 23). lia.
    + rewrite <- !N.pow_add_r. apply N.pow_le_mono_r; lia.
Qed.

(** ** Counterexamples *)
Lemma to_double_nearest_counterexample : exists v r, wf v /\ tmi_to_double_rm v ToNearest = Some r /\
  ~ rounded_nearest_even finite64 value64 (val v * unit64) r.
Proof.
  exists (U128 (2 ^ 54 - 1) 0), ((1023 + 53) * 2 ^ 52). split; [split; reflexivity|].
  split; [vm_compute; reflexivity|]. intros [_ H].
  destruct (H ((1023 + 54) * 2 ^ 52)) as [D _]; [reflexivity|].
  revert D. apply N.lt_nge. vm_compute. reflexivity.
Qed.
Lemma to_float_nearest_counterexample : exists v r, wf v /\ tmi_to_float_rm v ToNearest = Some r /\
  ~ rounded_nearest_even finite32 value32 (val v * unit32) r.
Proof.
  exists (U128 (2 ^ 25 - 1) 0), ((127 + 24) * 2 ^ 23). split; [split; reflexivity|].
  split; [vm_compute; reflexivity|]. intros [_ H].
  destruct (H ((127 + 25) * 2 ^ 23)) as [D _]; [reflexivity|].
  revert D. apply N.lt_nge. vm_compute. reflexivity.
Qed.
Lemma to_float_up_counterexample : exists v r, wf v /\ tmi_to_float_rm v Upward = Some r /\
  ~ rounded_up finite32 value32 (val v * unit32) r.
Proof.
  exists (U128 (2 ^ 23 + 1) 0), ((127 + 23) * 2 ^ 23 + 2). split; [split; reflexivity|].
  split; [vm_compute; reflexivity|]. intros (_ & _ & H).
  pose proof (H ((127 + 23) * 2 ^ 23 + 1)) as D.
  assert (D' : value32 ((127 + 23) * 2 ^ 23 + 2) <= value32 ((127 + 23) * 2 ^ 23 + 1)).
  { apply D; [reflexivity|]. vm_compute. discriminate. }
  revert D'. apply N.lt_nge. vm_compute. reflexivity.
Qed.
Lemma from_double_neg_counterexample : exists b r, finite64 b /\ value64 b = unit64 /\
  tmi_from_double (2 ^ 63 + b) = Some r /\ val r <> 2 ^ 128 - value64 b / unit64.
Proof.
  exists (1023 * 2 ^ 52), (U128 (2 ^ 64 - 2) (2 ^ 64 - 1)). split; [reflexivity|].
  split; [vm_compute; reflexivity|]. split; [vm_compute; reflexivity|].
  apply N.eqb_neq. vm_compute. reflexivity.
Qed.
Lemma from_float_neg_counterexample : exists b, finite32 b /\ value32 b = unit32 /\
  tmi_from_float (2 ^ 31 + b) = None.
Proof. exists (127 * 2 ^ 23). split; [reflexivity|]. split; vm_compute; reflexivity. Qed.
Lemma from_double_s_counterexample : exists b out r, finite64 b /\ 2 ^ 128 * unit64 <= value64 b /\
  tmi_from_double_s b out = Some (true, r).
Proof.
  exists ((1023 + 128) * 2 ^ 52), tmi_zero, tmi_zero. split; [reflexivity|]. split.
  - apply N.leb_le. vm_compute. reflexivity.
  - vm_compute. reflexivity.
Qed.
