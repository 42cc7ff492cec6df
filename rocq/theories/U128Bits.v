From Coq Require Import NArith ZArith List Bool Lia ZifyBool ZifyNat ZifyN.
From Verif Require Import Base U128Model U128Spec Tactics U128Proofs.
Import ListNotations.
Local Open Scope N_scope.
Ltac Zify.zify_post_hook ::= Z.div_mod_to_equations.

Lemma mod_pow2_testbit : forall a n j,
  N.testbit (a mod 2 ^ n) j = if j <? n then N.testbit a j else false.
Proof.
  intros. destruct (N.ltb_spec j n).
  - now apply N.mod_pow2_bits_low.
  - now apply N.mod_pow2_bits_high.
Qed.

Lemma w64_testbit : forall a j, N.testbit (w64 a) j = if j <? 64 then N.testbit a j else false.
Proof. intros. unfold w64. change W64 with (2 ^ 64). apply mod_pow2_testbit. Qed.

Lemma shiftl_testbit : forall a s j,
  N.testbit (N.shiftl a s) j = if j <? s then false else N.testbit a (j - s).
Proof.
  intros. destruct (N.ltb_spec j s).
  - now apply N.shiftl_spec_low.
  - now apply N.shiftl_spec_high'.
Qed.

Lemma shiftr_testbit : forall a s j, N.testbit (N.shiftr a s) j = N.testbit a (j + s).
Proof. intros. apply N.shiftr_spec'. Qed.

Lemma w64_lt : forall a, w64 a < 2 ^ 64.
Proof. intros. unfold w64. change (2 ^ 64) with W64. apply N.mod_lt. discriminate. Qed.

Lemma lor_lt : forall a b k, a < 2 ^ k -> b < 2 ^ k -> N.lor a b < 2 ^ k.
Proof.
  intros. apply bits_lt. intros j Hj. rewrite N.lor_spec.
  now rewrite (testbit_false_ge a k), (testbit_false_ge b k).
Qed.
Lemma land_lt : forall a b k, a < 2 ^ k -> N.land a b < 2 ^ k.
Proof.
  intros. apply bits_lt. intros j Hj. rewrite N.land_spec.
  now rewrite (testbit_false_ge a k).
Qed.
Lemma lxor_lt : forall a b k, a < 2 ^ k -> b < 2 ^ k -> N.lxor a b < 2 ^ k.
Proof.
  intros. apply bits_lt. intros j Hj. rewrite N.lxor_spec.
  now rewrite (testbit_false_ge a k), (testbit_false_ge b k).
Qed.
Lemma shiftr_lt : forall a s k, a < 2 ^ k -> N.shiftr a s < 2 ^ k.
Proof.
  intros. apply bits_lt. intros j Hj. rewrite shiftr_testbit.
  apply (testbit_false_ge a k); [assumption|lia].
Qed.
Lemma shiftr_lt' : forall a s k, a < 2 ^ (k + s) -> N.shiftr a s < 2 ^ k.
Proof.
  intros. apply bits_lt. intros j Hj. rewrite shiftr_testbit.
  apply (testbit_false_ge a (k + s)); [assumption|lia].
Qed.

Ltac bitcases :=
  repeat match goal with
  | |- context [ ?a <? ?b ] => destruct (N.ltb_spec a b); try lia
  end.

Lemma shl_u64_correct : forall v s, wf v -> s < 128 ->
  exists r, tmi_shl_u64 v s = Some r /\ wf r /\ val r = (val v * 2 ^ s) mod 2 ^ 128.
Proof.
  intros v s Hv Hs. unfold tmi_shl_u64, assert_.
  destruct (N.ltb_spec s 128); [|lia].
  eexists; split; [reflexivity|].
  destruct (N.eqb_spec s 0) as [->|Hs0].
  { split; [assumption|]. rewrite N.pow_0_r, N.mul_1_r, N.mod_small; [reflexivity|].
    now apply val_lt_wf. }
  rewrite <- shiftl_mul.
  destruct (N.leb_spec 64 s).
  - assert (W : wf (U128 0 (w64 (N.shiftl (low v) (s - 64))))).
    { split; [apply pow2_pos|apply w64_lt]. }
    split; [exact W|].
    apply N.bits_inj_iff. intros j. rewrite val_testbit by exact W.
    rewrite mod_pow2_testbit, shiftl_testbit. cbn [low high].
    rewrite w64_testbit, N.bits_0, shiftl_testbit.
    bitcases; try reflexivity.
    rewrite val_testbit by assumption. bitcases. f_equal. lia.
  - assert (W : wf (U128 (w64 (N.shiftl (low v) s))
       (N.lor (w64 (N.shiftl (high v) s)) (N.shiftr (low v) (64 - s))))).
    { split; [apply w64_lt|]. cbn [high]. apply lor_lt; [apply w64_lt|].
      apply shiftr_lt. apply Hv. }
    split; [exact W|].
    apply N.bits_inj_iff. intros j. rewrite val_testbit by exact W.
    rewrite mod_pow2_testbit, shiftl_testbit. cbn [low high].
    rewrite w64_testbit, N.lor_spec, w64_testbit, !shiftl_testbit, shiftr_testbit.
    bitcases; try reflexivity; try (rewrite val_testbit by assumption); bitcases; cbn [orb].
    + reflexivity.
    + f_equal. lia.
    + rewrite (testbit_false_ge (low v) 64); [|apply Hv|lia]. rewrite orb_false_r. f_equal. lia.
    + apply (testbit_false_ge (low v) 64); [apply Hv|lia].
Qed.

Lemma shr_u64_correct : forall v s, wf v -> s < 128 ->
  exists r, tmi_shr_u64 v s = Some r /\ wf r /\ val r = val v / 2 ^ s.
Proof.
  intros v s Hv Hs. unfold tmi_shr_u64, assert_.
  destruct (N.ltb_spec s 128); [|lia].
  eexists; split; [reflexivity|].
  destruct (N.eqb_spec s 0) as [->|Hs0].
  { split; [assumption|]. now rewrite N.pow_0_r, N.div_1_r. }
  rewrite <- shiftr_div.
  destruct (N.leb_spec 64 s).
  - assert (W : wf (U128 (N.shiftr (high v) (s - 64)) 0)).
    { split; [apply shiftr_lt; apply Hv|apply pow2_pos]. }
    split; [exact W|].
    apply N.bits_inj_iff. intros j. rewrite val_testbit by exact W.
    rewrite shiftr_testbit, val_testbit by assumption. cbn [low high].
    rewrite N.bits_0, shiftr_testbit.
    bitcases.
    + f_equal. lia.
    + symmetry. apply (testbit_false_ge (high v) 64); [apply Hv|lia].
  - assert (W : wf (U128 (N.lor (N.shiftr (low v) s) (w64 (N.shiftl (high v) (64 - s))))
       (N.shiftr (high v) s))).
    { split; cbn [low high]; [apply lor_lt; [apply shiftr_lt; apply Hv|apply w64_lt]|].
      apply shiftr_lt. apply Hv. }
    split; [exact W|].
    apply N.bits_inj_iff. intros j. rewrite val_testbit by exact W.
    rewrite shiftr_testbit, val_testbit by assumption. cbn [low high].
    rewrite N.lor_spec, w64_testbit, !shiftr_testbit, shiftl_testbit.
    bitcases; try reflexivity.
    + apply orb_false_r.
    + rewrite (testbit_false_ge (low v) 64); [|apply Hv|lia]. cbn [orb]. f_equal. lia.
    + f_equal. lia.
Qed.

Lemma shl_correct : forall v s, wf v -> wf s -> val s < 128 ->
  exists r, tmi_shl v s = Some r /\ wf r /\ val r = (val v * 2 ^ val s) mod 2 ^ 128.
Proof.
  intros v [sl sh] Hv [Hs1 Hs2] H. unfold val in H. cbn [low high] in *.
  change (2 ^ 64) with W64 in *.
  assert (sh = 0) by lia. subst sh.
  unfold tmi_shl, assert_. cbn [low high]. rewrite N.eqb_refl.
  destruct (N.ltb_spec sl 128); [|lia]. cbn [andb].
  destruct (shl_u64_correct v sl Hv) as (r & E & W & V); [assumption|].
  exists r. split; [assumption|split;[assumption|]]. rewrite V.
  unfold val. cbn [low high]. rewrite N.mul_0_l, N.add_0_l. reflexivity.
Qed.

Lemma shr_correct : forall v s, wf v -> wf s -> val s < 128 ->
  exists r, tmi_shr v s = Some r /\ wf r /\ val r = val v / 2 ^ val s.
Proof.
  intros v [sl sh] Hv [Hs1 Hs2] H. unfold val in H. cbn [low high] in *.
  change (2 ^ 64) with W64 in *.
  assert (sh = 0) by lia. subst sh.
  unfold tmi_shr, assert_. cbn [low high]. rewrite N.eqb_refl.
  destruct (N.ltb_spec sl 128); [|lia]. cbn [andb].
  destruct (shr_u64_correct v sl Hv) as (r & E & W & V); [assumption|].
  exists r. split; [assumption|split;[assumption|]]. rewrite V.
  unfold val. cbn [low high]. rewrite N.mul_0_l, N.add_0_l. reflexivity.
Qed.

Lemma and_correct : forall a b, wf a -> wf b ->
  wf (tmi_and a b) /\ forall j, N.testbit (val (tmi_and a b)) j = N.testbit (val a) j && N.testbit (val b) j.
Proof.
  intros a b Ha Hb.
  assert (W : wf (tmi_and a b)) by (split; cbn [tmi_and tmi_or tmi_xor tmi_not low high]; apply land_lt; apply Ha).
  split; [exact W|]. intros j. rewrite !val_testbit by assumption. unfold tmi_and. cbn [low high].
  rewrite !N.land_spec. bitcases; reflexivity.
Qed.
Lemma or_correct : forall a b, wf a -> wf b ->
  wf (tmi_or a b) /\ forall j, N.testbit (val (tmi_or a b)) j = N.testbit (val a) j || N.testbit (val b) j.
Proof.
  intros a b Ha Hb.
  assert (W : wf (tmi_or a b)) by (split; cbn [tmi_and tmi_or tmi_xor tmi_not low high]; apply lor_lt; first [apply Ha|apply Hb]).
  split; [exact W|]. intros j. rewrite !val_testbit by assumption. unfold tmi_or. cbn [low high].
  rewrite !N.lor_spec. bitcases; reflexivity.
Qed.
Lemma xor_correct : forall a b, wf a -> wf b ->
  wf (tmi_xor a b) /\ forall j, N.testbit (val (tmi_xor a b)) j = xorb (N.testbit (val a) j) (N.testbit (val b) j).
Proof.
  intros a b Ha Hb.
  assert (W : wf (tmi_xor a b)) by (split; cbn [tmi_and tmi_or tmi_xor tmi_not low high]; apply lxor_lt; first [apply Ha|apply Hb]).
  split; [exact W|]. intros j. rewrite !val_testbit by assumption. unfold tmi_xor. cbn [low high].
  rewrite !N.lxor_spec. bitcases; reflexivity.
Qed.
Lemma lnot_lt : forall a k, a < 2 ^ k -> N.lnot a k < 2 ^ k.
Proof.
  intros a k H. apply bits_lt. intros j Hj. rewrite N.lnot_spec_high by assumption.
  now apply testbit_false_ge with k.
Qed.
Lemma not_correct : forall a, wf a ->
  wf (tmi_not a) /\ forall j, N.testbit (val (tmi_not a)) j = (j <? 128) && negb (N.testbit (val a) j).
Proof.
  intros a Ha.
  assert (W : wf (tmi_not a)) by (split; cbn [tmi_and tmi_or tmi_xor tmi_not low high]; apply lnot_lt; apply Ha).
  split; [exact W|]. intros j. rewrite !val_testbit by assumption. unfold tmi_not. cbn [low high].
  bitcases; cbn [andb].
  - apply N.lnot_spec_low. assumption.
  - apply N.lnot_spec_low. lia.
  - rewrite N.lnot_spec_high by lia. apply testbit_false_ge with 64; [apply Ha|lia].
Qed.

Lemma is_bit_set_correct : forall v p, wf v -> p < 128 ->
  tmi_is_bit_set v p = Some (N.testbit (val v) p).
Proof.
  intros v p Hv Hp. unfold tmi_is_bit_set, assert_.
  rewrite val_testbit by assumption. rewrite !land_bit_nonzero.
  destruct (N.leb_spec 64 p); bitcases; reflexivity.
Qed.

Lemma set_bit_correct : forall v p, wf v -> p < 128 ->
  exists r, tmi_set_bit v p = Some r /\ wf r /\
    forall j, N.testbit (val r) j = (N.eqb j p) || N.testbit (val v) j.
Proof.
  intros v p Hv Hp. unfold tmi_set_bit, assert_.
  assert (B : forall q, q < 64 -> N.shiftl 1 q < 2 ^ 64).
  { intros q Hq. rewrite N.shiftl_1_l. apply N.pow_lt_mono_r; lia. }
  destruct (N.leb_spec 64 p).
  - destruct (N.ltb_spec (p - 64) 64); [|lia].
    eexists; split; [reflexivity|].
    assert (W : wf (U128 (low v) (N.lor (high v) (N.shiftl 1 (p - 64))))).
    { split; cbn [low high]; [apply Hv|apply lor_lt; [apply Hv|apply B; lia]]. }
    split; [exact W|]. intros j. rewrite !val_testbit by assumption. cbn [low high].
    rewrite N.lor_spec, N.shiftl_1_l, N.pow2_bits_eqb.
    bitcases; destruct (N.eqb_spec j p); destruct (N.eqb_spec (p - 64) (j - 64)); try lia;
    cbn [orb]; rewrite ?orb_true_r, ?orb_false_r; reflexivity.
  - eexists; split; [reflexivity|].
    assert (W : wf (U128 (N.lor (low v) (N.shiftl 1 p)) (high v))).
    { split; cbn [low high]; [apply lor_lt; [apply Hv|apply B; lia]|apply Hv]. }
    split; [exact W|]. intros j. rewrite !val_testbit by assumption. cbn [low high].
    rewrite N.lor_spec, N.shiftl_1_l, N.pow2_bits_eqb.
    bitcases; destruct (N.eqb_spec j p); destruct (N.eqb_spec p j); try lia;
    cbn [orb]; rewrite ?orb_true_r, ?orb_false_r; reflexivity.
Qed.

Lemma make_bitmask_correct : forall p, p < 128 ->
  exists r, tmi_make_bitmask p = Some r /\ wf r /\ val r = 2 ^ p.
Proof.
  intros p Hp. unfold tmi_make_bitmask, assert_. destruct (N.ltb_spec p 128); [|lia].
  eexists; split; [reflexivity|]. unfold w64. rewrite !N.shiftl_1_l.
  destruct (N.leb_spec 64 p).
  - assert (2 ^ (p - 64) < 2 ^ 64) by (apply N.pow_lt_mono_r; lia).
    change W64 with (2 ^ 64). rewrite N.mod_small by assumption.
    split; [split; [apply pow2_pos|assumption]|].
    unfold val. cbn [low high]. rewrite <- N.pow_add_r, N.add_0_r. f_equal. lia.
  - assert (2 ^ p < 2 ^ 64) by (apply N.pow_lt_mono_r; lia).
    change W64 with (2 ^ 64). rewrite N.mod_small by assumption.
    split; [split; [assumption|apply pow2_pos]|].
    unfold val. cbn [low high]. lia.
Qed.
