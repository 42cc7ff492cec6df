From Coq Require Import NArith ZArith List Bool Lia ZifyBool ZifyNat ZifyN.
From Verif Require Import Base U128Model U128Spec Tactics U128Proofs U128Bits U128Scan.
Import ListNotations.
Local Open Scope N_scope.
Ltac Zify.zify_post_hook ::= Z.div_mod_to_equations.

Lemma shl_one_correct : forall m, wf m -> val m < 2 ^ 127 ->
  wf (shl_one m) /\ val (shl_one m) = 2 * val m.
Proof.
  intros [l h] [Hl Hh] Hm. unfold shl_one, val, wf in *. cbn [low high] in *.
  change (2 ^ 64) with W64 in *. change (2 ^ 127) with 170141183460469231731687303715884105728 in Hm.
  rewrite !shiftl_mul, shiftr_div. change (2 ^ 63) with 9223372036854775808. change (2 ^ 1) with 2.
  unfold w64.
  assert (E : (h * 2) mod W64 = h * 2 ^ 1) by (change (2 ^ 1) with 2; lia).
  rewrite E, lor_disjoint' by (change (2 ^ 1) with 2; lia). change (2 ^ 1) with 2. lia.
Qed.

Lemma or_bit0 : forall m b, wf m -> N.even (low m) = true ->
  let m' := U128 (N.lor (low m) (b2n b)) (high m) in
  wf m' /\ val m' = val m + b2n b.
Proof.
  intros [l h] b [Hl Hh] He m'. cbn [low high] in *.
  assert (E : N.lor l (b2n b) = b2n b + l).
  { apply N.even_spec in He. destruct He as [x ->]. rewrite (N.mul_comm 2 x).
    change (x * 2) with (x * 2 ^ 1). apply lor_disjoint'. destruct b; reflexivity. }
  assert (L : N.lor l (b2n b) < 2 ^ 64).
  { apply lor_lt; [assumption|]. destruct b; reflexivity. }
  unfold m', val, wf. cbn [low high]. rewrite E in *. split; [split; assumption|lia].
Qed.

Lemma shiftr_step : forall a i, N.shiftr a i = 2 * N.shiftr a (i + 1) + b2n (N.testbit a i).
Proof.
  intros a i. rewrite (N.add_1_r i), N.shiftr_succ_r.
  rewrite (N.div2_odd (N.shiftr a i)) at 1.
  replace (N.odd (N.shiftr a i)) with (N.testbit a i).
  - unfold b2n, N.b2n. reflexivity.
  - rewrite <- N.bit0_odd, shiftr_testbit. reflexivity.
Qed.

Lemma even_val_low : forall m, wf m -> N.even (low m) = N.even (val m).
Proof.
  intros [l h] _. unfold val. cbn [low high]. rewrite N.even_add, N.even_mul.
  change (N.even (2 ^ 64)) with true. rewrite orb_true_r. destruct (N.even l); reflexivity.
Qed.

(** Loop invariant: with [i] still to do, q collects the quotient bits above i,
    and m (already shifted) is twice the remainder so far. *)
Lemma shiftr_mono : forall a i, N.shiftr a (i + 1) * 2 <= N.shiftr a i.
Proof. intros. rewrite (shiftr_step a i). lia. Qed.

Lemma set_bit_add : forall q i t, wf q -> i < 128 -> val q = t * 2 ^ (i + 1) ->
  exists q', tmi_set_bit q i = Some q' /\ wf q' /\ val q' = (2 * t + 1) * 2 ^ i.
Proof.
  intros q i t Hq Hi Et. destruct (set_bit_correct q i Hq Hi) as (q' & E & W & V).
  exists q'. split; [assumption|]. split; [assumption|].
  assert (E2 : val q = (2 * t) * 2 ^ i).
  { rewrite Et, N.pow_add_r. change (2^1) with 2. lia. }
  apply N.bits_inj_iff. intros j. rewrite V, E2.
  destruct (N.lt_ge_cases j i) as [Hj|Hj].
  - rewrite !N.mul_pow2_bits_low by assumption. destruct (N.eqb_spec j i); [lia|reflexivity].
  - rewrite !N.mul_pow2_bits_high by assumption. destruct (N.eqb_spec j i) as [->|Hn].
    + rewrite N.sub_diag, N.testbit_odd_0. reflexivity.
    + replace (j - i) with (N.succ (j - i - 1)) by lia.
      rewrite N.testbit_odd_succ, N.testbit_even_succ by lia. reflexivity.
Qed.

(** State before handling bit [i]: q holds the quotient t of (lhs >> (i+1)) by r, shifted
    back, and m is twice its remainder. *)
Definition pre (lhs : u128) (r : N) (i : N) (q m : u128) : Prop :=
  exists t x, wf q /\ wf m /\ val q = t * 2 ^ (i + 1) /\ val m = 2 * x /\
    N.shiftr (val lhs) (i + 1) = t * r + x /\ x < r.
(** State after handling bit [i]. *)
Definition post (lhs : u128) (r : N) (i : N) (q m : u128) : Prop :=
  exists t, wf q /\ wf m /\ val q = t * 2 ^ i /\ N.shiftr (val lhs) i = t * r + val m /\ val m < r.

Lemma pre_or : forall lhs r i q m b, pre lhs r i q m -> b = N.testbit (val lhs) i ->
  let m' := U128 (N.lor (low m) (b2n b)) (high m) in
  exists t x, wf q /\ wf m' /\ val q = t * 2 ^ (i + 1) /\ val m' = 2 * x + b2n b /\
    N.shiftr (val lhs) i = 2 * t * r + val m' /\ x < r.
Proof.
  intros lhs r i q m b (t & x & Hq & Hm & Eq & Em & Es & Hx) -> m'. exists t, x.
  destruct (or_bit0 m (N.testbit (val lhs) i) Hm) as [W V].
  { rewrite even_val_low by assumption. rewrite Em, N.even_mul. reflexivity. }
  split; [assumption|]. split; [exact W|]. split; [assumption|].
  split; [unfold m'; rewrite V, Em; reflexivity|]. split; [|assumption].
  rewrite shiftr_step, Es. unfold m'. rewrite V, Em. lia.
Qed.

Lemma post_pre : forall lhs r i q m, wf lhs -> post lhs r (i + 1) q m ->
  pre lhs r i q (shl_one m).
Proof.
  intros lhs r i q m Hl (t & Hq & Hm & Eq & Es & Hx).
  assert (B : val m < 2 ^ 127).
  { apply N.le_lt_trans with (N.shiftr (val lhs) (i + 1)); [lia|].
    apply shiftr_lt'. apply N.lt_le_trans with (2 ^ 128); [now apply val_lt_wf|].
    apply N.pow_le_mono_r; lia. }
  destruct (shl_one_correct m Hm B) as [W V].
  exists t, (val m). auto 8.
Qed.

Lemma sub_exact : forall a b, wf a -> wf b -> val b <= val a -> val (tmi_sub a b) = val a - val b.
Proof.
  intros a b Ha Hb H. rewrite sub_val by assumption.
  pose proof (val_lt_wf a Ha). pose proof (val_lt_wf b Hb).
  change (2 ^ 128) with W128 in *. lia.
Qed.
Lemma sub_u64_exact : forall a b, wf a -> b < 2 ^ 64 -> b <= val a -> val (tmi_sub_u64 a b) = val a - b.
Proof.
  intros a b Ha Hb H. rewrite sub_u64_val by assumption.
  pose proof (val_lt_wf a Ha). change (2 ^ 64) with W64 in *.
  change (2 ^ 128) with W128 in *. lia.
Qed.

Lemma divmod_step : forall lhs rhs k q m, wf lhs -> wf rhs -> k < 128 ->
  pre lhs (val rhs) k q m ->
  exists q2 m2, (let m := U128 (N.lor (low m) (b2n (N.testbit (val lhs) k))) (high m) in
    if tmi_gte m rhs
    then q' <- tmi_set_bit q k ;; Some (q', tmi_sub m rhs)
    else Some (q, m)) = Some (q2, m2) /\ post lhs (val rhs) k q2 m2.
Proof.
  intros lhs rhs k q m Hl Hr Hi Hpre.
  destruct (pre_or _ _ _ _ _ _ Hpre eq_refl) as (t & x & Hq & Hm' & Eq & Em & Es & Hx).
  set (m' := U128 (N.lor (low m) (b2n (N.testbit (val lhs) k))) (high m)) in *.
  cbv zeta. rewrite gte_val by assumption.
  match type of Em with _ = _ + b2n ?b => assert (Bb : b2n b <= 1) by (destruct b; cbn; lia) end.
  destruct (N.leb_spec (val rhs) (val m')) as [Hle|Hle].
  - destruct (set_bit_add q _ t Hq Hi Eq) as (q2 & E2 & W2 & V2). rewrite E2.
    do 2 eexists; split; [reflexivity|]. exists (2 * t + 1).
    rewrite (sub_exact m' rhs) by assumption.
    split; [assumption|]. split; [now apply sub_wf|]. split; [assumption|]. rewrite Es. split; lia.
  - do 2 eexists; split; [reflexivity|]. exists (2 * t).
    split; [assumption|]. split; [assumption|].
    split; [rewrite Eq, N.pow_add_r; change (2 ^ 1) with 2; lia|]. split; [assumption|lia].
Qed.

Lemma divmod_loop_correct : forall lhs rhs i q m,
  wf lhs -> wf rhs -> N.of_nat i < 128 -> pre lhs (val rhs) (N.of_nat i) q m ->
  exists q' m', divmod_loop lhs rhs i q m = Some (q', m') /\ post lhs (val rhs) 0 q' m'.
Proof.
  intros lhs rhs i. induction i as [|i IH]; intros q m Hl Hr Hi Hpre;
    destruct (divmod_step lhs rhs _ q m Hl Hr Hi Hpre) as (q2 & m2 & E & Po);
    cbv zeta in E; cbn [divmod_loop]; rewrite is_bit_set_correct by assumption; rewrite E.
  - do 2 eexists; split; [reflexivity|exact Po].
  - apply IH; try assumption; [lia|].
    apply post_pre; [assumption|]. replace (N.of_nat i + 1) with (N.of_nat (S i)) by lia. exact Po.
Qed.

Lemma u64_test : forall m r, wf m -> r < 2 ^ 64 ->
  negb (high m =? 0) || (r <=? low m) = (r <=? val m).
Proof. intros [l h] r [H1 H2] Hr. unfold val. cbn [low high] in *. change (2 ^ 64) with W64 in *. lia. Qed.

Lemma divmod_u64_step : forall lhs rhs k q m, wf lhs -> rhs < 2 ^ 64 -> k < 128 ->
  pre lhs rhs k q m ->
  exists q2 m2, (let m := U128 (N.lor (low m) (b2n (N.testbit (val lhs) k))) (high m) in
    if negb (high m =? 0) || (rhs <=? low m)
    then q' <- tmi_set_bit q k ;; Some (q', tmi_sub_u64 m rhs)
    else Some (q, m)) = Some (q2, m2) /\ post lhs rhs k q2 m2.
Proof.
  intros lhs rhs k q m Hl Hr Hi Hpre.
  destruct (pre_or _ _ _ _ _ _ Hpre eq_refl) as (t & x & Hq & Hm' & Eq & Em & Es & Hx).
  set (m' := U128 (N.lor (low m) (b2n (N.testbit (val lhs) k))) (high m)) in *.
  cbv zeta. rewrite u64_test by assumption.
  match type of Em with _ = _ + b2n ?b => assert (Bb : b2n b <= 1) by (destruct b; cbn; lia) end.
  destruct (N.leb_spec rhs (val m')) as [Hle|Hle].
  - destruct (set_bit_add q _ t Hq Hi Eq) as (q2 & E2 & W2 & V2). rewrite E2.
    do 2 eexists; split; [reflexivity|]. exists (2 * t + 1).
    rewrite (sub_u64_exact m' rhs) by assumption.
    split; [assumption|]. split; [now apply sub_u64_wf|]. split; [assumption|]. rewrite Es. split; lia.
  - do 2 eexists; split; [reflexivity|]. exists (2 * t).
    split; [assumption|]. split; [assumption|].
    split; [rewrite Eq, N.pow_add_r; change (2 ^ 1) with 2; lia|]. split; [assumption|lia].
Qed.

Lemma divmod_u64_loop_correct : forall lhs rhs i q m,
  wf lhs -> rhs < 2 ^ 64 -> N.of_nat i < 128 -> pre lhs rhs (N.of_nat i) q m ->
  exists q' m', divmod_u64_loop lhs rhs i q m = Some (q', m') /\ post lhs rhs 0 q' m'.
Proof.
  intros lhs rhs i. induction i as [|i IH]; intros q m Hl Hr Hi Hpre;
    destruct (divmod_u64_step lhs rhs _ q m Hl Hr Hi Hpre) as (q2 & m2 & E & Po);
    cbv zeta in E; cbn [divmod_u64_loop]; rewrite is_bit_set_correct by assumption; rewrite E.
  - do 2 eexists; split; [reflexivity|exact Po].
  - apply IH; try assumption; [lia|].
    apply post_pre; [assumption|]. replace (N.of_nat i + 1) with (N.of_nat (S i)) by lia. exact Po.
Qed.

Lemma wf_zero : wf tmi_zero. Proof. split; reflexivity. Qed.
Lemma wf_one : wf tmi_one. Proof. split; reflexivity. Qed.
Lemma wf_b2n : forall b, wf (U128 (b2n b) 0). Proof. intros []; split; reflexivity. Qed.

Lemma val_b2n : forall b, val (U128 (b2n b) 0) = b2n b. Proof. intros []; reflexivity. Qed.

Lemma pre_init : forall lhs r, wf lhs -> r <> 0 ->
  pre lhs r (N.log2 (val lhs)) tmi_zero tmi_zero.
Proof.
  intros lhs r Hl Hr. exists 0, 0. split; [apply wf_zero|]. split; [apply wf_zero|].
  split; [rewrite N.mul_0_l; reflexivity|]. split; [reflexivity|]. split; [|lia].
  rewrite N.mul_0_l, N.add_0_l. apply N.shiftr_eq_0. lia.
Qed.

Lemma log2_lt_128 : forall v, wf v -> N.log2 (val v) < 128.
Proof.
  intros v Hv. destruct (N.eq_dec (val v) 0) as [E|E]; [rewrite E; reflexivity|].
  apply N.log2_lt_pow2; [lia|]. now apply val_lt_wf.
Qed.

Lemma half_case : forall lhs, wf lhs -> exists d,
  tmi_shr lhs tmi_one = Some d /\ tmi_is_bit_set lhs 0 = Some (N.testbit (val lhs) 0) /\
  wf d /\ val lhs = val d * 2 + b2n (N.testbit (val lhs) 0).
Proof.
  intros lhs Hl. destruct (shr_correct lhs tmi_one Hl wf_one) as (d & E & W & V); [reflexivity|].
  exists d. split; [assumption|]. split; [apply is_bit_set_correct; [assumption|lia]|].
  split; [assumption|]. pose proof (shiftr_step (val lhs) 0) as S.
  rewrite N.shiftr_0_r in S. change (0 + 1) with 1 in S. rewrite shiftr_div in S.
  change (val tmi_one) with 1 in V. rewrite V. lia.
Qed.

Lemma divmod_correct : forall lhs rhs, wf lhs -> wf rhs -> val rhs <> 0 ->
  exists q m, tmi_divmod lhs rhs = Some (q, m) /\ wf q /\ wf m /\
    val lhs = val q * val rhs + val m /\ val m < val rhs.
Proof.
  intros lhs rhs Hl Hr H0. unfold tmi_divmod, assert_.
  rewrite is_not_zero_val by assumption. destruct (N.eqb_spec (val rhs) 0); [contradiction|]. cbn [negb].
  destruct ((high rhs =? 0) && (low rhs =? 2)) eqn:E2.
  - assert (V2 : val rhs = 2) by (unfold val; lia).
    destruct (half_case lhs Hl) as (d & Ed & Eb & Wd & Vd). rewrite Ed, Eb.
    do 2 eexists; split; [reflexivity|]. split; [assumption|]. split; [apply wf_b2n|].
    rewrite V2, val_b2n. split; [exact Vd|]. destruct (N.testbit (val lhs) 0); reflexivity.
  - clear E2. rewrite eq_val, lt_val by assumption.
    destruct (N.eqb_spec (val lhs) (val rhs)) as [Ee|Ee].
    { do 2 eexists; split; [reflexivity|]. split; [apply wf_one|]. split; [apply wf_zero|].
      change (val tmi_one) with 1. change (val tmi_zero) with 0. lia. }
    destruct (N.ltb_spec (val lhs) (val rhs)) as [El|El].
    { do 2 eexists; split; [reflexivity|]. split; [apply wf_zero|]. split; [assumption|].
      change (val tmi_zero) with 0. lia. }
    rewrite fls_log2 by (assumption || lia).
    destruct (divmod_loop_correct lhs rhs (N.to_nat (N.log2 (val lhs))) tmi_zero tmi_zero Hl Hr)
      as (q & m & E & t & Wq & Wm & Vq & Vm & Hm).
    + rewrite N2Nat.id. now apply log2_lt_128.
    + rewrite N2Nat.id. now apply pre_init.
    + rewrite E. exists q, m. split; [reflexivity|]. split; [assumption|]. split; [assumption|].
      rewrite N.shiftr_0_r in Vm. change (2 ^ 0) with 1 in Vq. rewrite N.mul_1_r in Vq. subst t. auto.
Qed.

Lemma divmod_u64_correct : forall lhs rhs, wf lhs -> rhs < 2 ^ 64 -> rhs <> 0 ->
  exists q m, tmi_divmod_u64 lhs rhs = Some (q, m) /\ wf q /\ wf m /\
    val lhs = val q * rhs + val m /\ val m < rhs.
Proof.
  intros lhs rhs Hl Hr H0. unfold tmi_divmod_u64, assert_.
  destruct (N.eqb_spec rhs 0); [contradiction|]. cbn [negb].
  destruct (N.eqb_spec rhs 2) as [V2|_].
  - destruct (half_case lhs Hl) as (d & Ed & Eb & Wd & Vd). rewrite Ed, Eb.
    do 2 eexists; split; [reflexivity|]. split; [assumption|]. split; [apply wf_b2n|].
    rewrite V2, val_b2n. split; [exact Vd|]. destruct (N.testbit (val lhs) 0); reflexivity.
  - assert (T1 : (high lhs =? 0) && (low lhs =? rhs) = (val lhs =? rhs)).
    { destruct lhs as [l h]; destruct Hl as [H1 H2]; unfold val; cbn [low high] in *.
      change (2 ^ 64) with W64 in *. lia. }
    assert (T2 : (high lhs =? 0) && (low lhs <? rhs) = (val lhs <? rhs)).
    { destruct lhs as [l h]; destruct Hl as [H1 H2]; unfold val; cbn [low high] in *.
      change (2 ^ 64) with W64 in *. lia. }
    rewrite T1, T2.
    destruct (N.eqb_spec (val lhs) rhs) as [Ee|Ee].
    { do 2 eexists; split; [reflexivity|]. split; [apply wf_one|]. split; [apply wf_zero|].
      change (val tmi_one) with 1. change (val tmi_zero) with 0. lia. }
    destruct (N.ltb_spec (val lhs) rhs) as [El|El].
    { do 2 eexists; split; [reflexivity|]. split; [apply wf_zero|]. split; [assumption|].
      change (val tmi_zero) with 0. lia. }
    rewrite fls_log2 by (assumption || lia).
    destruct (divmod_u64_loop_correct lhs rhs (N.to_nat (N.log2 (val lhs))) tmi_zero tmi_zero Hl Hr)
      as (q & m & E & t & Wq & Wm & Vq & Vm & Hm).
    + rewrite N2Nat.id. now apply log2_lt_128.
    + rewrite N2Nat.id. now apply pre_init.
    + rewrite E. exists q, m. split; [reflexivity|]. split; [assumption|]. split; [assumption|].
      rewrite N.shiftr_0_r in Vm. change (2 ^ 0) with 1 in Vq. rewrite N.mul_1_r in Vq. subst t. auto.
Qed.
