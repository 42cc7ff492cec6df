(** The stack allocator as a stack of blocks. *)
From Coq Require Import Arith NArith ZArith List Bool Lia ZifyBool ZifyNat ZifyN.
From Verif Require Import Base AllocModel AllocSpec.
Import ListNotations.
Local Open Scope N_scope.

(** ** Alignment *)
Lemma pow2_pos : forall a, pow2 a -> 1 <= a /\ a < W64.
Proof.
  intros a (k & Hk & ->). pose proof (N.pow_nonzero 2 k ltac:(lia)).
  split; [lia|]. change W64 with (2 ^ 64). apply N.pow_lt_mono_r; lia.
Qed.
Lemma pow2_div64 : forall a, pow2 a -> W64 mod a = 0.
Proof.
  intros a (k & Hk & ->). change W64 with (2 ^ 64). replace 64 with (k + (64 - k)) by lia.
  rewrite N.pow_add_r, N.mul_comm. apply N.mod_mul. apply N.pow_nonzero. lia.
Qed.
Lemma pow2_test : forall a, pow2 a -> is_power_of_two a = true.
Proof.
  intros a (k & Hk & ->). unfold is_power_of_two.
  pose proof (N.pow_nonzero 2 k ltac:(lia)) as P. apply N.eqb_neq in P. rewrite P.
  replace (2 ^ k - 1) with (N.ones k) by (rewrite N.ones_equiv; lia).
  rewrite N.land_ones, N.mod_same by (apply N.pow_nonzero; lia). reflexivity.
Qed.
Lemma pow2_divide : forall a b, pow2 a -> pow2 b -> a <= b -> b mod a = 0.
Proof.
  intros a b (k & Hk & ->) (l & Hl & ->) H. apply N.pow_le_mono_r_iff in H; [|lia].
  replace l with ((l - k) + k) by lia. rewrite N.pow_add_r. apply N.mod_mul. apply N.pow_nonzero. lia.
Qed.

Lemma pad_lt : forall x a, 1 <= a -> pad x a < a.
Proof. intros. unfold pad. apply N.mod_lt. lia. Qed.
Lemma pad_aligned : forall x a, 1 <= a -> (x + pad x a) mod a = 0.
Proof.
  intros x a H. unfold pad. rewrite N.add_mod_idemp_r by lia.
  pose proof (N.mod_lt x a ltac:(lia)). rewrite (N.div_mod x a) at 1 by lia.
  replace (a * (x / a) + x mod a + (a - x mod a)) with ((x / a + 1) * a) by lia. apply N.mod_mul. lia.
Qed.
Lemma pad_unique : forall x a o, 1 <= a -> o < a -> (x + o) mod a = 0 -> o = pad x a.
Proof.
  intros x a o H Ho E. pose proof (pad_lt x a H) as L. pose proof (pad_aligned x a H) as Ep.
  pose proof (N.div_mod (x + o) a ltac:(lia)) as D1. pose proof (N.div_mod (x + pad x a) a ltac:(lia)) as D2.
  rewrite E in D1. rewrite Ep in D2. set (q1 := (x + o) / a) in *. set (q2 := (x + pad x a) / a) in *.
  clearbody q1 q2. set (o' := pad x a) in *. clearbody o'. clear E Ep.
  destruct (N.lt_trichotomy q1 q2) as [Q|[Q|Q]]; nia.
Qed.
Lemma pad_aligned_0 : forall x a, 1 <= a -> x mod a = 0 -> pad x a = 0.
Proof. intros x a H E. symmetry. apply pad_unique; [assumption|lia|]. rewrite N.add_0_r. exact E. Qed.
Lemma pad_1 : forall x, pad x 1 = 0.
Proof. intros x. apply pad_aligned_0; [lia|]. apply N.mod_1_r. Qed.
(** Aligning to a, then to a multiple b of a, is aligning to b. *)
Lemma pad_pad : forall x a b, 1 <= a -> 1 <= b -> b mod a = 0 ->
  pad x a + pad (x + pad x a) b = pad x b.
Proof.
  intros x a b Ha Hb D. apply pad_unique; [assumption| |].
  - (* at most pad x b < b: the next multiple of b is a multiple of a *)
    pose proof (pad_lt x b Hb) as L. pose proof (pad_aligned x b Hb) as E.
    pose proof (pad_lt x a Ha) as La. pose proof (pad_aligned x a Ha) as Ea.
    pose proof (pad_lt (x + pad x a) b Hb) as Lb. pose proof (pad_aligned (x + pad x a) b Hb) as Eb.
    assert (Ea' : (x + pad x b) mod a = 0).
    { apply N.mod_divide in D; [|lia]. apply N.mod_divide in E; [|lia]. apply N.mod_divide; [lia|].
      eapply N.divide_trans; eassumption. }
    apply N.mod_divide in E; [|lia]. apply N.mod_divide in Ea; [|lia]. apply N.mod_divide in Eb; [|lia].
    apply N.mod_divide in Ea'; [|lia].
    destruct Ea as [q1 E1], Ea' as [q2 E2], E as [r1 E3], Eb as [r2 E4].
    set (u := pad x a) in *. set (v := pad x b) in *. set (w := pad (x + u) b) in *. clearbody u v w.
    assert (u <= v) by (destruct (N.le_gt_cases u v) as [|G]; [assumption|]; assert (q2 < q1) by nia; nia).
    assert (w <= v - u).
    { destruct (N.le_gt_cases w (v - u)) as [|G]; [assumption|]. assert (r1 < r2) by nia. nia. }
    lia.
  - replace (x + (pad x a + pad (x + pad x a) b)) with ((x + pad x a) + pad (x + pad x a) b) by lia.
    now apply pad_aligned.
Qed.

Lemma alignment_offset_eq : forall dbg x a, pow2 a -> x < W64 -> alignment_offset dbg x a = Some (pad x a).
Proof.
  intros dbg x a Pa Hx. destruct (pow2_pos a Pa) as [A1 A2]. pose proof (pow2_div64 a Pa) as D64.
  unfold alignment_offset. rewrite pow2_test by assumption.
  assert (E0 : (a =? 0) = false) by (apply N.eqb_neq; lia). rewrite E0.
  assert (Eo : N.land (sub64 a x) (sub64 a 1) = pad x a).
  { assert (E1 : sub64 a 1 = a - 1).
    { unfold sub64. replace (a + W64 - 1) with ((a - 1) + 1 * W64) by lia. rewrite N.mod_add by lia. apply N.mod_small. lia. }
    rewrite E1. destruct Pa as (k & Hk & Ek). rewrite Ek at 2.
    replace (2 ^ k - 1) with (N.ones k) by (rewrite N.ones_equiv; lia). rewrite N.land_ones, <- Ek.
    apply pad_unique; [lia|apply N.mod_lt; lia|].
    rewrite N.add_mod_idemp_r by lia. unfold sub64.
    assert (M : forall y, (y mod W64) mod a = y mod a).
    { intros y. rewrite (N.div_mod y W64) at 2 by lia. apply N.mod_divide in D64; [|lia]. destruct D64 as [q Eq].
      replace (W64 * (y / W64) + y mod W64) with (y mod W64 + (q * (y / W64)) * a) by (rewrite Eq at 3; ring).
      rewrite N.mod_add by lia. reflexivity. }
    rewrite <- N.add_mod_idemp_r, M, N.add_mod_idemp_r by lia.
    replace (x + (a + W64 - x)) with (W64 + 1 * a) by lia. rewrite N.mod_add by lia. exact D64. }
  rewrite Eo. cbv zeta.
  assert (Ea : w64 (x + pad x a) mod a = 0).
  { unfold w64. pose proof (pad_aligned x a A1) as Ep. rewrite <- Ep.
    rewrite (N.div_mod (x + pad x a) W64) at 2 by lia. apply N.mod_divide in D64; [|lia]. destruct D64 as [q Eq].
    replace (W64 * ((x + pad x a) / W64) + (x + pad x a) mod W64)
      with ((x + pad x a) mod W64 + (q * ((x + pad x a) / W64)) * a) by (rewrite Eq at 3; ring).
    rewrite N.mod_add by lia. reflexivity. }
  rewrite Ea. unfold check, assert_. destruct dbg; reflexivity.
Qed.

(** ** Single operations *)
Definition stack_ok (s : stack) : Prop := 1 <= p s /\ 1 <= cap s /\ p s + cap s < W64 /\ sz s <= cap s.

Lemma check_true : forall dbg A b (k : option A), b = true -> check dbg b k = k.
Proof. intros dbg A b k ->. unfold check, assert_. destruct dbg; reflexivity. Qed.

Lemma ok_valid : forall s, stack_ok s -> is_valid s = true.
Proof. intros s (H1 & H2 & H3 & H4). unfold is_valid. lia. Qed.
Lemma end_eq : forall dbg s, stack_ok s -> end_ dbg s = Some (p s + sz s).
Proof.
  intros dbg s H. unfold end_. rewrite check_true by now apply ok_valid.
  destruct H as (H1 & H2 & H3 & H4). unfold w64. rewrite N.mod_small by lia. reflexivity.
Qed.
Lemma w64_small : forall x, x < W64 -> w64 x = x.
Proof. intros. unfold w64. now apply N.mod_small. Qed.

Lemma allocate_eq : forall dbg s size a, stack_ok s -> pow2 a -> cap s + a + size <= W64 ->
  let o := pad (p s + sz s) a in
  allocate_bytes dbg s size a =
    if (size =? 0) || (cap s <? sz s + o + size) then Some (s, None)
    else Some (Stack (p s) (sz s + o + size) (cap s) 1, Some (p s + sz s + o, size)).
Proof.
  intros dbg s size a Hs Pa Hn o. unfold allocate_bytes. destruct (N.eqb_spec size 0) as [->|S0]; [reflexivity|].
  cbn [orb]. rewrite end_eq by assumption.
  pose proof Hs as (H1 & H2 & H3 & H4). destruct (pow2_pos a Pa) as [A1 A2].
  rewrite alignment_offset_eq by (assumption || lia). fold o.
  pose proof (pad_lt (p s + sz s) a A1) as L. fold o in L.
  rewrite (w64_small (sz s + o + size)) by lia.
  destruct (N.ltb_spec (cap s) (sz s + o + size)) as [H|H]; [reflexivity|].
  cbv zeta. rewrite !w64_small by lia.
  rewrite check_true by (apply N.eqb_eq; now apply pad_aligned).
  replace (sz s + (o + size)) with (sz s + o + size) by lia. reflexivity.
Qed.

Lemma recent_eq : forall dbg s ptr size, stack_ok s -> pow2 (lpa s) -> ptr + size <= p s + sz s ->
  is_most_recent_allocation dbg s ptr size
    = Some (ptr + size + pad (ptr + size) (lpa s) =? p s + sz s).
Proof.
  intros dbg s ptr size Hs Pl He. pose proof Hs as (H1 & H2 & H3 & H4). unfold is_most_recent_allocation.
  rewrite (w64_small (ptr + size)) by lia. rewrite alignment_offset_eq by (assumption || lia).
  rewrite end_eq by assumption. f_equal. unfold w64.
  set (y := ptr + size + pad (ptr + size) (lpa s)) in *.
  destruct (N.lt_ge_cases y W64) as [Hy|Hy]; [now rewrite N.mod_small|].
  (* past the address space: the sum wraps to 0, and no block ends there *)
  pose proof (pad_aligned (ptr + size) (lpa s) (proj1 (pow2_pos _ Pl))) as Ea. fold y in Ea.
  pose proof (pad_lt (ptr + size) (lpa s) (proj1 (pow2_pos _ Pl))) as Lp.
  destruct (pow2_pos _ Pl) as [L1 L2].
  assert (Ey : y = W64).
  { pose proof (pow2_div64 _ Pl) as D. apply N.mod_divide in D; [|lia]. apply N.mod_divide in Ea; [|lia].
    destruct D as [q Eq], Ea as [r Er]. subst y. set (o := pad (ptr + size) (lpa s)) in *. clearbody o.
    set (l := lpa s) in *. clearbody l.
    assert (W64 < (q + 1) * l) by nia. assert (r * l < (q + 1) * l) by nia. assert (q * l <= r * l) by nia.
    assert (r = q) by nia. subst r. lia. }
  rewrite Ey, N.mod_same by lia. lia.
Qed.

Lemma sub64_le : forall a b, b <= a -> a < W64 -> sub64 a b = a - b.
Proof.
  intros a b H Ha. unfold sub64. replace (a + W64 - b) with ((a - b) + 1 * W64) by lia.
  rewrite N.mod_add by lia. apply N.mod_small. lia.
Qed.
(** Changing the size of the most recent block. *)
Lemma resize_eq : forall s new old, stack_ok s -> old <= sz s -> cap s + new < W64 ->
  w64 (sz s + sub64 new old) = sz s + new - old.
Proof.
  intros s new old (H1 & H2 & H3 & H4) Ho Hn. destruct (N.le_gt_cases old new) as [H|H].
  - rewrite sub64_le by lia. rewrite w64_small by lia. lia.
  - unfold sub64. rewrite (N.mod_small (new + W64 - old)) by lia. unfold w64.
    replace (sz s + (new + W64 - old)) with (sz s + new - old + 1 * W64) by lia.
    rewrite N.mod_add by lia. apply N.mod_small. lia.
Qed.
