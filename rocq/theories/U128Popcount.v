From Coq Require Import NArith ZArith List Bool Lia ZifyBool ZifyNat ZifyN.
From Verif Require Import Base U128Model U128Spec Tactics U128Proofs U128Bits U128Scan.
Import ListNotations.
Local Open Scope N_scope.
Ltac Zify.zify_post_hook ::= Z.div_mod_to_equations.

(** Digit-wise view: [gen B f n v] replaces each of the lowest [n] base-[B] digits d of v by f d. *)
Fixpoint gen (B : N) (f : N -> N) (n : nat) (v : N) : N :=
  match n with
  | O => 0
  | S n' => f (v mod B) + B * gen B f n' (v / B)
  end.
Fixpoint mask (B m : N) (n : nat) : N :=
  match n with O => 0 | S n' => m + B * mask B m n' end.

Lemma land_digit : forall k x y p q, x < 2 ^ k -> p < 2 ^ k ->
  N.land (x + 2 ^ k * y) (p + 2 ^ k * q) = N.land x p + 2 ^ k * N.land y q.
Proof.
  intros k x y p q Hx Hp. rewrite !(N.mul_comm (2 ^ k)).
  rewrite <- !lor_disjoint by (try apply land_lt; assumption).
  apply N.bits_inj_iff. intros j. rewrite !N.land_spec, !N.lor_spec, N.land_spec.
  destruct (N.lt_ge_cases j k) as [Hj|Hj].
  - rewrite !N.mul_pow2_bits_low by assumption. rewrite !orb_false_r. reflexivity.
  - rewrite !N.mul_pow2_bits_high by assumption. rewrite N.land_spec.
    rewrite !(testbit_false_ge _ k j) by assumption. reflexivity.
Qed.

Definition pc (d : N) : N := count_bits 8 d.

Lemma sweep : forall n (P : N -> bool) k, forallb P (map N.of_nat (seq 0 n)) = true ->
  k < N.of_nat n -> P k = true.
Proof. intros. eapply forall_lt_N; eassumption. Qed.

(** step 1: pairs *)
Lemma land_1 : forall x, N.land x 1 = x mod 2.
Proof. intros. change 1 with (N.ones 1). apply N.land_ones. Qed.
Lemma land_3 : forall x, N.land x 3 = x mod 4.
Proof. intros. change 3 with (N.ones 2). apply N.land_ones. Qed.
Lemma land_15 : forall x, N.land x 15 = x mod 16.
Proof. intros. change 15 with (N.ones 4). apply N.land_ones. Qed.

Lemma pair_pc : forall d, d < 4 -> d = pc d + (d / 2) mod 2.
Proof.
  intros d H. apply N.eqb_eq.
  apply (sweep 4 (fun d => d =? pc d + (d / 2) mod 2)); [vm_compute; reflexivity|exact H].
Qed.
Lemma step1 : forall n v, v < 4 ^ N.of_nat n ->
  v = gen 4 pc n v + N.land (v / 2) (mask 4 1 n).
Proof.
  induction n as [|n IH]; intros v Hv.
  - cbn [gen mask]. change (4 ^ N.of_nat 0) with 1 in Hv. rewrite N.land_0_r. lia.
  - cbn [gen mask]. rewrite Nat2N.inj_succ, N.pow_succ_r' in Hv.
    assert (Hq : v / 4 < 4 ^ N.of_nat n) by lia.
    specialize (IH (v / 4) Hq).
    assert (E : v / 2 = (v / 2) mod 4 + 2 ^ 2 * (v / 4 / 2)).
    { change (2 ^ 2) with 4. rewrite N.div_div by discriminate. lia. }
    rewrite E. change (1 + 4 * mask 4 1 n) with (1 + 2 ^ 2 * mask 4 1 n).
    rewrite land_digit by (change (2 ^ 2) with 4; lia).
    rewrite land_1. change (2 ^ 2) with 4.
    assert (Hd : v mod 4 < 4) by lia. pose proof (pair_pc _ Hd) as P.
    assert (X : (v mod 4 / 2) mod 2 = ((v / 2) mod 4) mod 2) by (clear; lia).
    rewrite X in P. lia.
Qed.

(** step 2: nibbles *)
Lemma pc_le : forall d, d < 4 -> pc d <= 2.
Proof.
  intros d H. apply N.leb_le. apply (sweep 4 (fun d => pc d <=? 2)); [vm_compute; reflexivity|exact H].
Qed.
Lemma pc_nibble : forall d, d < 16 -> pc d = pc (d mod 4) + pc (d / 4).
Proof.
  intros d H. apply N.eqb_eq.
  apply (sweep 16 (fun d => pc d =? pc (d mod 4) + pc (d / 4))); [vm_compute; reflexivity|exact H].
Qed.
Lemma step2 : forall n v,
  let t := gen 4 pc (2 * n) v in
  N.land t (mask 16 3 n) + N.land (t / 4) (mask 16 3 n) = gen 16 pc n v.
Proof.
  induction n as [|n IH]; intros v t.
  - cbn [mask gen]. rewrite !N.land_0_r. reflexivity.
  - assert (Ev : v / 4 / 4 = v / 16) by (rewrite N.div_div by discriminate; reflexivity).
    specialize (IH (v / 16)). set (u := gen 4 pc (2 * n) (v / 16)) in *.
    assert (Et : t = pc (v mod 4) + 4 * (pc ((v / 4) mod 4) + 4 * u)).
    { unfold t, u. replace (2 * S n)%nat with (S (S (2 * n))) by lia. cbn [gen]. rewrite Ev. reflexivity. }
    cbn [gen mask].
    assert (P : pc (v mod 16) = pc (v mod 4) + pc ((v / 4) mod 4)).
    { rewrite pc_nibble by lia. f_equal; f_equal; clear; lia. }
    pose proof (pc_le (v mod 4)) as B1. pose proof (pc_le ((v / 4) mod 4)) as B2.
    specialize (B1 ltac:(lia)). specialize (B2 ltac:(lia)).
    set (a := pc (v mod 4)) in *. set (b := pc ((v / 4) mod 4)) in *.
    cbv zeta in IH. clearbody a b u. clear Ev. 
    assert (E1 : t = (a + 4 * b) + 2 ^ 4 * u) by (change (2 ^ 4) with 16; lia).
    assert (E2 : t / 4 = (b + 4 * (u mod 4)) + 2 ^ 4 * (u / 4)) by (change (2 ^ 4) with 16; clear -Et B1; lia).
    rewrite E2, E1. change (3 + 16 * mask 16 3 n) with (3 + 2 ^ 4 * mask 16 3 n).
    rewrite !land_digit by (change (2 ^ 4) with 16; clear -B1 B2; lia).
    rewrite !land_3. change (2 ^ 4) with 16. rewrite P, <- IH.
    replace ((a + 4 * b) mod 4) with a by (clear -B1; lia).
    replace ((b + 4 * (u mod 4)) mod 4) with b by (clear -B2; lia). lia.
Qed.

(** step 3: bytes *)
Lemma pc_le4 : forall d, d < 16 -> pc d <= 4.
Proof.
  intros d H. apply N.leb_le. apply (sweep 16 (fun d => pc d <=? 4)); [vm_compute; reflexivity|exact H].
Qed.
Lemma pc_byte : forall d, d < 256 -> pc d = pc (d mod 16) + pc (d / 16).
Proof.
  intros d H. apply N.eqb_eq.
  apply (sweep 256 (fun d => pc d =? pc (d mod 16) + pc (d / 16))); [vm_compute; reflexivity|exact H].
Qed.
Lemma gen16_mod : forall n v, gen 16 pc n v mod 16 <= 4.
Proof.
  intros [|n] v; cbn [gen]; [lia|].
  assert (pc (v mod 16) <= 4) by (apply pc_le4; lia). lia.
Qed.
Lemma step3 : forall n v,
  let t := gen 16 pc (2 * n) v in
  N.land (t + t / 16) (mask 256 15 n) = gen 256 pc n v.
Proof.
  induction n as [|n IH]; intros v t.
  - cbn [mask gen]. apply N.land_0_r.
  - assert (Ev : v / 16 / 16 = v / 256) by (rewrite N.div_div by discriminate; reflexivity).
    specialize (IH (v / 256)).
    pose proof (gen16_mod (2 * n) (v / 256)) as M.
    set (u := gen 16 pc (2 * n) (v / 256)) in *.
    assert (Et : t = pc (v mod 16) + 16 * (pc ((v / 16) mod 16) + 16 * u)).
    { unfold t, u. replace (2 * S n)%nat with (S (S (2 * n))) by lia. cbn [gen]. rewrite Ev. reflexivity. }
    cbn [gen mask].
    assert (P : pc (v mod 256) = pc (v mod 16) + pc ((v / 16) mod 16)).
    { rewrite pc_byte by lia. f_equal; f_equal; clear; lia. }
    pose proof (pc_le4 (v mod 16)) as B1. pose proof (pc_le4 ((v / 16) mod 16)) as B2.
    specialize (B1 ltac:(lia)). specialize (B2 ltac:(lia)).
    set (a := pc (v mod 16)) in *. set (b := pc ((v / 16) mod 16)) in *.
    cbv zeta in IH. clearbody a b u. clear Ev. 
    assert (E1 : t + t / 16 = (a + b + 16 * (b + u mod 16)) + 2 ^ 8 * (u + u / 16)).
    { change (2 ^ 8) with 256. 
      assert (t / 16 = b + 16 * u) by (clear -Et B1; lia). clear -Et H. lia. }
    rewrite E1. change (15 + 256 * mask 256 15 n) with (15 + 2 ^ 8 * mask 256 15 n).
    rewrite land_digit by (change (2 ^ 8) with 256; clear -B1 B2 M; lia).
    rewrite land_15. change (2 ^ 8) with 256. rewrite P, <- IH.
    replace ((a + b + 16 * (b + u mod 16)) mod 16) with (a + b) by (clear -B1 B2; lia). reflexivity.
Qed.

(** linking with count_bits *)
Lemma count_bits_shift : forall k n v, count_bits (k + n) v = count_bits k v + count_bits n (N.shiftr v (N.of_nat k)).
Proof.
  intros k n v. induction n as [|n IH].
  - rewrite Nat.add_0_r. cbn [count_bits]. lia.
  - rewrite Nat.add_succ_r. cbn [count_bits]. rewrite IH, shiftr_testbit.
    replace (N.of_nat n + N.of_nat k) with (N.of_nat (k + n)) by lia. lia.
Qed.
Lemma count_bits_mod : forall k v, count_bits k v = count_bits k (v mod 2 ^ N.of_nat k).
Proof.
  intros k v.
  assert (H : forall j, (j <= k)%nat -> count_bits j v = count_bits j (v mod 2 ^ N.of_nat k)).
  { induction j as [|j IH]; intros Hj; cbn [count_bits]; [reflexivity|].
    rewrite IH by lia. rewrite N.mod_pow2_bits_low by lia. reflexivity. }
  apply H. lia.
Qed.

Fixpoint sum_bytes (n : nat) (v : N) : N :=
  match n with O => 0 | S n' => pc (v mod 256) + sum_bytes n' (v / 256) end.
Lemma sum_bytes_count : forall n v, sum_bytes n v = count_bits (8 * n) v.
Proof.
  induction n as [|n IH]; intros v; cbn [sum_bytes]; [reflexivity|].
  replace (8 * S n)%nat with (8 + 8 * n)%nat by lia.
  rewrite count_bits_shift, IH, shiftr_div. unfold pc.
  rewrite (count_bits_mod 8 v). reflexivity.
Qed.

Lemma pc_le8 : forall d, d < 256 -> pc d <= 8.
Proof.
  intros d H. apply N.leb_le. apply (sweep 256 (fun d => pc d <=? 8)); [vm_compute; reflexivity|exact H].
Qed.

Lemma gen_bound : forall B f n v, 0 < B -> (forall d, d < B -> f d < B) -> gen B f n v < B ^ N.of_nat n.
Proof.
  intros B f n v HB Hf. revert v. induction n as [|n IH]; intros v; cbn [gen].
  - change (B ^ N.of_nat 0) with 1. lia.
  - rewrite Nat2N.inj_succ, N.pow_succ_r'. specialize (IH (v / B)).
    assert (Hm : v mod B < B) by (apply N.mod_lt; lia).
    specialize (Hf _ Hm). nia.
Qed.

Lemma popcount_u32_correct : forall v, v < 2 ^ 32 -> tmi_popcount_u32 v = count_bits 32 v.
Proof.
  intros v Hv. unfold tmi_popcount_u32. rewrite (shiftr_div v 1). change (2 ^ 1) with 2.
  pose proof (step1 16 v Hv) as S1. change (mask 4 1 16) with 0x55555555 in S1.
  replace (sub32 v (N.land (v / 2) 0x55555555)) with (gen 4 pc 16 v).
  2:{ unfold sub32. change (2 ^ 32) with W32 in Hv. generalize dependent (gen 4 pc 16 v).
      generalize dependent (N.land (v / 2) 0x55555555). intros; lia. }
  cbv zeta. rewrite (shiftr_div _ 2). change (2 ^ 2) with 4.
  pose proof (step2 8 v) as S2. cbv zeta in S2. change (mask 16 3 8) with 0x33333333 in S2.
  change (2 * 8)%nat with 16%nat in S2. rewrite S2.
  assert (G2 : gen 16 pc 8 v < 16 ^ 8).
  { apply (gen_bound 16 pc 8 v); [lia|]. intros d Hd. pose proof (pc_le4 d Hd). lia. }
  change (16 ^ 8) with W32 in G2. unfold w32. rewrite (N.mod_small (gen 16 pc 8 v)) by assumption.
  pose proof (step3 4 v) as S3. cbv zeta in S3. change (mask 256 15 4) with 0x0F0F0F0F in S3.
  change (2 * 4)%nat with 8%nat in S3. rewrite (shiftr_div _ 4). change (2 ^ 4) with 16.
  assert (G3 : gen 16 pc 8 v + gen 16 pc 8 v / 16 < W32).
  { cbn [gen] in *. 
    assert (L : forall x, pc (x mod 16) <= 4) by (intros; apply pc_le4; lia).
    pose proof (L v). pose proof (L (v/16)). pose proof (L (v/16/16)). pose proof (L (v/16/16/16)).
    pose proof (L (v/16/16/16/16)). pose proof (L (v/16/16/16/16/16)).
    pose proof (L (v/16/16/16/16/16/16)). pose proof (L (v/16/16/16/16/16/16/16)).
    repeat match goal with |- context [pc ?x] => let y := fresh "y" in set (y := pc x) in *; clearbody y end.
    clear -H H0 H1 H2 H3 H4 H5 H6. lia. }
  rewrite (N.mod_small (_ + _)) by assumption. rewrite S3.
  change 32%nat with (8 * 4)%nat. rewrite <- sum_bytes_count. rewrite shiftr_div.
  cbn [gen sum_bytes].
  assert (L : forall x, pc (x mod 256) <= 8) by (intros; apply pc_le8; lia).
  pose proof (L v). pose proof (L (v/256)). pose proof (L (v/256/256)). pose proof (L (v/256/256/256)).
  repeat match goal with |- context [pc ?x] => let y := fresh "y" in set (y := pc x) in *; clearbody y end.
  clear -H H0 H1 H2. change (2 ^ 24) with 16777216. lia.
Qed.

Lemma popcount_u64_correct : forall v, v < 2 ^ 64 -> tmi_popcount_u64 v = count_bits 64 v.
Proof.
  intros v Hv. unfold tmi_popcount_u64. rewrite (shiftr_div v 1). change (2 ^ 1) with 2.
  pose proof (step1 32 v Hv) as S1. change (mask 4 1 32) with 0x5555555555555555 in S1.
  replace (sub64 v (N.land (v / 2) 0x5555555555555555)) with (gen 4 pc 32 v).
  2:{ unfold sub64. change (2 ^ 64) with W64 in Hv. generalize dependent (gen 4 pc 32 v).
      generalize dependent (N.land (v / 2) 0x5555555555555555). intros; lia. }
  cbv zeta. rewrite (shiftr_div _ 2). change (2 ^ 2) with 4.
  pose proof (step2 16 v) as S2. cbv zeta in S2. change (mask 16 3 16) with 0x3333333333333333 in S2.
  change (2 * 16)%nat with 32%nat in S2. rewrite S2.
  assert (G2 : gen 16 pc 16 v < 16 ^ 16).
  { apply (gen_bound 16 pc 16 v); [lia|]. intros d Hd. pose proof (pc_le4 d Hd). lia. }
  change (16 ^ 16) with W64 in G2. unfold w64. rewrite (N.mod_small (gen 16 pc 16 v)) by assumption.
  pose proof (step3 8 v) as S3. cbv zeta in S3. change (mask 256 15 8) with 0x0F0F0F0F0F0F0F0F in S3.
  change (2 * 8)%nat with 16%nat in S3. rewrite (shiftr_div _ 4). change (2 ^ 4) with 16.
  assert (L4 : forall x, pc (x mod 16) <= 4) by (intros; apply pc_le4; lia).
  assert (G4 : forall n x, gen 16 pc n x * 15 <= 4 * (16 ^ N.of_nat n - 1)).
  { induction n as [|n IH]; intros x; cbn [gen]; [change (16 ^ N.of_nat 0) with 1; lia|].
    rewrite Nat2N.inj_succ, N.pow_succ_r'. specialize (IH (x / 16)). pose proof (L4 x).
    pose proof (N.pow_nonzero 16 (N.of_nat n)). lia. }
  assert (G3 : gen 16 pc 16 v + gen 16 pc 16 v / 16 < W64).
  { pose proof (G4 16%nat v) as X. change (16 ^ N.of_nat 16) with W64 in X.
    clear -X. set (y := gen 16 pc 16 v) in *. clearbody y. lia. }
  rewrite (N.mod_small (_ + _)) by assumption. rewrite S3.
  change 64%nat with (8 * 8)%nat. rewrite <- sum_bytes_count. rewrite shiftr_div.
  cbn [gen sum_bytes].
  assert (L : forall x, pc (x mod 256) <= 8) by (intros; apply pc_le8; lia).
  pose proof (L v) as H0. pose proof (L (v/256)) as H1. pose proof (L (v/256/256)) as H2.
  pose proof (L (v/256/256/256)) as H3. pose proof (L (v/256/256/256/256)) as H4.
  pose proof (L (v/256/256/256/256/256)) as H5. pose proof (L (v/256/256/256/256/256/256)) as H6.
  pose proof (L (v/256/256/256/256/256/256/256)) as H7.
  repeat match goal with |- context [pc ?x] => let y := fresh "y" in set (y := pc x) in *; clearbody y end.
  clear -H0 H1 H2 H3 H4 H5 H6 H7. change (2 ^ 56) with 0x100000000000000.
  match goal with |- (?p mod _) / _ = ?s => 
    assert (E : exists lo hi, p = lo + 0x100000000000000 * s + W64 * hi /\ lo < 0x100000000000000) end.
  { exists (y + 0x100 * (y + y0) + 0x10000 * (y + y0 + y1) + 0x1000000 * (y + y0 + y1 + y2)
      + 0x100000000 * (y + y0 + y1 + y2 + y3) + 0x10000000000 * (y + y0 + y1 + y2 + y3 + y4)
      + 0x1000000000000 * (y + y0 + y1 + y2 + y3 + y4 + y5)).
    exists ((y0 + y1 + y2 + y3 + y4 + y5 + y6) + 0x100 * (y1 + y2 + y3 + y4 + y5 + y6)
      + 0x10000 * (y2 + y3 + y4 + y5 + y6) + 0x1000000 * (y3 + y4 + y5 + y6)
      + 0x100000000 * (y4 + y5 + y6) + 0x10000000000 * (y5 + y6) + 0x1000000000000 * y6).
    split; lia. }
  destruct E as (lo & hi & E & Hlo). rewrite E.
  match goal with |- ((_ + _ * ?s + _) mod _) / _ = _ => assert (Hs : s <= 64) by lia; 
     set (z := s) in *; clearbody z end.
  clear -Hlo Hs. lia.
Qed.

Lemma popcount_correct : forall v, wf v -> tmi_popcount v = count_bits 128 (val v).
Proof.
  intros v [Hl Hh]. unfold tmi_popcount. rewrite !popcount_u64_correct by assumption.
  change 128%nat with (64 + 64)%nat. rewrite count_bits_shift. f_equal.
  - rewrite (count_bits_mod 64 (val v)). f_equal. unfold val.
    change (2 ^ N.of_nat 64) with W64. change (2 ^ 64) with W64 in *. lia.
  - f_equal. rewrite shiftr_div. unfold val.
    change (2 ^ N.of_nat 64) with W64. change (2 ^ 64) with W64 in *. lia.
Qed.
