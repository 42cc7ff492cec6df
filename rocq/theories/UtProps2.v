(** C127-C131: tm_utility.h: byte order, ranges, memory, flags. *)
From Coq Require Import Arith NArith ZArith Lia ZifyBool ZifyNat ZifyN Bool List Permutation.
From Verif Require Import Base UtModel UtSpec UtProps.
Import ListNotations.
Local Open Scope N_scope.

Lemma lor_lt : forall n a b, a < 2 ^ n -> b < 2 ^ n -> N.lor a b < 2 ^ n.
Proof.
  intros n a b Ha Hb. assert (N.lor a b mod 2 ^ n = N.lor a b) as <-.
  { apply N.bits_inj. intros j. destruct (N.ltb_spec j n) as [L|L]; [rewrite N.mod_pow2_bits_low by exact L; reflexivity|]. rewrite N.mod_pow2_bits_high by exact L. rewrite N.lor_spec. rewrite <- (N.mod_small a (2 ^ n) Ha), <- (N.mod_small b (2 ^ n) Hb). rewrite !N.mod_pow2_bits_high by exact L. reflexivity. }
  apply N.mod_lt, N.pow_nonzero. discriminate.
Qed.
Lemma shiftr_lt : forall n x k m, m < 2 ^ n -> N.shiftr (N.land x m) k < 2 ^ n.
Proof.
  intros n x k m L. rewrite N.shiftr_div_pow2. apply N.le_lt_trans with (N.land x m); [apply N.div_le_upper_bound; [apply N.pow_nonzero; discriminate|]; assert (2 ^ k <> 0) by (apply N.pow_nonzero; discriminate); nia|].
  apply N.le_lt_trans with m; [|exact L]. rewrite N.land_comm. destruct (N.eq_dec m 0) as [->|Z]; [reflexivity|]. apply N.ldiff_le. apply N.bits_inj. intros j. rewrite N.ldiff_spec, N.land_spec, N.bits_0. destruct (N.testbit m j), (N.testbit x j); reflexivity.
Qed.
Lemma swap16_lt : forall x, swap16 x < 2 ^ 16.
Proof. intros x. apply N.mod_lt. discriminate. Qed.
Lemma swap32_lt : forall x, swap32 x < 2 ^ 32.
Proof. intros x. unfold swap32. repeat apply lor_lt; first [apply N.mod_lt; discriminate | apply shiftr_lt; reflexivity]. Qed.
Lemma swap64_lt : forall x, swap64 x < 2 ^ 64.
Proof. intros x. unfold swap64. repeat apply lor_lt; first [apply N.mod_lt; discriminate | apply shiftr_lt; reflexivity]. Qed.
(** A word is determined by its bytes. *)
Lemma same_bytes : forall n x y, x < 2 ^ (8 * n) -> y < 2 ^ (8 * n) -> (forall i, i < n -> byte i x = byte i y) -> x = y.
Proof.
  intros n x y Hx Hy H. apply N.bits_inj. intros j. destruct (N.ltb_spec j (8 * n)) as [L|L].
  - assert (D : j = 8 * (j / 8) + j mod 8) by (apply N.div_mod; discriminate). assert (M : j mod 8 < 8) by (apply N.mod_lt; discriminate). assert (Q : j / 8 < n) by (apply N.div_lt_upper_bound; [discriminate|exact L]). pose proof (H _ Q) as E. apply (f_equal (fun b => N.testbit b (j mod 8))) in E. rewrite !byte_bits in E. rewrite (proj2 (N.ltb_lt _ _) M), !andb_true_l, <- D in E. exact E.
  - rewrite <- (N.mod_small _ _ Hx), <- (N.mod_small _ _ Hy), !N.mod_pow2_bits_high by exact L. reflexivity.
Qed.
(** Swapping twice gives the word back. *)
Theorem C127_involution : forall x, (x < 2 ^ 16 -> swap16 (swap16 x) = x) /\ (x < 2 ^ 32 -> swap32 (swap32 x) = x) /\ (x < 2 ^ 64 -> swap64 (swap64 x) = x).
Proof.
  intros x. split; [|split]; intros L.
  - apply (same_bytes 2); [apply swap16_lt|exact L|]. intros i Hi. rewrite C127_swap16 by exact Hi. rewrite C127_swap16 by lia. f_equal. lia.
  - apply (same_bytes 4); [apply swap32_lt|exact L|]. intros i Hi. rewrite C127_swap32 by exact Hi. rewrite C127_swap32 by lia. f_equal. lia.
  - apply (same_bytes 8); [apply swap64_lt|exact L|]. intros i Hi. rewrite C127_swap64 by exact Hi. rewrite C127_swap64 by lia. f_equal. lia.
Qed.
Example C127_example : swap64 0x0123456789abcdef = 0xefcdab8967452301 /\ swap32 0x12345678 = 0x78563412 /\ swap16 0x1234 = 0x3412.
Proof. repeat split; vm_compute; reflexivity. Qed.

(** ** C129 *)
Lemma equal_shifted : forall n m x b, (n < length (x :: m))%nat -> x = 0 -> equal_bytes n (x :: m) m = Some b -> (b = true <-> Forall (fun y => y = 0) (firstn n m)).
Proof.
  induction n as [|n IH]; intros m x b L Hx E.
  - cbn [equal_bytes firstn] in *. assert (b = true) by congruence. split; [constructor|auto].
  - destruct m as [|y m]; [cbn [length] in L; lia|]. cbn [equal_bytes] in E. destruct (N.eqb_spec x y) as [Q|Q].
    + cbn [firstn]. rewrite (IH m y b); [|cbn [length] in *; lia|congruence|exact E]. split; intros H; [constructor; [congruence|exact H]|inversion H; assumption].
    + assert (Eb : b = false) by congruence. cbn [firstn]. split; intros H; [congruence|]. inversion H. congruence.
Qed.
Theorem C129_zero : forall m size, (0 < size <= length m)%nat -> exists b, is_memory_zero m size = Some b /\ (b = true <-> Forall (fun x => x = 0) (firstn size m)).
Proof.
  intros m size L. unfold is_memory_zero. rewrite (proj2 (Nat.eqb_neq size 0)) by lia. cbn [negb assert_]. destruct m as [|x m]; [cbn [length] in L; lia|]. destruct size as [|n]; [lia|]. replace (S n - 1)%nat with n by lia. cbn [firstn].
  destruct (N.eqb_spec x 0) as [Q|Q].
  - assert (D : forall n m x, (n < length (x :: m))%nat -> exists b, equal_bytes n (x :: m) m = Some b).
    { clear. induction n as [|n IH]; intros m x L; [eexists; reflexivity|]. destruct m as [|y m]; [cbn [length] in L; lia|]. cbn [equal_bytes]. destruct (x =? y); [apply IH; cbn [length] in *; lia|eexists; reflexivity]. }
    destruct (D n m x) as [b E]; [lia|]. exists b. split; [exact E|]. rewrite (equal_shifted n m x b ltac:(lia) Q E). split; intros H; [constructor; assumption|inversion H; assumption].
  - exists false. split; [reflexivity|]. split; [discriminate|]. intros H. inversion H. contradiction.
Qed.
Example C129_example : is_memory_zero [0; 0; 0; 5] 3 = Some true /\ is_memory_zero [0; 0; 0; 5] 4 = Some false /\ is_memory_zero [7; 7] 2 = Some false.
Proof. repeat split; vm_compute; reflexivity. Qed.

(** ** C131 *)
(** [flag] has [w] bits like [flags]: only its bits change. *)
Lemma complement_bits : forall w x i, x < 2 ^ w -> N.testbit (complement w x) i = (i <? w) && negb (N.testbit x i).
Proof.
  intros w x i L. unfold complement. replace (2 ^ w - 1 - x) with (N.ldiff (N.ones w) x).
  - rewrite N.ldiff_spec. destruct (N.ltb_spec i w) as [H|H]; [rewrite N.ones_spec_low by exact H|rewrite N.ones_spec_high by exact H]; reflexivity.
  - rewrite <- N.sub_nocarry_ldiff; [rewrite N.ones_equiv, N.sub_1_r; reflexivity|]. apply N.bits_inj. intros j. rewrite N.ldiff_spec, N.bits_0. destruct (N.ltb_spec j w) as [H|H]; [rewrite N.ones_spec_low by exact H; apply andb_false_r|]. rewrite <- (N.mod_small x (2 ^ w) L), N.mod_pow2_bits_high by exact H. reflexivity.
Qed.
Theorem C131_flags_partial : forall w flags flag i, flags < 2 ^ w -> flag < 2 ^ w ->
  N.testbit (set_flag flags flag) i = N.testbit flags i || N.testbit flag i /\
  N.testbit (clear_flag w flags flag) i = N.testbit flags i && negb (N.testbit flag i) /\
  (forall c, N.testbit (set_flag_cond w flags flag c) i = if N.testbit flag i then c else N.testbit flags i) /\
  N.testbit (toggle_flag flags flag) i = xorb (N.testbit flags i) (N.testbit flag i) /\
  (is_flag_set flags flag = true <-> exists j, N.testbit flags j = true /\ N.testbit flag j = true).
Proof.
  intros w flags flag i Lf Lg.
  assert (C : N.testbit (clear_flag w flags flag) i = N.testbit flags i && negb (N.testbit flag i)).
  { unfold clear_flag. rewrite N.land_spec, complement_bits by exact Lg. destruct (N.ltb_spec i w) as [H|H]; [reflexivity|]. rewrite <- (N.mod_small flags (2 ^ w) Lf), N.mod_pow2_bits_high by exact H. reflexivity. }
  split; [apply N.lor_spec|]. split; [exact C|]. split; [|split; [apply N.lxor_spec|]].
  - intros [|]; cbn [set_flag_cond]; [unfold set_flag_cond, set_flag; rewrite N.lor_spec|unfold set_flag_cond; rewrite C]; destruct (N.testbit flags i), (N.testbit flag i); reflexivity.
  - unfold is_flag_set. rewrite negb_true_iff, N.eqb_neq. split.
    + intros H. exists (N.log2 (N.land flags flag)). pose proof (N.bit_log2 _ H) as B. rewrite N.land_spec in B. apply andb_prop, B.
    + intros (j & H1 & H2) E. assert (N.testbit (N.land flags flag) j = true) as B by (rewrite N.land_spec, H1, H2; reflexivity). rewrite E, N.bits_0 in B. discriminate B.
Qed.
Example C131_example : set_flag_cond 8 0xa5 0x10 true = 0xb5 /\ set_flag_cond 8 0xa5 0x20 false = 0x85 /\ is_flag_set 0xa5 0x12 = false.
Proof. repeat split; vm_compute; reflexivity. Qed.
(** A flag of 32 bits cleared in a word of 64 bits: the upper half is lost. *)
Theorem C131_flags_refuted : exists flags flag i, flags < 2 ^ 64 /\ flag < 2 ^ 32 /\ N.testbit flag i = false /\ N.testbit flags i = true /\ N.testbit (clear_flag 32 flags flag) i = false.
Proof. exists (2 ^ 40 + 1), 1, 40. repeat split; vm_compute; reflexivity. Qed.

Local Open Scope Z_scope.
(** ** C128 *)
Definition int (x : Z) : Prop := - 2 ^ 31 <= x < 2 ^ 31.
Lemma is_int_true : forall x, int x -> is_int x = true.
Proof. intros x H. unfold is_int. unfold int in H. lia. Qed.
Lemma as_u32_range : forall x, 0 <= as_u32 x < 2 ^ 32.
Proof. intros x. apply Z.mod_pos_bound. lia. Qed.
Lemma map_value : forall v min max, int min -> int max -> min < max -> max - min < 2 ^ 31 -> map_to_range v min max = Some (min + as_u32 v * (max - min) / 2 ^ 32).
Proof.
  intros v min max I1 I2 L N. unfold int in *. pose proof (as_u32_range v) as U. unfold map_to_range. rewrite is_int_true by (unfold int; lia). cbn [assert_]. assert (as_u32 (max - min) = max - min) as -> by (apply Z.mod_small; lia).
  assert (Q : 0 <= as_u32 v * (max - min) / 2 ^ 32 < max - min) by (split; [apply Z.div_pos; nia|apply Z.div_lt_upper_bound; nia]). cbv zeta. unfold as_int. rewrite (Z.mod_small _ (2 ^ 32)) by lia. cbv zeta. rewrite (proj2 (Z.ltb_lt _ (2 ^ 31))) by lia. rewrite is_int_true by (unfold int; lia). cbn [assert_]. f_equal. lia.
Qed.
(** Every result is in the range, and as many values lead to one as to another, give or take one. *)
Theorem C128_range_partial : forall v min max, int min -> int max -> min < max -> max - min < 2 ^ 31 -> exists r, map_to_range v min max = Some r /\ min <= r < max.
Proof.
  intros v min max I1 I2 L N. rewrite map_value by assumption. eexists. split; [reflexivity|]. pose proof (as_u32_range v) as U. assert (Q : 0 <= as_u32 v * (max - min) / 2 ^ 32 < max - min) by (split; [apply Z.div_pos; nia|apply Z.div_lt_upper_bound; nia]). lia.
Qed.
Theorem C128_fair_partial : forall min max r, int min -> int max -> min < max -> max - min < 2 ^ 31 -> min <= r < max ->
  exists first count, (count = 2 ^ 32 / (max - min) \/ count = 2 ^ 32 / (max - min) + 1) /\ 0 <= first /\ first + count <= 2 ^ 32 /\ forall v, map_to_range v min max = Some r <-> first <= as_u32 v < first + count.
Proof.
  intros min max r I1 I2 L N R. set (n := max - min) in *. set (k := r - min).
  assert (Hn : 0 < n) by lia. assert (Hk : 0 <= k < n) by lia.
  (* least u with k <= u n / 2^32 *)
  set (up := fun k => (k * 2 ^ 32 + n - 1) / n).
  assert (Up : forall j u, up j <= u <-> j * 2 ^ 32 <= u * n).
  { intros j u. unfold up. assert (D := Z.div_mod (j * 2 ^ 32 + n - 1) n ltac:(lia)). assert (B := Z.mod_pos_bound (j * 2 ^ 32 + n - 1) n Hn). set (q := (j * 2 ^ 32 + n - 1) / n) in *. set (t := (j * 2 ^ 32 + n - 1) mod n) in *. clearbody q t. split; intros H; nia. }
  exists (up k), (up (k + 1) - up k).
  assert (P0 : 0 <= up k) by (unfold up; apply Z.div_pos; nia). assert (P1 : up (k + 1) <= 2 ^ 32) by (apply Up; nia).
  split.
  { set (q := 2 ^ 32 / n). assert (D := Z.div_mod (2 ^ 32) n ltac:(lia)). assert (B := Z.mod_pos_bound (2 ^ 32) n Hn). fold q in D.
    assert (Lo : up k + q <= up (k + 1)). { assert (K := proj1 (Up (k + 1) (up (k + 1))) (Z.le_refl _)). assert (up k <= up (k + 1) - q) by (apply Up; nia). lia. }
    assert (Hi : up (k + 1) <= up k + q + 1). { apply Up. assert (K := proj1 (Up k (up k)) (Z.le_refl _)). nia. }
    lia. }
  split; [exact P0|]. split; [lia|]. intros v. rewrite map_value by assumption. fold n. replace (up k + (up (k + 1) - up k)) with (up (k + 1)) by lia.
  assert (Q : up k <= as_u32 v < up (k + 1) <-> k * 2 ^ 32 <= as_u32 v * n < (k + 1) * 2 ^ 32). { rewrite (Up k). rewrite (Z.lt_nge _ (up (k + 1))), (Z.lt_nge _ ((k + 1) * 2 ^ 32)), (Up (k + 1)). reflexivity. } rewrite Q.
  split; intros H.
  - assert (E : as_u32 v * n / 2 ^ 32 = k) by (assert (min + as_u32 v * n / 2 ^ 32 = r) by congruence; lia). assert (D := Z.div_mod (as_u32 v * n) (2 ^ 32) ltac:(lia)). assert (B := Z.mod_pos_bound (as_u32 v * n) (2 ^ 32) ltac:(lia)). lia.
  - f_equal. assert (as_u32 v * n / 2 ^ 32 = k) as -> by (symmetry; apply (Z.div_unique _ _ _ (as_u32 v * n - k * 2 ^ 32)); lia). lia.
Qed.
Example C128_example : map_to_range (-1) 10 20 = Some 19 /\ map_to_range 0 10 20 = Some 10 /\ map_to_range (2 ^ 31 - 1) (-3) 3 = Some (-1).
Proof. repeat split; vm_compute; reflexivity. Qed.
(** The version for 32 bits: right for values that are not negative only. *)
Theorem C128_range_32_partial : forall v min max, int v -> 0 <= v -> int min -> int max -> min < max -> max - min < 2 ^ 31 -> exists r, map_to_range_32 v min max = Some r /\ min <= r < max.
Proof.
  intros v min max Iv Pv I1 I2 L N. unfold int in *. unfold map_to_range_32. rewrite is_int_true by (unfold int; lia). rewrite (proj2 (Z.eqb_neq (max - min) 0)) by lia. cbn [negb andb assert_]. rewrite Z.rem_mod_nonneg by lia. assert (B := Z.mod_pos_bound v (max - min) ltac:(lia)). cbv zeta. rewrite is_int_true by (unfold int; lia). cbn [assert_]. eexists. split; [reflexivity|lia].
Qed.
Theorem C128_range_refuted : (exists v min max r, int v /\ int min /\ int max /\ min < max /\ map_to_range_32 v min max = Some r /\ r < min) /\ (exists v min max, int v /\ int min /\ int max /\ min < max /\ map_to_range v min max = None).
Proof. split; [exists (-1), 0, 6, (-1)|exists 0, (-2), (2 ^ 31 - 1)]; unfold int; repeat split; vm_compute; reflexivity || discriminate. Qed.

(** ** C130 *)
Theorem C130_clamp_partial : forall v lo hi, lo <= hi -> lo <= clamp v lo hi <= hi /\ (lo <= v <= hi -> clamp v lo hi = v) /\ (forall w, lo <= w <= hi -> Z.abs (v - clamp v lo hi) <= Z.abs (v - w)).
Proof. intros v lo hi L. unfold clamp. destruct (Z.ltb_spec v lo); [|destruct (Z.ltb_spec hi v)]; repeat split; intros; lia. Qed.
Example C130_example : clamp (-5) 0 10 = 0 /\ clamp 11 0 10 = 10 /\ clamp 7 0 10 = 7.
Proof. repeat split; reflexivity. Qed.
(** A value of type int, bounds of type unsigned int. *)
Theorem C130_clamp_refuted : exists v lo hi, int v /\ 0 <= lo <= hi /\ hi < 2 ^ 31 /\ clamp_mixed v lo hi <> clamp v lo hi.
Proof. exists (-1), 0, 10. unfold int. repeat split; vm_compute; reflexivity || discriminate. Qed.
Theorem C130_clamp_mixed_partial : forall v lo hi, int v -> 0 <= v -> 0 <= lo <= hi -> hi < 2 ^ 31 -> clamp_mixed v lo hi = clamp v lo hi.
Proof.
  intros v lo hi I P L H. unfold int in I. unfold clamp_mixed, clamp, as_u32. rewrite (Z.mod_small v) by lia. assert (A : forall x, 0 <= x < 2 ^ 31 -> as_int x = x) by (intros x Hx; unfold as_int; rewrite Z.mod_small by lia; cbv zeta; rewrite (proj2 (Z.ltb_lt x _)) by lia; reflexivity).
  destruct (v <? lo); [apply A; lia|]. destruct (hi <? v); apply A; lia.
Qed.
(** The bits of the value, with zeros above. *)
Theorem C130_promote : forall w r v, 0 < w <= r -> - 2 ^ (w - 1) <= v < 2 ^ w -> exists x, promote_as_is_to w r v = Some x /\ 0 <= x < 2 ^ r /\ forall i, 0 <= i -> Z.testbit x i = (i <? w) && Z.testbit v i.
Proof.
  intros w r v W V. unfold promote_as_is_to. rewrite (proj2 (Z.leb_le w r)) by lia. cbn [assert_]. eexists. split; [reflexivity|]. split.
  - pose proof (Z.mod_pos_bound v (2 ^ w) ltac:(lia)) as B. assert (2 ^ w <= 2 ^ r) by (apply Z.pow_le_mono_r; lia). lia.
  - intros i Hi. destruct (Z.ltb_spec i w) as [L|L]; [rewrite Z.mod_pow2_bits_low by exact L|rewrite Z.mod_pow2_bits_high by lia]; reflexivity.
Qed.
Example C130_promote_example : promote_as_is_to 8 32 (-1) = Some 255 /\ promote_as_is_to 32 8 1 = None.
Proof. split; reflexivity. Qed.

Print Assumptions C127_involution.
Print Assumptions C129_zero.
Print Assumptions C131_flags_partial.
Print Assumptions C131_flags_refuted.
Print Assumptions C128_range_partial.
Print Assumptions C128_fair_partial.
Print Assumptions C128_range_32_partial.
Print Assumptions C128_range_refuted.
Print Assumptions C130_clamp_partial.
Print Assumptions C130_clamp_refuted.
Print Assumptions C130_clamp_mixed_partial.
Print Assumptions C130_promote.
