(** C125-C131: tm_utility.h, without floating point. *)
From Coq Require Import Arith NArith ZArith Lia ZifyBool ZifyNat ZifyN Bool List Permutation.
From Verif Require Import Base UtModel UtSpec.
Import ListNotations.

(** ** C125 *)
Section Order.
Variable T : Type.
Lemma asym : forall (lt : T -> T -> bool), weak_order lt -> forall x y, lt x y = true -> lt y x = false.
Proof. intros lt W x y H. destruct (lt y x) eqn:E; [|reflexivity]. rewrite <- (wo_irrefl lt W x). symmetry. apply (wo_trans lt W x y x H E). Qed.

Ltac facts W := repeat match goal with
  | H : ?lt ?x ?y = true |- _ => lazymatch goal with H' : lt y x = false |- _ => fail | _ => pose proof (asym lt W x y H) end
  end.
Ltac order W := facts W; unfold below in *; try assumption; try apply (wo_irrefl _ W); try solve [eapply (wo_incomp _ W); eassumption];
  try solve [eapply (wo_incomp _ W); [eassumption|eapply (wo_incomp _ W); eassumption]].
Ltac all_order W := repeat first [apply Forall_nil | apply Forall_cons]; order W.
Ltac perm := first [reflexivity | apply perm_swap | apply perm_skip; perm
  | (eapply perm_trans; [apply perm_swap|]); first [reflexivity | apply perm_skip; apply perm_swap
    | (eapply perm_trans; [apply perm_skip; apply perm_swap|]); first [reflexivity | apply perm_swap]]
  | (eapply perm_trans; [apply perm_skip; apply perm_swap|]); first [reflexivity | apply perm_swap | (eapply perm_trans; [apply perm_swap|]); apply perm_skip; apply perm_swap]].

Theorem C125_two : forall (lt : T -> T -> bool), weak_order lt -> forall a b, sorts lt [a; b] (min2 T lt a b) [] (max2 T lt a b) /\ minmax2 T lt a b = (min2 T lt a b, max2 T lt a b).
Proof.
  intros lt W a b. unfold sorts, min2, max2, minmax2. destruct (lt a b) eqn:E; cbn [app].
  - split; [|reflexivity]. split; [perm|]. split; all_order W.
  - split; [|reflexivity]. split; [perm|]. split; all_order W.
Qed.
Theorem C125_three : forall (lt : T -> T -> bool), weak_order lt -> forall a b c,
  (In (min3 T lt a b c) [a; b; c] /\ Forall (below lt (min3 T lt a b c)) [a; b; c]) /\
  (In (max3 T lt a b c) [a; b; c] /\ Forall (fun x => below lt x (max3 T lt a b c)) [a; b; c]).
Proof.
  intros lt W a b c. unfold min3, max3, min2, max2.
  split; [destruct (lt b c) eqn:E1; [destruct (lt a b) eqn:E2|destruct (lt a c) eqn:E2]|destruct (lt a b) eqn:E1; [destruct (lt b c) eqn:E2|destruct (lt a c) eqn:E2]]; (split; [cbn [In]; tauto|]); all_order W.
Qed.
Theorem C125_minmax : forall (lt : T -> T -> bool), weak_order lt -> forall a b c, exists mid, sorts lt [a; b; c] (fst (minmax3 T lt a b c)) [mid] (snd (minmax3 T lt a b c)).
Proof.
  intros lt W a b c. unfold sorts, minmax3, minmax2. destruct (lt a c) eqn:E1; cbn [fst snd].
  - destruct (lt b a) eqn:E2; [exists a|destruct (lt c b) eqn:E3; [exists c|exists b]]; cbn [app fst snd]; (split; [perm|]); split; all_order W.
  - destruct (lt b c) eqn:E2; [exists c|destruct (lt a b) eqn:E3; [exists a|exists b]]; cbn [app fst snd]; (split; [perm|]); split; all_order W.
Qed.
Theorem C125_median : forall (lt : T -> T -> bool), weak_order lt -> forall a b c, exists lo hi, sorts lt [a; b; c] lo [median T lt a b c] hi.
Proof.
  intros lt W a b c. unfold sorts, median, minmax2. destruct (lt a b) eqn:E1; cbn [fst snd].
  - destruct (lt b c) eqn:E2; [exists a, c|destruct (lt a c) eqn:E3; [exists a, b|exists c, b]]; cbn [app]; (split; [perm|]); split; all_order W.
  - destruct (lt a c) eqn:E2; [exists b, c|destruct (lt b c) eqn:E3; [exists b, a|exists c, a]]; cbn [app]; (split; [perm|]); split; all_order W.
Qed.
(** The versions with a functor; the last one needs the functor to be operator <. *)
Theorem C125_comp_partial : forall (lt comp : T -> T -> bool),
  (min2_comp T comp = min2 T comp /\ max2_comp T comp = max2 T comp /\ min3_comp T comp = min3 T comp /\ max3_comp T comp = max3 T comp /\ minmax2_comp T comp = minmax2 T comp) /\
  (weak_order comp -> (forall x y, lt x y = comp x y) -> forall a b c, exists mid, sorts comp [a; b; c] (fst (minmax3_comp T lt comp a b c)) [mid] (snd (minmax3_comp T lt comp a b c))).
Proof.
  intros lt comp. split; [repeat split|]. intros W E a b c. destruct (C125_minmax comp W a b c) as [mid H]. exists mid. unfold minmax3_comp, minmax2_comp. rewrite E. exact H.
Qed.
End Order.
Lemma nat_order : weak_order Nat.ltb.
Proof. split; intros; lia. Qed.
Lemma nat_greater : weak_order (fun x y => Nat.ltb y x).
Proof. split; intros; lia. Qed.
Example C125_example : minmax3 nat Nat.ltb 2 7 5 = (2, 7)%nat /\ median nat Nat.ltb 2 7 5 = 5%nat /\ median nat Nat.ltb 7 5 2 = 5%nat /\ max3 nat Nat.ltb 2 7 5 = 7%nat.
Proof. repeat split; reflexivity. Qed.
(** With another functor the largest argument is missed. *)
Theorem C125_comp_refuted : exists (comp : nat -> nat -> bool) a b c, weak_order comp /\ ~ Forall (fun x => below comp x (snd (minmax3_comp nat Nat.ltb comp a b c))) [a; b; c].
Proof. exists (fun x y => Nat.ltb y x), 3%nat, 1%nat, 2%nat. split; [exact nat_greater|]. intros H. inversion H as [|? ? _ H2]. inversion H2 as [|? ? H3 _]. vm_compute in H3. discriminate H3. Qed.

(** ** C126 *)
Local Open Scope N_scope.
Lemma pow2_land : forall k, N.land (2 ^ k) (2 ^ k - 1) = 0.
Proof. intros k. replace (2 ^ k - 1) with (N.ones k) by (rewrite N.ones_equiv; lia). rewrite N.land_ones. apply N.mod_same, N.pow_nonzero. discriminate. Qed.
Theorem C126_power : forall x, is_power_of_two x = true <-> exists k, x = 2 ^ k.
Proof.
  intros x. unfold is_power_of_two. split.
  - intros H. apply andb_prop in H. destruct H as [H1 H2]. apply negb_true_iff, N.eqb_neq in H1. apply N.eqb_eq in H2. exists (N.log2 x). destruct (N.log2_spec x) as [L U]; [lia|]. destruct (N.eq_dec x (2 ^ N.log2 x)) as [E|E]; [exact E|]. exfalso.
    assert (N.log2 (x - 1) = N.log2 x) as Q by (apply N.log2_unique; [lia|]; split; [lia|]; lia).
    assert (N.testbit (N.land x (x - 1)) (N.log2 x) = true) as K by (rewrite N.land_spec, N.bit_log2 by exact H1; rewrite <- Q; apply N.bit_log2; assert (2 ^ N.log2 x <> 0) by (apply N.pow_nonzero; discriminate); lia).
    rewrite H2, N.bits_0 in K. discriminate K.
  - intros [k ->]. rewrite pow2_land. assert (2 ^ k <> 0) by (apply N.pow_nonzero; discriminate). lia.
Qed.
(** The smallest offset to an aligned address; one exists for all powers of two. *)
Theorem C126_offset : forall k ptr, k < 64 -> ptr < 2 ^ 64 -> exists off, get_alignment_offset ptr (2 ^ k) = Some off /\ off < 2 ^ k /\ (ptr + off) mod 2 ^ k = 0 /\ (forall o, (ptr + o) mod 2 ^ k = 0 -> off <= o) /\ is_aligned ptr (2 ^ k) = (off =? 0).
Proof.
  intros k ptr K P. remember (2 ^ k) as a eqn:Ea. assert (A0 : a <> 0) by (rewrite Ea; apply N.pow_nonzero; discriminate). assert (D : exists d, 2 ^ 64 = d * a) by (exists (2 ^ (64 - k)); rewrite Ea; rewrite <- N.pow_add_r; f_equal; lia). destruct D as [d D].
  assert (W : forall x, w64 x mod a = x mod a).
  { intros x. unfold w64. change 18446744073709551616 with (2 ^ 64). rewrite (N.div_mod x (2 ^ 64)) at 2 by discriminate. rewrite D at 2. rewrite <- N.mul_assoc, (N.mul_comm d), <- N.mul_assoc, N.add_comm, N.mul_comm, N.mod_add by exact A0. reflexivity. }
  unfold get_alignment_offset. assert (is_power_of_two a = true) as -> by (apply C126_power; exists k; exact Ea). rewrite (proj2 (N.eqb_neq a 0) A0). cbn [negb andb assert_].
  set (off := N.land _ _). assert (O : off = (a + 2 ^ 64 - ptr) mod a). { unfold off. replace (a - 1) with (N.ones k) by (rewrite N.ones_equiv; rewrite Ea; lia). rewrite N.land_ones, <- Ea. apply W. } clearbody off.
  assert (Lo : off < a) by (rewrite O; apply N.mod_lt, A0). assert (Z : (ptr + off) mod a = 0).
  { rewrite O. rewrite N.add_mod_idemp_r by exact A0. replace (ptr + (a + 2 ^ 64 - ptr)) with ((1 + d) * a) by (rewrite N.mul_add_distr_r, N.mul_1_l, <- D; clear - P; lia). apply N.mod_mul, A0. }
  assert (is_aligned (w64 (ptr + off)) a = true) as -> by (unfold is_aligned; rewrite W, Z; reflexivity). cbn [assert_]. exists off. split; [reflexivity|]. split; [exact Lo|]. split; [exact Z|]. split.
  - intros o Ho. destruct (N.le_gt_cases off o) as [L|L]; [exact L|]. exfalso. apply N.mod_divide in Z, Ho; try exact A0. assert (Q : (a | off - o)). { replace (off - o) with (ptr + off - (ptr + o)) by lia. apply N.divide_sub_r; assumption. } apply N.divide_pos_le in Q; lia.
  - unfold is_aligned. destruct (N.eq_dec off 0) as [->|E].
    + rewrite N.add_0_r in Z. rewrite Z. reflexivity.
    + rewrite (proj2 (N.eqb_neq off 0) E). apply N.eqb_neq. intros Q. apply N.mod_divide in Z, Q; try exact A0. assert (R : (a | off)) by (replace off with (ptr + off - ptr) by lia; apply N.divide_sub_r; assumption). apply N.divide_pos_le in R; lia.
Qed.
Example C126_example : get_alignment_offset 1001 16 = Some 7 /\ is_power_of_two 48 = false /\ is_power_of_two (2 ^ 63) = true /\ get_alignment_offset 5 12 = None.
Proof. repeat split; vm_compute; reflexivity. Qed.

(** ** C127 *)
Lemma byte_bits : forall i x j, N.testbit (byte i x) j = (j <? 8) && N.testbit x (8 * i + j).
Proof.
  intros i x j. unfold byte. change 256 with (2 ^ 8). destruct (N.ltb_spec j 8) as [L|L].
  - rewrite N.mod_pow2_bits_low by exact L. rewrite N.div_pow2_bits, andb_true_l, N.add_comm. reflexivity.
  - rewrite N.mod_pow2_bits_high by exact L. reflexivity.
Qed.
Lemma below_cases : forall (P : N -> Prop) n, (forall k, (k < n)%nat -> P (N.of_nat k)) -> forall j, j < N.of_nat n -> P j.
Proof. intros P n H j L. rewrite <- (N2Nat.id j). apply H. lia. Qed.
Ltac eight j L := assert (j = 0 \/ j = 1 \/ j = 2 \/ j = 3 \/ j = 4 \/ j = 5 \/ j = 6 \/ j = 7) as [-> | [-> | [-> | [-> | [-> | [-> | [-> | ->]]]]]]] by lia.
Ltac bits := repeat first [rewrite N.lor_spec | rewrite N.land_spec | rewrite N.shiftr_spec' | rewrite N.mod_pow2_bits_low by reflexivity | (rewrite N.shiftl_spec_low by reflexivity) | (rewrite N.shiftl_spec_high' by (vm_compute; discriminate))].
Ltac const := repeat match goal with |- context [N.testbit (N.pos ?p) ?n] => let t := constr:(N.testbit (N.pos p) n) in let b := eval vm_compute in t in change t with b end; rewrite ?andb_true_r, ?andb_false_r, ?orb_false_r, ?orb_false_l.

Theorem C127_swap16 : forall x i, i < 2 -> byte i (swap16 x) = byte (1 - i) x.
Proof.
  intros x i L. assert (i = 0 \/ i = 1) as [-> | ->] by lia; apply N.bits_inj; intros j; rewrite !byte_bits; (destruct (N.ltb_spec j 8) as [Lj|Lj]; [|reflexivity]); rewrite !andb_true_l; unfold swap16; eight j Lj; bits; const; reflexivity.
Qed.
Theorem C127_swap32 : forall x i, i < 4 -> byte i (swap32 x) = byte (3 - i) x.
Proof.
  intros x i L. unfold swap32, w32. change 4294967296 with (2 ^ 32). assert (i = 0 \/ i = 1 \/ i = 2 \/ i = 3) as [-> | [-> | [-> | ->]]] by lia; apply N.bits_inj; intros j; rewrite !byte_bits; (destruct (N.ltb_spec j 8) as [Lj|Lj]; [|reflexivity]); rewrite !andb_true_l; eight j Lj; bits; const; reflexivity.
Qed.
Theorem C127_swap64 : forall x i, i < 8 -> byte i (swap64 x) = byte (7 - i) x.
Proof.
  intros x i L. unfold swap64, w64. change 18446744073709551616 with (2 ^ 64). eight i L; apply N.bits_inj; intros j; rewrite !byte_bits; (destruct (N.ltb_spec j 8) as [Lj|Lj]; [|reflexivity]); rewrite !andb_true_l; eight j Lj; bits; const; reflexivity.
Qed.

Print Assumptions C125_two.
Print Assumptions C125_three.
Print Assumptions C125_minmax.
Print Assumptions C125_median.
Print Assumptions C125_comp_partial.
Print Assumptions C125_comp_refuted.
Print Assumptions C126_power.
Print Assumptions C126_offset.
Print Assumptions C127_swap16.
Print Assumptions C127_swap32.
Print Assumptions C127_swap64.
