(** print_magnitude counts the digits before the point of every double up to 2^56. *)
From Coq Require Import Reals ZArith NArith List Bool Lia Lra Psatz ZifyBool ZifyNat ZifyN.
From Flocq Require Import Core IEEE754.BinarySingleNaN.
From Verif Require Import Base Fp FpProofs DblModel DblSpec DblError PdModel.
Import ListNotations.
Local Open Scope R_scope.

Lemma pos_repr : forall d x, pos d x -> exists m e, (0 <= m < 2 ^ 53)%Z /\ (-1074 <= e)%Z /\
  x = IZR m * bpow radix2 e /\ ((2 ^ 52 <= m)%Z \/ e = (-1074)%Z).
Proof.
  intros d x (F & S & <-). destruct d as [s|s| |s m e B]; try discriminate.
  - exists 0%Z, (-1074)%Z. split; [lia|]. split; [lia|]. split; [cbn; ring|now right].
  - cbn [Bsign] in S. subst s. exists (Z.pos m), e. cbn [B2R SpecFloat.cond_Zopp]. unfold F2R. cbn [Fnum Fexp].
    pose proof B as B'. unfold SpecFloat.bounded, SpecFloat.canonical_mantissa, SpecFloat.fexp, SpecFloat.emin in B'.
    apply andb_prop in B'. destruct B' as [B1 B2]. apply Zeq_bool_eq in B1.
    rewrite Digits.Zpos_digits2_pos in B1. pose proof (Digits.Zdigits_correct radix2 (Z.pos m)) as D.
    set (k := Digits.Zdigits radix2 (Z.pos m)) in *. rewrite Z.abs_eq in D by lia.
    change (Zpower radix2) with (Z.pow 2) in D.
    assert (K : (k <= 53)%Z) by lia.
    assert (D2 : (Z.pos m < 2 ^ 53)%Z).
    { eapply Z.lt_le_trans; [apply D|]. apply Z.pow_le_mono_r; lia. }
    split; [lia|]. split; [lia|]. split; [reflexivity|].
    destruct (Z.eq_dec k 53) as [E|E]; [left|right; lia].
    rewrite E in D. apply D.
Qed.

Lemma pos_big : forall d x, pos d x -> x <= big.
Proof.
  intros d x (F & S & <-). pose proof (abs_B2R_le_emax_minus_prec 53 1024 eq_refl d) as H.
  eapply Rle_trans; [apply Rle_abs|]. eapply Rle_trans; [exact H|]. unfold big.
  rewrite minus_IZR. change (IZR (2 ^ 53)) with (bpow radix2 53). rewrite Rmult_minus_distr_r, <- bpow_plus.
  rewrite Rmult_1_l. right. reflexivity.
Qed.

Lemma dle_pos : forall a b x y, pos a x -> pos b y -> dle a b = Rle_bool x y.
Proof. intros a b x y (Fa & _ & <-) (Fb & _ & <-). apply Bleb_correct; assumption. Qed.
Lemma dlt_pos : forall a b x y, pos a x -> pos b y -> dlt a b = Rlt_bool x y.
Proof. intros a b x y (Fa & _ & <-) (Fb & _ & <-). apply Bltb_correct; assumption. Qed.

Lemma below : forall d x z e, pos d x -> x < IZR z * bpow radix2 e -> (2 ^ 52 < z)%Z -> x <= IZR (z - 1) * bpow radix2 e.
Proof.
  intros d x z e P L Hz. destruct (pos_repr d x P) as (m & f & Hm & Hf & E & _). subst x.
  pose proof (bpow_gt_0 radix2 e) as Be. pose proof (bpow_gt_0 radix2 f) as Bf.
  destruct (Z.le_gt_cases e f) as [A|A].
  - assert (Q : bpow radix2 f = IZR (2 ^ (f - e)) * bpow radix2 e).
    { replace f with ((f - e) + e)%Z at 1 by lia. rewrite bpow_plus. f_equal. symmetry. exact (IZR_Zpower radix2 (f - e) ltac:(lia)). }
    rewrite Q in *. rewrite <- Rmult_assoc, <- mult_IZR in *.
    apply Rmult_lt_reg_r in L; [|assumption]. apply lt_IZR in L.
    apply Rmult_le_compat_r; [lra|]. apply IZR_le. lia.
  - apply Rle_trans with (IZR (2 ^ 52) * bpow radix2 e).
    + replace e with ((e - 1) + 1)%Z by lia. rewrite bpow_plus. change (bpow radix2 1) with 2.
      assert (bpow radix2 f <= bpow radix2 (e - 1)) by (apply bpow_le; lia).
      apply Rle_trans with (IZR (2 ^ 53) * bpow radix2 (e - 1)).
      * apply Rmult_le_compat; [apply IZR_le; lia|lra|apply IZR_le; lia|assumption].
      * right. change (2 ^ 53)%Z with (2 ^ 52 * 2)%Z. rewrite mult_IZR. ring.
    + apply Rmult_le_compat_r; [lra|]. apply IZR_le. lia.
Qed.

(** z * 2^e. *)
Definition scaled (z e : Z) : double := binary_normalize 53 1024 prec53 emax1024 mode_NE z e false.
Lemma scaled_pos : forall z e, (0 <= z <= 2 ^ 53)%Z -> (-1074 <= e <= 900)%Z -> pos (scaled z e) (IZR z * bpow radix2 e).
Proof.
  intros z e Hz He. unfold scaled. pose proof (binary_normalize_correct 53 1024 prec53 emax1024 mode_NE z e false) as C.
  cbv zeta in C. change (F2R (Float radix2 z e)) with (IZR z * bpow radix2 e) in C.
  change (round radix2 (SpecFloat.fexp 53 1024) (round_mode mode_NE) (IZR z * bpow radix2 e)) with (rd (IZR z * bpow radix2 e)) in C.
  pose proof (bpow_gt_0 radix2 e) as Be. assert (Z0 : 0 <= IZR z) by now apply IZR_le.
  assert (B : 0 <= IZR z * bpow radix2 e <= big).
  { split; [nra|]. apply Rle_trans with (bpow radix2 (53 + e)); [|apply bpow_big; lia].
    rewrite bpow_plus. apply Rmult_le_compat_r; [lra|]. change (bpow radix2 53) with (IZR (2 ^ 53)). apply IZR_le. lia. }
  rewrite rd_small in C by assumption. rewrite rd_exact in C by lia. destruct C as (C1 & C2 & C3).
  split; [assumption|]. split; [|assumption]. rewrite C3.
  destruct (Rcompare_spec (IZR z * bpow radix2 e) 0); [lra|reflexivity|reflexivity].
Qed.

(** * Running print_magnitude on both ends of a range *)
Definition range_if (k : Z) (st : Z * double * double) : option (Z * double * double) :=
  let '(n, lo, hi) := st in
  let c := of_int (10 ^ k) in
  match dle c lo, dle c hi with
  | true, true => Some ((n + k)%Z, ddiv lo c, ddiv hi c)
  | false, false => Some st
  | _, _ => None
  end.
Definition obind {A B} (o : option A) (f : A -> option B) : option B := match o with Some a => f a | None => None end.
Lemma obind_inv : forall A B (o : option A) (f : A -> option B) b, obind o f = Some b -> exists a, o = Some a /\ f a = Some b.
Proof. intros A B [a|] f b H; [exists a; now split|discriminate]. Qed.
Definition range_body (st : Z * double * double) : option (Z * double * double) :=
  obind (range_if 32 st) (fun s => obind (range_if 16 s) (fun s => obind (range_if 8 s) (fun s =>
  obind (range_if 4 s) (fun s => obind (range_if 2 s) (range_if 1))))).
Fixpoint range_loop (fuel : nat) (st : Z * double * double) : option Z :=
  let '(n, lo, hi) := st in
  match dle (of_int 10) lo, dle (of_int 10) hi with
  | true, true => match fuel with O => None | S f => obind (range_body st) (range_loop f) end
  | false, false => Some n
  | _, _ => None
  end.

Definition inside (v : double) (st : Z * double * double) : Prop :=
  let '(_, lo, hi) := st in exists a x b, pos lo a /\ pos v x /\ pos hi b /\ a <= x <= b.

Lemma ten_pos : forall k, (0 <= k <= 32)%Z -> exists y, pos (of_int (10 ^ k)) y /\ 1 <= y.
Proof.
  intros k Hk. exists (rd (IZR (10 ^ k))). split.
  - apply of_int_pos; [apply Z.pow_nonneg; lia|]. apply Rle_trans with (IZR (2 ^ 110)).
    + apply IZR_le. apply Z.le_trans with (10 ^ 32)%Z; [apply Z.pow_le_mono_r; lia|vm_compute; discriminate].
    + change (IZR (2 ^ 110)) with (bpow radix2 110). apply bpow_big. lia.
  - rewrite <- (rd_int 1) by (cbn; lia). apply rd_le. apply IZR_le. change 1%Z with (10 ^ 0)%Z. apply Z.pow_le_mono_r; lia.
Qed.

Lemma div_mono : forall a b c x y z, pos a x -> pos b y -> pos c z -> 1 <= z -> x <= y ->
  exists p q, pos (ddiv a c) p /\ pos (ddiv b c) q /\ p <= q.
Proof.
  intros a b c x y z Pa Pb Pc Hz L. exists (rd (x / z)), (rd (y / z)).
  assert (I : 0 < / z <= 1).
  { split; [apply Rinv_0_lt_compat; lra|]. rewrite <- Rinv_1. apply Rinv_le; lra. }
  pose proof (pos_big _ _ Pa). pose proof (pos_big _ _ Pb). pose proof (pos_ge _ _ Pa). pose proof (pos_ge _ _ Pb).
  unfold Rdiv. split; [apply ddiv_pos; [assumption|assumption|lra|unfold Rdiv; nra]|].
  split; [apply ddiv_pos; [assumption|assumption|lra|unfold Rdiv; nra]|]. apply rd_le. nra.
Qed.

Lemma range_if_ok : forall k n lo hi v s, (0 <= k <= 32)%Z -> range_if k (n, lo, hi) = Some s -> inside v (n, lo, hi) ->
  exists n' lo' hi' v', s = (n', lo', hi') /\ magnitude_if k (n, v) = (n', v') /\ inside v' (n', lo', hi').
Proof.
  intros k n lo hi v s Hk R (a & x & b & Pa & Px & Pb & L1 & L2). destruct (ten_pos k Hk) as (y & Py & Hy).
  unfold range_if in R. unfold magnitude_if. rewrite (dle_pos _ _ _ _ Py Pa), (dle_pos _ _ _ _ Py Pb) in R. rewrite (dle_pos _ _ _ _ Py Px).
  destruct (Rle_bool_spec y a) as [A|A].
  - destruct (Rle_bool_spec y b) as [B|B]; [|discriminate]. destruct (Rle_bool_spec y x) as [C|C]; [|lra].
    assert (s = ((n + k)%Z, ddiv lo (of_int (10 ^ k)), ddiv hi (of_int (10 ^ k)))) by congruence. subst s.
    do 4 eexists. split; [reflexivity|]. split; [reflexivity|].
    destruct (div_mono _ _ _ _ _ _ Pa Px Py Hy L1) as (p & q & P1 & P2 & P3).
    destruct (div_mono _ _ _ _ _ _ Px Pb Py Hy L2) as (q' & r & P4 & P5 & P6).
    assert (q' = q) by (destruct P2 as (_ & _ & <-); destruct P4 as (_ & _ & <-); reflexivity). subst q'.
    exists p, q, r. auto.
  - destruct (Rle_bool_spec y b) as [B|B]; [discriminate|]. destruct (Rle_bool_spec y x) as [C|C]; [lra|].
    assert (s = (n, lo, hi)) by congruence. subst s. do 4 eexists. split; [reflexivity|]. split; [reflexivity|].
    exists a, x, b. auto.
Qed.

Local Opaque range_if magnitude_if.
Lemma range_body_ok : forall n lo hi v s, range_body (n, lo, hi) = Some s -> inside v (n, lo, hi) ->
  exists n' lo' hi' v', s = (n', lo', hi') /\ magnitude_body (n, v) = (n', v') /\ inside v' (n', lo', hi').
Proof.
  intros n lo hi v s R I. unfold range_body in R. unfold magnitude_body.
  apply obind_inv in R. destruct R as (s1 & R1 & R).
  destruct (range_if_ok 32 _ _ _ _ _ ltac:(lia) R1 I) as (n1 & l1 & h1 & v1 & E1 & M1 & I1). subst s1. rewrite M1. clear R1 M1.
  apply obind_inv in R. destruct R as (s2 & R2 & R).
  destruct (range_if_ok 16 _ _ _ _ _ ltac:(lia) R2 I1) as (n2 & l2 & h2 & v2 & E2 & M2 & I2). subst s2. rewrite M2. clear R2 M2.
  apply obind_inv in R. destruct R as (s3 & R3 & R).
  destruct (range_if_ok 8 _ _ _ _ _ ltac:(lia) R3 I2) as (n3 & l3 & h3 & v3 & E3 & M3 & I3). subst s3. rewrite M3. clear R3 M3.
  apply obind_inv in R. destruct R as (s4 & R4 & R).
  destruct (range_if_ok 4 _ _ _ _ _ ltac:(lia) R4 I3) as (n4 & l4 & h4 & v4 & E4 & M4 & I4). subst s4. rewrite M4. clear R4 M4.
  apply obind_inv in R. destruct R as (s5 & R5 & R).
  destruct (range_if_ok 2 _ _ _ _ _ ltac:(lia) R5 I4) as (n5 & l5 & h5 & v5 & E5 & M5 & I5). subst s5. rewrite M5. clear R5 M5.
  exact (range_if_ok 1 _ _ _ _ _ ltac:(lia) R I5).
Qed.

Local Opaque range_body magnitude_body.
Lemma range_loop_eq : forall fuel n lo hi, range_loop fuel (n, lo, hi) =
  match dle (of_int 10) lo, dle (of_int 10) hi with
  | true, true => match fuel with O => None | S f => obind (range_body (n, lo, hi)) (range_loop f) end
  | false, false => Some n
  | _, _ => None
  end.
Proof. intros [|fuel] n lo hi; reflexivity. Qed.
Lemma magnitude_loop_eq : forall fuel n v, magnitude_loop fuel (n, v) =
  if dle (of_int 10) v then match fuel with O => None | S f => magnitude_loop f (magnitude_body (n, v)) end else Some n.
Proof. intros [|fuel] n v; reflexivity. Qed.
Lemma range_loop_ok : forall fuel n lo hi v m, range_loop fuel (n, lo, hi) = Some m -> inside v (n, lo, hi) ->
  magnitude_loop fuel (n, v) = Some m.
Proof.
  pose proof (of_int_exact 10 ltac:(lia)) as Py.
  induction fuel as [|fuel IH]; intros n lo hi v m R I.
  -
    pose proof I as (a & x & b & Pa & Px & Pb & L1 & L2). rewrite range_loop_eq in R. rewrite magnitude_loop_eq.
    rewrite (dle_pos _ _ _ _ Py Pa), (dle_pos _ _ _ _ Py Pb) in R. rewrite (dle_pos _ _ _ _ Py Px).
    destruct (Rle_bool_spec 10 a) as [A|A].
    + destruct (Rle_bool_spec 10 b) as [B|B]; [|discriminate R].
      destruct (Rle_bool_spec 10 x) as [C|C]; [|exfalso; clear - A L1 C; lra].
      discriminate R.
    + destruct (Rle_bool_spec 10 b) as [B|B]; [discriminate R|].
      destruct (Rle_bool_spec 10 x) as [C|C]; [exfalso; clear - B L2 C; lra|]. exact R.
  -
    pose proof I as (a & x & b & Pa & Px & Pb & L1 & L2). rewrite range_loop_eq in R. rewrite magnitude_loop_eq.
    rewrite (dle_pos _ _ _ _ Py Pa), (dle_pos _ _ _ _ Py Pb) in R. rewrite (dle_pos _ _ _ _ Py Px).
    destruct (Rle_bool_spec 10 a) as [A|A].
    + destruct (Rle_bool_spec 10 b) as [B|B]; [|discriminate R].
      destruct (Rle_bool_spec 10 x) as [C|C]; [|exfalso; clear - A L1 C; lra].
      apply obind_inv in R. destruct R as (s & Rb & R).
      destruct (range_body_ok _ _ _ _ _ Rb I) as (n' & lo' & hi' & v' & Es & Eb & I'). subst s.
      rewrite Eb. exact (IH n' lo' hi' v' m R I').
    + destruct (Rle_bool_spec 10 b) as [B|B]; [discriminate R|].
      destruct (Rle_bool_spec 10 x) as [C|C]; [exfalso; clear - B L2 C; lra|]. exact R.
Qed.

Local Transparent range_if magnitude_if range_body magnitude_body.
(** The largest double below 10^m (2^56 for m = 17), m <= 17. *)
Definition decade_exp (m : Z) : Z := (Z.log2 (10 ^ m) - 52)%Z.
Definition decade_int (m : Z) : Z := if (decade_exp m <=? 0)%Z then (10 ^ m * 2 ^ (- decade_exp m))%Z else (10 ^ m / 2 ^ decade_exp m)%Z.
Definition decade_hi (m : Z) : double := if (m =? 17)%Z then of_int (2 ^ 56) else scaled (decade_int m - 1) (decade_exp m).
Definition decade_lo (m : Z) : double := if (m =? 1)%Z then of_int 0 else of_int (10 ^ (m - 1)).

Definition check_decade (m : Z) : bool :=
  (match range_loop 8 (0%Z, decade_lo m, decade_hi m) with Some n => (n =? m - 1)%Z | None => false end) &&
  ((m =? 17)%Z ||
   (2 ^ 52 <? decade_int m)%Z && (decade_int m <=? 2 ^ 53)%Z && (-1074 <=? decade_exp m)%Z && (decade_exp m <=? 900)%Z &&
   (if (decade_exp m <=? 0)%Z then (decade_int m =? 10 ^ m * 2 ^ (- decade_exp m))%Z
    else (decade_int m * 2 ^ decade_exp m =? 10 ^ m)%Z)).
Lemma check_decades : forallb (fun k => check_decade (Z.of_nat k)) (seq 1 17) = true.
Proof. vm_compute. reflexivity. Qed.

Lemma ten_int : forall k, (0 <= k <= 16)%Z -> pos (of_int (10 ^ k)) (IZR (10 ^ k)).
Proof.
  intros k Hk. destruct (Z.eq_dec k 16) as [->|Ne].
  - replace (IZR (10 ^ 16)) with (rd (IZR (10 ^ 16))).
    + apply of_int_pos; [vm_compute; discriminate|]. apply pow2_1023. vm_compute. discriminate.
    + replace (IZR (10 ^ 16)) with (IZR (10 ^ 16 / 2) * bpow radix2 1).
      * apply rd_exact; [vm_compute; discriminate|lia].
      * change (bpow radix2 1) with 2. rewrite <- mult_IZR. f_equal.
  - apply of_int_exact. split; [apply Z.pow_nonneg; lia|].
    apply Z.le_trans with (10 ^ 15)%Z; [apply Z.pow_le_mono_r; lia|vm_compute; discriminate].
Qed.

Lemma zero_pos : pos (of_int 0) 0.
Proof. exact (of_int_exact 0 ltac:(lia)). Qed.

Lemma decade_exists : forall n x, (1 <= n)%nat -> 0 <= x < IZR (10 ^ Z.of_nat n) ->
  exists m, (1 <= m <= Z.of_nat n)%Z /\ x < IZR (10 ^ m) /\ ((1 < m)%Z -> IZR (10 ^ (m - 1)) <= x).
Proof.
  induction n as [|n IH]; intros x Hn [L H]; [lia|].
  destruct n as [|n].
  - exists 1%Z. split; [lia|]. split; [exact H|lia].
  - destruct (Rlt_le_dec x (IZR (10 ^ Z.of_nat (S n)))) as [A|A].
    + destruct (IH x ltac:(lia) (conj L A)) as (m & M1 & M2 & M3). exists m. split; [lia|]. auto.
    + exists (Z.of_nat (S (S n))). split; [lia|]. split; [exact H|]. intros _.
      replace (Z.of_nat (S (S n)) - 1)%Z with (Z.of_nat (S n)) by lia. exact A.
Qed.

Lemma magnitude_ok : forall v x, pos v x -> x <= IZR (2 ^ 56) ->
  exists m, print_magnitude v = Some m /\ (1 <= m <= 17)%Z /\ x < IZR (10 ^ m) /\ ((1 < m)%Z -> IZR (10 ^ (m - 1)) <= x).
Proof.
  intros v x P L. pose proof (pos_ge _ _ P) as G.
  destruct (decade_exists 17 x ltac:(lia)) as (m & M1 & M2 & M3).
  { split; [assumption|]. eapply Rle_lt_trans; [exact L|]. apply IZR_lt. vm_compute. reflexivity. }
  exists m. split; [|split; [lia|split; assumption]].
  pose proof check_decades as C. rewrite forallb_forall in C. specialize (C (Z.to_nat m) ltac:(apply in_seq; lia)).
  rewrite Z2Nat.id in C by lia. unfold check_decade in C. apply andb_true_iff in C. destruct C as [C1 C2].
  unfold print_magnitude.
  rewrite (dlt_pos v (of_int 0) x 0 P (of_int_exact 0 ltac:(lia))).
  destruct (Rlt_bool_spec x 0) as [N|_]; [lra|].
  destruct (range_loop 8 (0%Z, decade_lo m, decade_hi m)) as [n|] eqn:R; [|discriminate]. apply Z.eqb_eq in C1. subst n.
  rewrite (range_loop_ok _ _ _ _ v _ R); [f_equal; lia|].
  assert (Lo : exists a, pos (decade_lo m) a /\ a <= x).
  { unfold decade_lo. destruct (Z.eqb_spec m 1) as [E|E].
    - exists 0. split; [exact zero_pos|assumption].
    - exists (IZR (10 ^ (m - 1))). split; [apply ten_int; lia|]. apply M3. lia. }
  assert (Hi : exists b, pos (decade_hi m) b /\ x <= b).
  { unfold decade_hi. destruct (Z.eqb_spec m 17) as [E|E].
    - exists (IZR (2 ^ 56)). split; [|assumption]. replace (IZR (2 ^ 56)) with (rd (IZR (2 ^ 56))).
      + apply of_int_pos; [vm_compute; discriminate|]. apply pow2_1023. vm_compute. discriminate.
      + change (IZR (2 ^ 56)) with (bpow radix2 56). apply rd_bpow. lia.
    - cbn [orb] in C2. apply andb_true_iff in C2. destruct C2 as [C2 Cz].
      exists (IZR (decade_int m - 1) * bpow radix2 (decade_exp m)). split; [apply scaled_pos; lia|].
      apply (below v); [assumption| |lia].
      replace (IZR (decade_int m) * bpow radix2 (decade_exp m)) with (IZR (10 ^ m)); [assumption|].
      destruct (Z.leb_spec (decade_exp m) 0) as [A|A]; apply Z.eqb_eq in Cz.
      + rewrite Cz, mult_IZR. replace (bpow radix2 (decade_exp m)) with (/ IZR (2 ^ - decade_exp m)).
        * field. apply IZR_neq. apply Z.pow_nonzero; lia.
        * replace (decade_exp m) with (- - decade_exp m)%Z at 2 by lia. rewrite bpow_opp. f_equal.
          exact (IZR_Zpower radix2 (- decade_exp m) ltac:(lia)).
      + rewrite <- Cz, mult_IZR. f_equal. exact (IZR_Zpower radix2 (decade_exp m) ltac:(lia)). }
  destruct Lo as (a & Pa & La), Hi as (b & Pb & Lb). exists a, x, b. auto.
Qed.
