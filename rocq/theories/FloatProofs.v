From Coq Require Import NArith ZArith Bool Lia ZifyBool ZifyNat ZifyN.
From Verif Require Import Base Tactics FloatSpec.
Local Open Scope N_scope.
Ltac Zify.zify_post_hook ::= Z.div_mod_to_equations.

Section Format.
  Variable w : N.   (* width of the mantissa field; precision is w + 1 *)

  Definition value (bits : N) : N := decode (w + 1) (bits / 2 ^ w) (bits mod 2 ^ w).

  Lemma pw : 2 ^ w <> 0. Proof. apply N.pow_nonzero; discriminate. Qed.

  Lemma value_fields : forall e m, m < 2 ^ w -> 1 <= e ->
    value (e * 2 ^ w + m) = (2 ^ w + m) * 2 ^ (e - 1).
  Proof.
    intros e m Hm He. unfold value, decode.
    replace ((e * 2 ^ w + m) / 2 ^ w) with e.
    2:{ rewrite N.add_comm, N.div_add by apply pw. rewrite N.div_small by assumption. lia. }
    replace ((e * 2 ^ w + m) mod 2 ^ w) with m.
    2:{ rewrite N.add_comm, N.mod_add by apply pw. symmetry. now apply N.mod_small. }
    destruct (N.eqb_spec e 0); [lia|]. replace (w + 1 - 1) with w by lia. reflexivity.
  Qed.

  Lemma value_succ : forall e m, m < 2 ^ w -> 1 <= e ->
    value (e * 2 ^ w + m + 1) = (2 ^ w + m + 1) * 2 ^ (e - 1).
  Proof.
    intros e m Hm He. destruct (N.eq_dec (m + 1) (2 ^ w)) as [E|E].
    - replace (e * 2 ^ w + m + 1) with ((e + 1) * 2 ^ w + 0) by lia.
      rewrite value_fields by lia. replace (e + 1 - 1) with (e - 1 + 1) by lia.
      rewrite N.pow_add_r. change (2 ^ 1) with 2. nia.
    - replace (e * 2 ^ w + m + 1) with (e * 2 ^ w + (m + 1)) by lia.
      rewrite value_fields by lia. f_equal. lia.
  Qed.

  Lemma value_step : forall b, value b < value (b + 1).
  Proof.
    intros b. pose proof pw as P.
    pose proof (N.div_mod b (2 ^ w) P) as D. pose proof (N.mod_lt b (2 ^ w) P) as M.
    set (e := b / 2 ^ w) in *. set (m := b mod 2 ^ w) in *.
    destruct (N.eq_dec e 0) as [E0|E0].
    - assert (Eb : b = m) by (rewrite E0 in D; lia).
      assert (V : value b = m).
      { unfold value. fold e m. rewrite E0. reflexivity. }
      rewrite V. destruct (N.eq_dec (m + 1) (2 ^ w)) as [E|E].
      + replace (b + 1) with (1 * 2 ^ w + 0) by lia. rewrite value_fields by lia.
        change (1 - 1) with 0. rewrite N.pow_0_r. lia.
      + unfold value. rewrite N.div_small, N.mod_small by lia. unfold decode. cbn [N.eqb]. lia.
    - replace b with (e * 2 ^ w + m) by lia.
      rewrite value_fields, value_succ by lia.
      assert (2 ^ (e - 1) <> 0) by (apply N.pow_nonzero; discriminate). nia.
  Qed.

  Lemma value_mono : forall a b, a < b -> value a < value b.
  Proof.
    intros a b. induction b as [|b IH] using N.peano_ind; intros H; [lia|].
    rewrite <- N.add_1_r. pose proof (value_step b).
    destruct (N.eq_dec a b) as [->|]; [assumption|]. specialize (IH ltac:(lia)). lia.
  Qed.
  Lemma value_le : forall a b, a <= b -> value a <= value b.
  Proof.
    intros a b H. destruct (N.eq_dec a b) as [->|]; [lia|].
    pose proof (value_mono a b). lia.
  Qed.
  Lemma value_inj : forall a b, value a = value b -> a = b.
  Proof.
    intros a b H. destruct (N.lt_trichotomy a b) as [L|[L|L]]; [|assumption|];
    apply value_mono in L; lia.
  Qed.

  Section Round.
    Variables (finite : N -> Prop) (r t lo hi : N).
    Hypotheses (Vr : value r = lo) (Vs : value (r + 1) = hi) (B1 : lo <= t) (B2 : t < hi).

    Lemma round_down_ok : finite r -> rounded_down finite value t r.
    Proof using All.
      intros F. split; [assumption|]. split; [lia|]. intros f _ Hf.
      destruct (N.le_gt_cases f r) as [L|L]; [now apply value_le|].
      assert (r + 1 <= f) by lia. apply value_le in H. lia.
    Qed.

    Lemma round_up_exact : finite r -> lo = t -> rounded_up finite value t r.
    Proof using All. intros F E. split; [assumption|]. split; [lia|]. intros f _ Hf. lia. Qed.

    Lemma round_up_inexact : finite (r + 1) -> lo < t -> rounded_up finite value t (r + 1).
    Proof using All.
      intros F E. split; [assumption|]. split; [lia|]. intros f _ Hf.
      destruct (N.le_gt_cases f r) as [L|L].
      - apply value_le in L. lia.
      - apply value_le. lia.
    Qed.

    Lemma round_near_lo : finite r -> t - lo < hi - t \/ (t - lo = hi - t /\ N.even r = true) ->
      rounded_nearest_even finite value t r.
    Proof using All.
      intros F H. split; [assumption|]. intros f _.
      destruct (N.le_gt_cases f r) as [L|L].
      - pose proof (value_le _ _ L). unfold dist. split; [lia|]. intros E. left.
        apply value_inj. lia.
      - assert (L' : r + 1 <= f) by lia. pose proof (value_le _ _ L'). unfold dist.
        split; [lia|]. intros E. right. destruct H as [H|[_ H]]; [lia|assumption].
    Qed.

    Lemma round_near_hi : finite (r + 1) -> hi - t < t - lo \/ (t - lo = hi - t /\ N.even r = false) ->
      rounded_nearest_even finite value t (r + 1).
    Proof using All.
      intros F H. split; [assumption|]. intros f _.
      destruct (N.le_gt_cases f r) as [L|L].
      - pose proof (value_le _ _ L). unfold dist. split; [lia|]. intros E. right.
        destruct H as [H|[_ H]]; [lia|]. rewrite N.even_add, H. reflexivity.
      - assert (L' : r + 1 <= f) by lia. pose proof (value_le _ _ L'). unfold dist.
        split; [lia|]. intros E. left. apply value_inj. lia.
    Qed.
  End Round.
End Format.

Lemma value32_eq : forall b, value32 b = value 23 b. Proof. reflexivity. Qed.
Lemma value64_eq : forall b, value64 b = value 52 b. Proof. reflexivity. Qed.
