(** C132-C133: the floating point functions of tm_utility.h. *)
From Coq Require Import ZArith Reals Lra Lia Bool.
From Flocq Require Import Core Relative Plus_error IEEE754.BinarySingleNaN.
From Verif Require Import UtFloatModel.
Local Open Scope R_scope.

Definition value (x : float) : R := B2R x.
Definition finite (x : float) : Prop := is_finite x = true.

(** ** The operations *)
Definition rnd (x : R) : R := round radix2 (FLT_exp (-149) 24) ZnearestE x.
Definition u : R := / 16777216.
Lemma u_eq : u_ro radix2 24 = u.
Proof. unfold u_ro, u. change (- (24) + 1)%Z with (-23)%Z. cbn [bpow]. change (Z.pow_pos radix2 23) with 8388608%Z. lra. Qed.
Lemma small_eps : forall e, Rabs e <= u_ro radix2 24 / (1 + u_ro radix2 24) -> - u <= e <= u.
Proof. intros e H. rewrite u_eq in H. assert (H2 : Rabs e <= u). { eapply Rle_trans; [exact H|]. unfold u. lra. } apply Rabs_le_inv in H2. exact H2. Qed.
Lemma format : forall x : float, generic_format radix2 (FLT_exp (-149) 24) (value x).
Proof. intros x. exact (generic_format_B2R prec emax x). Qed.
Lemma rnd_sub : forall a b : float, exists e, - u <= e <= u /\ rnd (value a - value b) = (value a - value b) * (1 + e).
Proof.
  intros a b. destruct (FLT_plus_error_N_ex radix2 (-149) 24 (fun x => negb (Z.even x)) (value a) (- value b) (format a) (generic_format_opp _ _ _ (format b))) as (e & H & E). exists e. split; [apply small_eps, H|exact E].
Qed.
Lemma rnd_any : forall x, exists e t, - u <= e <= u /\ - u * u * u * u * u * u <= t <= u * u * u * u * u * u /\ rnd x = x * (1 + e) + t.
Proof.
  intros x. destruct (relative_error_N_FLT'_ex radix2 (-149) 24 eq_refl (fun x => negb (Z.even x)) x) as (e & t & H & K & _ & E). exists e, t. split; [apply small_eps, H|]. split; [|exact E].
  apply Rabs_le_inv in K. assert (Q : / 2 * bpow radix2 (-149) <= u * u * u * u * u * u). { unfold u. cbn [bpow]. change (Z.pow_pos radix2 149) with 713623846352979940529142984724747568191373312%Z. lra. } lra.
Qed.
Lemma sub_ok : forall a b, finite a -> finite b ->
  (finite (fsub a b) /\ exists e, - u <= e <= u /\ value (fsub a b) = (value a - value b) * (1 + e)) \/ ((exists s, fsub a b = B754_infinity s) /\ bpow radix2 127 <= Rabs (value a - value b)).
Proof.
  intros a b Fa Fb. pose proof (Bminus_correct prec emax _ _ mode_NE a b Fa Fb) as H. destruct (rnd_sub a b) as (e & He & E). cbn [round_mode] in H. change (round radix2 (SpecFloat.fexp prec emax) ZnearestE (B2R a - B2R b)) with (rnd (value a - value b)) in H.
  destruct (Rlt_bool_spec (Rabs (rnd (value a - value b))) (bpow radix2 emax)) as [L|L].
  - left. destruct H as (H1 & H2 & _). split; [exact H2|]. exists e. split; [exact He|]. unfold value at 1. rewrite <- E. exact H1.
  - right. destruct H as [H _]. split; [exists (Bsign a); apply B2SF_inj; exact H|]. rewrite E, Rabs_mult in L. change emax with (127 + 1)%Z in L. rewrite bpow_plus in L. change (bpow radix2 1) with 2 in L. assert (Rabs (1 + e) <= 2) by (apply Rabs_le; unfold u in He; lra). pose proof (Rabs_pos (value a - value b)). pose proof (bpow_gt_0 radix2 127). nra.
Qed.
Lemma epsilon_value : value epsilon = 8796093 / 8796093022208.
Proof. unfold value. rewrite <- SF2R_B2SF. replace (B2SF epsilon) with (SpecFloat.S754_finite false 8796093 (-43)) by (vm_compute; reflexivity). unfold SF2R, F2R, Fnum, Fexp, SpecFloat.cond_Zopp. cbn [cond_Zopp bpow]. change (Z.pow_pos radix2 43) with 8796093022208%Z. unfold Rdiv. reflexivity. Qed.
Lemma bounded_value : forall x : float, Rabs (value x) < bpow radix2 128.
Proof. intros x. exact (abs_B2R_lt_emax prec emax x). Qed.
Lemma scaled_ok : forall m, finite m -> 0 <= value m -> finite (fmul epsilon m) /\ exists e t, - u <= e <= u /\ - u * u * u * u * u * u <= t <= u * u * u * u * u * u /\ value (fmul epsilon m) = value epsilon * value m * (1 + e) + t.
Proof.
  intros m F P. pose proof (Bmult_correct prec emax _ _ mode_NE epsilon m) as H. destruct (rnd_any (value epsilon * value m)) as (e & t & He & Ht & E). cbn [round_mode] in H. change (round radix2 (SpecFloat.fexp prec emax) ZnearestE (B2R epsilon * B2R m)) with (rnd (value epsilon * value m)) in H.
  rewrite Rlt_bool_true in H.
  - destruct H as (H1 & H2 & _). split; [unfold finite; rewrite F in H2; rewrite andb_true_r in H2; etransitivity; [exact H2|vm_compute; reflexivity]|]. exists e, t. split; [exact He|]. split; [exact Ht|]. unfold value at 1. rewrite <- E. exact H1.
  - rewrite E. pose proof (bounded_value m) as B. apply Rabs_def2 in B. rewrite epsilon_value. assert (1 <= bpow radix2 128) by (apply (bpow_le radix2 0 128); lia). change emax with 128%Z. apply Rabs_def1; unfold u in *; nra.
Qed.
Lemma fmax_value : forall x y, finite x -> finite y -> finite (fmax x y) /\ value (fmax x y) = Rmax (value x) (value y).
Proof. intros x y Fx Fy. unfold fmax. rewrite Bltb_correct by assumption. fold (value x) (value y). destruct (Rlt_bool_spec (value x) (value y)) as [L|L]; [rewrite Rmax_right by lra|rewrite Rmax_left by lra]; split; trivial. Qed.
Lemma abs_finite : forall x : float, finite x -> finite (Babs x).
Proof. intros x H. unfold finite. rewrite is_finite_Babs. exact H. Qed.
Lemma abs_value : forall x : float, value (Babs x) = Rabs (value x).
Proof. intros x. apply B2R_Babs. Qed.

(** ** C132 *)
(** The largest of 1 and the two magnitudes. *)
Definition scale (a b : float) : R := Rmax 1 (Rmax (Rabs (value a)) (Rabs (value b))).
Definition distance (a b : float) : R := Rabs (value a - value b).

(** Finite numbers: the distance is compared with 10^-6 times the scale, up to one part in a million. *)
Theorem C132_tolerance_partial : forall a b, finite a -> finite b ->
  (tolerance_comparison a b = true -> distance a b <= 1000001 / 1000000 * (scale a b / 1000000)) /\
  (distance a b <= 999999 / 1000000 * (scale a b / 1000000) -> tolerance_comparison a b = true).
Proof.
  intros a b Fa Fb. unfold tolerance_comparison. rewrite Beqb_correct by assumption. fold (value a) (value b).
  destruct (fmax_value (Babs a) (Babs b) (abs_finite a Fa) (abs_finite b Fb)) as [Fm Vm]. rewrite !abs_value in Vm. set (m := fmax (Babs a) (Babs b)) in *.
  assert (Pm : 0 <= value m) by (rewrite Vm; eapply Rle_trans; [apply (Rabs_pos (value a))|apply Rmax_l]).
  destruct (scaled_ok m Fm Pm) as (Fs & e2 & t & He2 & Ht & Vs). unfold scale. rewrite <- Vm. clearbody m.
  assert (S1 : 1 <= Rmax 1 (value m)) by apply Rmax_l. assert (S2 : value m <= Rmax 1 (value m)) by apply Rmax_r. assert (S3 : Rmax 1 (value m) = 1 \/ Rmax 1 (value m) = value m) by (unfold Rmax; destruct (Rle_dec 1 (value m)); auto).
  set (s := Rmax 1 (value m)) in *. clearbody s. pose proof (Rabs_pos (value a - value b)) as Pd.
  destruct (Req_bool_spec (value a) (value b)) as [Q|Q].
  { split; [|auto]. intros _. unfold distance. rewrite Q, Rminus_diag_eq, Rabs_R0 by reflexivity. lra. }
  destruct (sub_ok a b Fa Fb) as [(Fd & e1 & He1 & Vd)|[[sg E] Big]].
  - pose proof (abs_finite _ Fd) as Fd'. assert (Vd' : value (Babs (fsub a b)) = distance a b * (1 + e1)). { rewrite abs_value, Vd, Rabs_mult. unfold distance. f_equal. apply Rabs_pos_eq. unfold u in He1. lra. }
    fold (distance a b) in Pd. set (d := distance a b) in *. clearbody d.
    rewrite (Bleb_correct prec emax _ epsilon Fd' eq_refl), (Bleb_correct prec emax _ _ Fd' Fs). fold (value (Babs (fsub a b))) (value epsilon) (value (fmul epsilon m)). rewrite Vd', Vs, epsilon_value. split.
    + intros H. apply orb_prop in H. destruct H as [H|H].
      * destruct (Rle_bool_spec (d * (1 + e1)) (8796093 / 8796093022208)) as [L|L]; [|discriminate H]. unfold u in *. nra.
      * destruct (Rle_bool_spec (d * (1 + e1)) (8796093 / 8796093022208 * value m * (1 + e2) + t)) as [L|L]; [|discriminate H]. unfold u in *. nra.
    + intros H. destruct S3 as [S3|S3].
      * rewrite Rle_bool_true; [reflexivity|]. unfold u in *. nra.
      * rewrite (Rle_bool_true (d * (1 + e1)) (_ + t)); [apply orb_true_r|]. unfold u in *. nra.
  - rewrite E. assert (Bleb (Babs (B754_infinity sg : float)) epsilon = false) as -> by (vm_compute; reflexivity).
    assert (Bleb (Babs (B754_infinity sg : float)) (fmul epsilon m) = false) as ->. { unfold finite in Fs. destruct (fmul epsilon m) as [|[|]| |[|]]; try discriminate Fs; reflexivity. }
    split; [discriminate|]. intros H. exfalso. fold (distance a b) in Big.
    assert (Q1 : s <= bpow radix2 128). { destruct S3 as [-> | ->]; [apply (bpow_le radix2 0 128); lia|]. pose proof (bounded_value m) as B. apply Rabs_def2 in B. lra. }
    change 128%Z with (127 + 1)%Z in Q1. rewrite bpow_plus in Q1. change (bpow radix2 1) with 2 in Q1. pose proof (bpow_gt_0 radix2 127). lra.
Qed.
(** The arguments can be exchanged. *)
Lemma abs_inj : forall x y : float, finite x -> finite y -> value (Babs x) = value (Babs y) -> Babs x = Babs y.
Proof. intros x y Fx Fy E. apply B2R_Bsign_inj; [apply abs_finite, Fx|apply abs_finite, Fy|exact E|]. assert (Bsign (Babs x) = false /\ Bsign (Babs y) = false) as [-> ->]; [|reflexivity]. unfold finite in *. destruct x, y; try discriminate; auto. Qed.
Lemma abs_sub_sym : forall a b : float, Babs (fsub a b) = Babs (fsub b a).
Proof.
  intros a b. destruct (is_finite a) eqn:Fa; [destruct (is_finite b) eqn:Fb|].
  - pose proof (Bminus_correct prec emax _ _ mode_NE a b Fa Fb) as H. pose proof (Bminus_correct prec emax _ _ mode_NE b a Fb Fa) as K. cbn [round_mode] in H, K.
    assert (R : round radix2 (SpecFloat.fexp prec emax) ZnearestE (B2R b - B2R a) = - round radix2 (SpecFloat.fexp prec emax) ZnearestE (B2R a - B2R b)) by (rewrite <- round_NE_opp; f_equal; lra).
    rewrite R, Rabs_Ropp in K. destruct (Rlt_bool _ _).
    + destruct H as (H1 & H2 & _), K as (K1 & K2 & _). apply abs_inj; [exact H2|exact K2|]. rewrite !abs_value. unfold value, fsub. etransitivity; [apply f_equal, H1|]. symmetry. etransitivity; [apply f_equal, K1|]. apply Rabs_Ropp.
    + destruct H as (H1 & _), K as (K1 & _). fold (fsub a b) in H1. fold (fsub b a) in K1. assert (fsub a b = B754_infinity (Bsign a)) as -> by (apply B2SF_inj; exact H1). assert (fsub b a = B754_infinity (Bsign b)) as -> by (apply B2SF_inj; exact K1). reflexivity.
  - destruct a as [|sa| |], b as [|sb| |]; try discriminate; try destruct sa; try destruct sb; reflexivity.
  - destruct a as [|sa| |], b as [|sb| |]; try discriminate; try destruct sa; try destruct sb; reflexivity.
Qed.
Theorem C132_symmetric : forall a b, tolerance_comparison a b = tolerance_comparison b a.
Proof.
  intros a b. unfold tolerance_comparison. rewrite (abs_sub_sym b a).
  assert (Q : Beqb b a = Beqb a b). { destruct (is_finite a) eqn:Fa; [destruct (is_finite b) eqn:Fb|]. - rewrite !Beqb_correct by assumption. destruct (Req_bool_spec (B2R a) (B2R b)) as [E|E]; [apply Req_bool_true; congruence|apply Req_bool_false; congruence]. - destruct a as [|sa| |], b as [|sb| |]; try discriminate; try destruct sa; try destruct sb; reflexivity. - destruct a as [|sa| |], b as [|sb| |]; try discriminate; try destruct sa; try destruct sb; reflexivity. }
  rewrite Q. destruct (Beqb a b); [reflexivity|]. destruct (is_nan a || is_nan b) eqn:Nn.
  { assert (fsub a b = B754_nan) as ->; [|reflexivity]. apply orb_prop in Nn. destruct a as [sa|sa| |sa ? ? ?], b as [sb|sb| |sb ? ? ?]; destruct Nn; try discriminate; try destruct sa; try destruct sb; reflexivity. }
  assert (M : fmax (Babs b) (Babs a) = fmax (Babs a) (Babs b)); [|rewrite M; reflexivity].
  destruct (is_finite a) eqn:Fa; [destruct (is_finite b) eqn:Fb|].
  - unfold fmax. rewrite !Bltb_correct by (apply abs_finite; assumption). fold (value (Babs a)) (value (Babs b)). destruct (Rlt_bool_spec (value (Babs a)) (value (Babs b))) as [L|L], (Rlt_bool_spec (value (Babs b)) (value (Babs a))) as [K|K]; try reflexivity; try lra. apply abs_inj; [exact Fb|exact Fa|lra].
  - destruct a as [|sa| |], b as [|sb| |]; try discriminate; try destruct sa; try destruct sb; reflexivity.
  - destruct a as [|sa| |], b as [|sb| |]; try discriminate; try destruct sa; try destruct sb; reflexivity.
Qed.
Theorem C132_reflexive : forall a, tolerance_comparison a a = negb (is_nan a).
Proof.
  intros a. unfold tolerance_comparison. rewrite Beqb_refl. destruct a as [s|s| |s m e H]; try reflexivity.
Qed.
Example C132_example : tolerance_comparison fone (fnum 16777215 (-24)) = true /\ tolerance_comparison fone (fnum 16777100 (-24)) = false /\ tolerance_comparison (fnum 1000000 0) (fnum 16000015 (-4)) = true.
Proof. repeat split; vm_compute; reflexivity. Qed.
(** Infinity is close to every number. *)
Theorem C132_tolerance_refuted : forall b s, finite b -> tolerance_comparison (B754_infinity s) b = true.
Proof. intros b s F. unfold finite in F. destruct b as [sb| | |sb m e H]; try discriminate F; destruct s, sb; vm_compute; reflexivity. Qed.
(** Neither zero, nor positive, nor negative; and zero is "less than zero". *)
Theorem C132_soft_refuted : (eq_zero_soft big_epsilon = false /\ gt_zero_soft big_epsilon = false /\ lt_zero_soft big_epsilon = false) /\ (eq_zero_soft fzero = true /\ lt_zero_soft fzero = true).
Proof. repeat split; vm_compute; reflexivity. Qed.

(** ** C133 *)
Theorem C133_clamp : forall v lo hi, finite v -> finite lo -> finite hi -> value lo <= value hi -> finite (clampf v lo hi) /\ value (clampf v lo hi) = Rmax (value lo) (Rmin (value v) (value hi)).
Proof.
  intros v lo hi Fv Fl Fh L. unfold clampf. rewrite !Bltb_correct by assumption. fold (value v) (value lo) (value hi). destruct (Rlt_bool_spec (value v) (value lo)) as [H|H]; [split; [exact Fl|]; rewrite Rmin_left, Rmax_left by lra; reflexivity|].
  destruct (Rlt_bool_spec (value hi) (value v)) as [K|K]; [split; [exact Fh|]; rewrite Rmin_right, Rmax_right by lra; reflexivity|]. split; [exact Fv|]. rewrite Rmin_left, Rmax_right by lra. reflexivity.
Qed.
(** At t = 0 the result is the start, if the difference does not overflow. *)
Theorem C133_start_partial : forall a b, finite a -> finite b -> finite (fsub b a) -> finite (lerp fzero a b) /\ value (lerp fzero a b) = value a.
Proof.
  intros a b Fa Fb Fd. unfold lerp. assert (Z : exists s, fmul fzero (fsub b a) = B754_zero s) by (unfold finite in Fd; destruct (fsub b a) as [s| | |s m e H]; try discriminate Fd; exists s; destruct s; reflexivity). destruct Z as [s ->].
  pose proof (Bplus_correct prec emax _ _ mode_NE a (B754_zero s) Fa eq_refl) as H. cbn [round_mode B2R] in H. rewrite Rplus_0_r in H. rewrite round_generic in H; [|auto with typeclass_instances|apply generic_format_B2R]. rewrite Rlt_bool_true in H by apply abs_B2R_lt_emax. destruct H as (H1 & H2 & _). split; [exact H2|exact H1].
Qed.
(** At t = 1 it is the end only if the difference is exact. *)
Theorem C133_end_partial : forall a b, finite a -> finite b -> finite (fsub b a) -> value (fsub b a) = value b - value a -> finite (lerp fone a b) /\ value (lerp fone a b) = value b.
Proof.
  intros a b Fa Fb Fd E. unfold lerp.
  pose proof (Bmult_correct prec emax _ _ mode_NE fone (fsub b a)) as H. cbn [round_mode] in H. assert (O : B2R fone = 1) by (unfold value; rewrite <- SF2R_B2SF; replace (B2SF fone) with (SpecFloat.S754_finite false 8388608 (-23)) by (vm_compute; reflexivity); unfold SF2R, F2R, Fnum, Fexp; cbn [cond_Zopp bpow]; change (Z.pow_pos radix2 23) with 8388608%Z; lra). rewrite O, Rmult_1_l in H.
  rewrite round_generic in H; [|auto with typeclass_instances|apply generic_format_B2R]. rewrite Rlt_bool_true in H by apply abs_B2R_lt_emax. destruct H as (H1 & H2 & _). unfold finite in Fd. rewrite Fd, andb_true_r in H2. fold (fmul fone (fsub b a)) in H1, H2. set (p := fmul fone (fsub b a)) in *. assert (Fp : is_finite p = true) by (rewrite H2; vm_compute; reflexivity).
  pose proof (Bplus_correct prec emax _ _ mode_NE a p Fa Fp) as K. cbn [round_mode] in K. rewrite H1 in K. fold (value (fsub b a)) in K. rewrite E in K. unfold value in K. replace (B2R a + (B2R b - B2R a)) with (B2R b) in K by lra.
  rewrite round_generic in K; [|auto with typeclass_instances|apply generic_format_B2R]. rewrite Rlt_bool_true in K by apply abs_B2R_lt_emax. destruct K as (K1 & K2 & _). split; [exact K2|exact K1].
Qed.
Example C133_example : lerp fzero (fnum 3 0) (fnum 8 0) = fnum 3 0 /\ lerp fone (fnum 3 0) (fnum 8 0) = fnum 8 0 /\ lerp (fnum 1 (-1)) (fnum 3 0) (fnum 8 0) = fnum 11 (-1).
Proof. repeat split; apply B2SF_inj; vm_compute; reflexivity. Qed.
(** From 10^8 to 1: the end is 0, not between the two. *)
Theorem C133_end_refuted : lerp fone (fnum 100000000 0) fone = fzero /\ remap fone fzero fone (fnum 100000000 0) fone = fzero.
Proof. split; apply B2SF_inj; vm_compute; reflexivity. Qed.
(** A division by a number that is not zero need not be finite. *)
Theorem C133_divide_refuted : exists a b, finite a /\ finite b /\ Beqb b fzero = false /\ safe_divide a b fzero = B754_infinity false.
Proof. exists fone, (fnum 1 (-149)). repeat split; vm_compute; reflexivity. Qed.

Print Assumptions C132_tolerance_partial.
Print Assumptions C132_symmetric.
Print Assumptions C132_reflexive.
Print Assumptions C132_tolerance_refuted.
Print Assumptions C132_soft_refuted.
Print Assumptions C133_clamp.
Print Assumptions C133_start_partial.
Print Assumptions C133_end_partial.
Print Assumptions C133_end_refuted.
Print Assumptions C133_divide_refuted.
