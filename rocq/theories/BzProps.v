(** C136-C138: Bezier curves (tm_bezier.h). *)
From Coq Require Import ZArith QArith Lqa Lia Bool List Reals.
From Flocq Require Import Core IEEE754.BinarySingleNaN.
From Verif Require Import UtFloatModel BzModel BzSpec BzProofs BzFloat.
Local Open Scope Q_scope.

(** Exact arithmetic, at a multiple of the step size: the point of the curve. *)
Theorem C136_grid_partial : forall n k fuel x0 y0 x1 y1 x2 y2 x3 y3, (1 <= n)%Z -> (k <= Z.to_nat n < fuel)%nat ->
  exists x y, evaluate rationals fuel (compute rationals n x0 y0 x1 y1 x2 y2 x3 y3) (at_step n k) = Some (x, y) /\
    x == bezier x0 x1 x2 x3 (at_step n k) /\ y == bezier y0 y1 y2 y3 (at_step n k).
Proof.
  intros n k fuel x0 y0 x1 y1 x2 y2 x3 y3 n1 [Lk Lf].
  assert (M : forall i j, (i < j)%nat -> at_step n i < at_step n j). { intros i j L. unfold at_step, Qdiv. apply Qmult_lt_compat_r; [apply hpos, n1|]. rewrite <- Zlt_Qlt. lia. }
  assert (T : at_step n k <= 1). { unfold at_step. apply Qle_shift_div_r; [apply npos, n1|]. rewrite Qmult_1_l. rewrite <- Zle_Qle. lia. }
  destruct (evaluate_ok n n1 x0 x1 x2 x3 y0 y1 y2 y3 fuel (at_step n k) T Lf) as (k' & x & y & [F1 F2] & _ & E & X & Y). exists x, y. split; [exact E|].
  assert (k' = k). { destruct (Nat.lt_trichotomy k' k) as [L|[L|L]]; [|exact L|]; exfalso; [apply (Qle_not_lt _ _ F1 (M _ _ L))|apply (Qlt_irrefl _ (F2 _ L))]. } subst k'.
  split; [rewrite X|rewrite Y]; ring.
Qed.
(** Anywhere up to 1: a point of the chord between two successive points of the curve, the first of them the next
    multiple of the step size. *)
Theorem C136_chord_partial : forall n t fuel x0 y0 x1 y1 x2 y2 x3 y3, (1 <= n)%Z -> (Z.to_nat n < fuel)%nat -> t <= 1 ->
  exists k f x y, evaluate rationals fuel (compute rationals n x0 y0 x1 y1 x2 y2 x3 y3) t = Some (x, y) /\
    t <= at_step n k /\ (0 < t -> at_step n k < t + 1 / inject_Z n /\ 0 <= f /\ f < 1) /\
    x == (1 - f) * bezier x0 x1 x2 x3 (at_step n k) + f * bezier x0 x1 x2 x3 (at_step n (S k)) /\
    y == (1 - f) * bezier y0 y1 y2 y3 (at_step n k) + f * bezier y0 y1 y2 y3 (at_step n (S k)).
Proof.
  intros n t fuel x0 y0 x1 y1 x2 y2 x3 y3 n1 Lf T. destruct (evaluate_ok n n1 x0 x1 x2 x3 y0 y1 y2 y3 fuel t T Lf) as (k & x & y & [F1 F2] & _ & E & X & Y).
  exists k, ((at_step n k - t) * inject_Z n), x, y. split; [exact E|]. split; [exact F1|]. pose proof (npos n n1) as N. split; [|split; [rewrite X|rewrite Y]; ring].
  intros T0. assert (G : at_step n k < t + 1 / inject_Z n).
  { destruct k as [|k]; [unfold at_step; change (inject_Z (Z.of_nat 0)) with 0; assert (0 < 1 / inject_Z n) by (apply Qlt_shift_div_l; [exact N|lra]); setoid_replace (0 / inject_Z n) with 0 by (field; apply n_neq, n1); lra|]. pose proof (F2 k ltac:(lia)) as P. unfold at_step in *. rewrite Nat2Z.inj_succ. unfold Z.succ. rewrite inject_Z_plus. change (inject_Z 1) with 1. setoid_replace ((inject_Z (Z.of_nat k) + 1) / inject_Z n) with (inject_Z (Z.of_nat k) / inject_Z n + 1 / inject_Z n) by (field; apply n_neq, n1). apply Qplus_lt_l. exact P. }
  split; [exact G|]. split; [apply Qmult_le_0_compat; lra|]. setoid_replace 1 with (1 / inject_Z n * inject_Z n) at 1 by (field; apply n_neq, n1). apply Qmult_lt_compat_r; lra.
Qed.
(** The straight line from (0, 0) to (1, 1), x = y = t. *)
Definition line (n : Z) := compute rationals n 0 0 (1#3) (1#3) (2#3) (2#3) 1 1.
Example C136_grid_example : match evaluate rationals 5 (line 4) (3#4) with Some (x, y) => Qeq_bool x (3#4) && Qeq_bool y (3#4) | None => false end = true.
Proof. vm_compute. reflexivity. Qed.
(** Between the multiples the point is in the wrong place: t = 0.1 gives 0.4, t = 0.25 gives 0.25. *)
Theorem C136_between_refuted : match evaluate rationals 5 (line 4) (1#10) with Some (x, y) => Qeq_bool x (4#10) && Qeq_bool y (4#10) | None => false end = true.
Proof. vm_compute. reflexivity. Qed.
(** Past the end the point is beyond the end of the curve: t = 1.5 gives 1.25. *)
Theorem C136_past_end_refuted : match evaluate rationals 6 (line 4) (3#2) with Some (x, y) => Qeq_bool x (5#4) && Qeq_bool y (5#4) | None => false end = true.
Proof. vm_compute. reflexivity. Qed.

(** Easing curves: y is on the chord of the curve that x is on. *)
Theorem C137_from_x : forall n fuel x1 y1 x2 y2 x, (1 <= n)%Z -> (Z.to_nat n <= fuel)%nat -> 0 <= x1 <= 1 -> 0 <= x2 <= 1 -> 0 <= x <= 1 ->
  let X k := bezier 0 x1 x2 1 (at_step n k) in let Y k := bezier 0 y1 y2 1 (at_step n k) in
  exists k y, evaluate_from_x rationals fuel (compute rationals n 0 0 x1 y1 x2 y2 1 1) x = Some y /\ (k < Z.to_nat n)%nat /\
    X k <= x <= X (S k) /\ X k < X (S k) /\ (y - Y k) * (X (S k) - X k) == (Y (S k) - Y k) * (x - X k).
Proof.
  intros n fuel x1 y1 x2 y2 x n1 Lf A B [X0 X1] X Y.
  destruct (fromx_ok n n1 0 x1 x2 1 0 y1 y2 1 fuel x) as (k & y & Lk & Up & Low & E & R); [unfold bezier; lra|exact Lf|].
  assert (L : X k < X (S k)).
  { unfold X. pose proof (npos n n1) as N. apply easing_increasing; try assumption.
    - unfold at_step. apply Qle_shift_div_l; [exact N|]. rewrite Qmult_0_l. change 0 with (inject_Z 0). rewrite <- Zle_Qle. lia.
    - unfold at_step, Qdiv. apply Qmult_lt_compat_r; [apply hpos, n1|]. rewrite <- Zlt_Qlt. lia.
    - unfold at_step. apply Qle_shift_div_r; [exact N|]. rewrite Qmult_1_l. rewrite <- Zle_Qle. lia. }
  exists k, y. split; [exact E|]. split; [exact Lk|]. split; [split; [|exact Up]|].
  - destruct k as [|k]; [|apply Qlt_le_weak, Low; lia]. unfold X, at_step. change (inject_Z (Z.of_nat 0)) with 0. assert (Z0 : 0 / inject_Z n == 0) by (field; apply n_neq, n1). unfold bezier. rewrite Z0. lra.
  - split; [exact L|]. rewrite R. fold (X k) (X (S k)) (Y k) (Y (S k)). field. lra.
Qed.
Example C137_ease_in_out : match evaluate_from_x rationals 8 (compute rationals 8 0 0 (42#100) 0 (58#100) 1 1 1) (1#2) with Some y => Qeq_bool y (1#2) | None => false end = true.
Proof. vm_compute. reflexivity. Qed.
(** Outside of [0, 1] the value is extrapolated and may leave the range of the curve: ease-out at x = -1. *)
Theorem C137_outside_refuted : match evaluate_from_x rationals 8 (compute rationals 2 0 0 0 0 (58#100) 1 1 1) (-1) with Some y => Qle_bool y (-1) | None => false end = true.
Proof. vm_compute. reflexivity. Qed.

(** With floats, at most 2^21 steps, whatever the control points and the argument (NaN included): both functions return. *)
Theorem C138_returns : forall n x0 y0 x1 y1 x2 y2 x3 y3 (t : float), (1 <= n <= 2 ^ 21)%Z ->
  let D := compute binary32 n x0 y0 x1 y1 x2 y2 x3 y3 in let fuel := S (4 * Z.to_nat n) in
  evaluate binary32 fuel D t <> None /\ evaluate_from_x binary32 fuel D t <> None.
Proof.
  intros n x0 y0 x1 y1 x2 y2 x3 y3 t N D fuel. destruct zero_ok as [F0 V0]. unfold evaluate, evaluate_from_x. cbn [D compute h xs ys]. cbn [binary32 leb ofZ div]. rewrite (h_positive n N).
  split; [apply (eval_stops n N fuel 0)|apply (fromx_stops n N fuel 0)]; try exact F0; try lia; rewrite V0; cbn [INR]; Lra.lra.
Qed.
(** 2^25 steps: it never returns. *)
Theorem C138_many_steps_refuted : forall x0 y0 x1 y1 x2 y2 x3 y3 fuel, evaluate binary32 fuel (compute binary32 (2 ^ 25) x0 y0 x1 y1 x2 y2 x3 y3) (fnum 1 0) = None.
Proof.
  intros x0 y0 x1 y1 x2 y2 x3 y3 fuel. unfold evaluate, compute. cbn [h xs ys binary32 leb ofZ div]. change (2 ^ 25)%Z with 33554432%Z. rewrite tiny_h. destruct (Bleb tiny (fnum 0 0)); [reflexivity|]. apply stuck_forever, stuck_zero.
Qed.
Example C138_float_grid : match evaluate binary32 5 (compute binary32 4 (fnum 0 0) (fnum 0 0) (fnum 1 0) (fnum 0 0) (fnum 2 0) (fnum 0 0) (fnum 3 0) (fnum 8 0)) (fnum 1 (-1)) with Some (x, y) => Beqb x (fnum 3 (-1)) && Beqb y (fnum 1 0) | None => false end = true.
Proof. vm_compute. reflexivity. Qed.

Print Assumptions C136_grid_partial.
Print Assumptions C136_chord_partial.
Print Assumptions C136_between_refuted.
Print Assumptions C136_past_end_refuted.
Print Assumptions C137_from_x.
Print Assumptions C137_outside_refuted.
Print Assumptions C138_returns.
Print Assumptions C138_many_steps_refuted.
