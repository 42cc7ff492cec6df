(** tm_bezier.h in exact arithmetic. *)
From Coq Require Import ZArith QArith Lqa Lia Bool List.
From Verif Require Import BzModel BzSpec.
Local Open Scope Q_scope.

Definition rationals : field := Field Q Qplus Qminus Qmult Qdiv Qopp inject_Z Qle_bool.

(** The state of an axis after [k] steps, for samples [P]: the next point, and the way from the current one. *)
Definition tracks (n : Z) (p0 p1 p2 p3 : Q) (k : nat) (a : axis rationals) : Prop :=
  let B := bezier p0 p1 p2 p3 in let i := inject_Z (Z.of_nat k) in let h := / inject_Z n in
  pos _ a == B ((i + 1) * h) /\ d _ a == B ((i + 1) * h) - B (i * h) /\
  dd _ a == (B ((i + 2) * h) - B ((i + 1) * h)) - (B ((i + 1) * h) - B (i * h)) /\
  ddd _ a == 6 * (- p0 + 3 * p1 - 3 * p2 + p3) * (h * h * h).
Section Axis.
Variable n : Z.
Hypothesis n1 : (1 <= n)%Z.
Variables p0 p1 p2 p3 : Q.
Lemma n_neq : ~ inject_Z n == 0.
Proof. intros H. assert (n = 0)%Z by (unfold Qeq in H; cbn [inject_Z Qnum Qden] in H; lia). lia. Qed.
Lemma tracks_first : tracks n p0 p1 p2 p3 0 (first rationals (differences rationals n p0 p1 p2 p3)).
Proof.
  unfold tracks, first, differences, bezier. cbn [rationals add sub mul div opp ofZ pos d dd ddd num]. change (inject_Z (Z.of_nat 0)) with 0. change (inject_Z 1) with 1. change (inject_Z 3) with 3. change (inject_Z 6) with 6. change (inject_Z 2) with 2. change (inject_Z (-6)) with (-(6)).
  unfold Qdiv. set (h := / inject_Z n). repeat split; ring.
Qed.
Lemma tracks_step : forall k a, tracks n p0 p1 p2 p3 k a -> tracks n p0 p1 p2 p3 (S k) (step rationals a).
Proof.
  intros k a (H1 & H2 & H3 & H4). unfold tracks in *. unfold step. cbn [rationals add pos d dd ddd num] in *. rewrite Nat2Z.inj_succ. unfold Z.succ. rewrite inject_Z_plus. change (inject_Z 1) with 1.
  set (i := inject_Z (Z.of_nat k)) in *. set (h := / inject_Z n) in *. rewrite H1, H2, H3, H4. unfold bezier. repeat split; ring.
Qed.
Lemma tracks_at : forall k a, tracks n p0 p1 p2 p3 k a -> pos _ a == bezier p0 p1 p2 p3 (at_step n (S k)) /\ pos _ a - d _ a == bezier p0 p1 p2 p3 (at_step n k).
Proof.
  intros k a (H1 & H2 & _ & _). cbn [rationals num] in *. unfold at_step. rewrite Nat2Z.inj_succ. unfold Z.succ. rewrite inject_Z_plus. change (inject_Z 1) with 1. unfold Qdiv. split; [exact H1|]. rewrite H1, H2. ring.
Qed.
End Axis.

Section Eval.
Variable n : Z.
Hypothesis n1 : (1 <= n)%Z.
Variables x0 x1 x2 x3 y0 y1 y2 y3 : Q.
Let X := bezier x0 x1 x2 x3.
Let Y := bezier y0 y1 y2 y3.
Let q (k : nat) : Q := inject_Z (Z.of_nat k).
Lemma npos : 0 < inject_Z n.
Proof. change 0 with (inject_Z 0). rewrite <- Zlt_Qlt. lia. Qed.
Lemma hpos : 0 < / inject_Z n.
Proof. apply Qinv_lt_0_compat, npos. Qed.
Lemma at_pos : forall k t, t <= at_step n k <-> t * inject_Z n <= q k.
Proof.
  intros k t. unfold at_step. pose proof npos as N. split; intros H.
  - rewrite <- (Qmult_div_r (q k) (inject_Z n)) by (apply n_neq, n1). rewrite Qmult_comm. apply Qmult_le_l; [exact N|exact H].
  - apply Qle_shift_div_l; [exact N|exact H].
Qed.
Lemma le_bool_false : forall x y, Qle_bool x y = false <-> y < x.
Proof. intros x y. split; intros H; [apply Qnot_le_lt; intros K; apply Qle_bool_iff in K; congruence|]. destruct (Qle_bool x y) eqn:E; [|reflexivity]. apply Qle_bool_iff in E. exfalso. apply (Qle_not_lt _ _ E H). Qed.
(** the step at which the search stops *)
Definition found (t : Q) (k : nat) : Prop := t <= at_step n k /\ (forall j, (j < k)%nat -> at_step n j < t).
Lemma eval_loop_ok : forall fuel k t c x y, tracks n x0 x1 x2 x3 k x -> tracks n y0 y1 y2 y3 k y -> c == at_step n k -> t <= 1 -> (Z.to_nat n < fuel + k)%nat -> (k <= Z.to_nat n)%nat ->
  (forall j, (j < k)%nat -> at_step n j < t) ->
  exists k' rx ry, found t k' /\ (k' <= Z.to_nat n)%nat /\ eval_loop rationals fuel (1 / inject_Z n) t c x y = Some (rx, ry) /\
    let f := (at_step n k' - t) * inject_Z n in
    rx == X (at_step n k') + (X (at_step n (S k')) - X (at_step n k')) * f /\ ry == Y (at_step n k') + (Y (at_step n (S k')) - Y (at_step n k')) * f.
Proof.
  induction fuel as [|fuel IH]; intros k t c x y Tx Ty Ec T1 Lf Lk B; [lia|]. cbn [eval_loop]. cbn [rationals leb ofZ sub div add].
  destruct (Qle_bool t c) eqn:E.
  - apply Qle_bool_iff in E. exists k, (between rationals (pos _ x - d _ x) (pos _ x) ((c - t) / (1 / inject_Z n))), (between rationals (pos _ y - d _ y) (pos _ y) ((c - t) / (1 / inject_Z n))).
    split; [split; [rewrite <- Ec; exact E|exact B]|]. split; [exact Lk|]. split; [reflexivity|]. cbv zeta. destruct (tracks_at _ _ _ _ _ _ _ Tx) as [X1 X2]. destruct (tracks_at _ _ _ _ _ _ _ Ty) as [Y1 Y2]. unfold between. cbn [rationals add sub mul num] in *. rewrite X2, Y2, X1, Y1, Ec. unfold X, Y. pose proof (n_neq n n1) as N. split; field; repeat split; exact N.
  - apply le_bool_false in E.
    assert (Lk' : (k < Z.to_nat n)%nat). { destruct (Nat.eq_dec k (Z.to_nat n)) as [->|]; [|lia]. exfalso. assert (H : at_step n (Z.to_nat n) == 1) by (unfold at_step; rewrite Z2Nat.id by lia; field; apply n_neq, n1). rewrite Ec, H in E. apply (Qle_not_lt _ _ T1 E). }
    destruct (Qle_bool (inject_Z 1) c) eqn:E1. { apply Qle_bool_iff in E1. change (inject_Z 1) with 1 in E1. exfalso. apply (Qlt_not_le _ _ E). apply Qle_trans with 1; assumption. }
    apply (IH (S k)); [apply tracks_step, Tx|apply tracks_step, Ty| |exact T1|lia|lia|].
    + rewrite Ec. unfold at_step. rewrite Nat2Z.inj_succ. unfold Z.succ. rewrite inject_Z_plus. change (inject_Z 1) with 1. field. apply n_neq, n1.
    + intros j Hj. destruct (Nat.eq_dec j k) as [->|]; [rewrite <- Ec; exact E|apply B; lia].
Qed.
Lemma evaluate_ok : forall fuel t, t <= 1 -> (Z.to_nat n < fuel)%nat ->
  exists k rx ry, found t k /\ (k <= Z.to_nat n)%nat /\ evaluate rationals fuel (compute rationals n x0 y0 x1 y1 x2 y2 x3 y3) t = Some (rx, ry) /\
    let f := (at_step n k - t) * inject_Z n in
    rx == X (at_step n k) + (X (at_step n (S k)) - X (at_step n k)) * f /\ ry == Y (at_step n k) + (Y (at_step n (S k)) - Y (at_step n k)) * f.
Proof.
  intros fuel t T1 Lf. unfold evaluate, compute. cbn [h xs ys rationals leb ofZ div].
  assert (E : Qle_bool (inject_Z 1 / inject_Z n) (inject_Z 0) = false). { apply le_bool_false. unfold Qdiv. change (inject_Z 1) with 1. change (inject_Z 0) with 0. rewrite Qmult_1_l. apply hpos. }
  rewrite E. apply eval_loop_ok with (k := 0%nat); try exact T1; try lia; [apply tracks_first|apply tracks_first|reflexivity].
Qed.

Lemma fromx_loop_ok : forall fuel k x c px py, tracks n x0 x1 x2 x3 k px -> tracks n y0 y1 y2 y3 k py -> c == at_step n k -> x <= X 1 -> (Z.to_nat n <= fuel + k)%nat -> (k < Z.to_nat n)%nat ->
  (forall j, (j <= k)%nat -> (0 < j)%nat -> X (at_step n j) < x) ->
  exists k' r, (k' < Z.to_nat n)%nat /\ x <= X (at_step n (S k')) /\ (forall j, (j <= k')%nat -> (0 < j)%nat -> X (at_step n j) < x) /\ fromx_loop rationals fuel (1 / inject_Z n) x c px py = Some r /\
    r == Y (at_step n k') + (Y (at_step n (S k')) - Y (at_step n k')) * ((x - X (at_step n k')) / (X (at_step n (S k')) - X (at_step n k'))).
Proof.
  induction fuel as [|fuel IH]; intros k x c px py Tx Ty Ec Xx Lf Lk B; [lia|]. cbn [fromx_loop]. cbn [rationals leb ofZ sub div add num].
  destruct (tracks_at _ _ _ _ _ _ _ Tx) as [X1 X2]. destruct (tracks_at _ _ _ _ _ _ _ Ty) as [Y1 Y2]. cbn [rationals num] in *. fold X in X1, X2. fold Y in Y1, Y2.
  destruct (Qle_bool x (pos _ px)) eqn:E.
  - apply Qle_bool_iff in E. exists k. eexists. split; [exact Lk|]. split; [rewrite <- X1; exact E|]. split; [exact B|]. split; [reflexivity|]. unfold between. cbn [rationals add sub mul num]. rewrite Y2, X2, X1, Y1. reflexivity.
  - apply le_bool_false in E. rewrite X1 in E.
    assert (Lk' : (S k < Z.to_nat n)%nat). { destruct (Nat.eq_dec (S k) (Z.to_nat n)) as [Ek|]; [|lia]. exfalso. rewrite Ek in E. assert (H : at_step n (Z.to_nat n) == 1) by (unfold at_step; rewrite Z2Nat.id by lia; field; apply n_neq, n1). unfold X in E, Xx. unfold bezier in E. rewrite H in E. apply (Qle_not_lt _ _ Xx). unfold bezier. exact E. }
    destruct (Qle_bool (inject_Z 1) c) eqn:E1. { apply Qle_bool_iff in E1. change (inject_Z 1) with 1 in E1. exfalso. rewrite Ec in E1. apply at_pos in E1. rewrite Qmult_1_l in E1. unfold q in E1. rewrite <- Zle_Qle in E1. lia. }
    apply (IH (S k)); [apply tracks_step, Tx|apply tracks_step, Ty| |exact Xx|lia|lia|].
    + rewrite Ec. unfold at_step. rewrite (Nat2Z.inj_succ k). unfold Z.succ. rewrite inject_Z_plus. change (inject_Z 1) with 1. field. apply n_neq, n1.
    + intros j Hj J0. destruct (Nat.eq_dec j (S k)) as [->|]; [exact E|apply B; lia].
Qed.
Lemma fromx_ok : forall fuel x, x <= X 1 -> (Z.to_nat n <= fuel)%nat ->
  exists k r, (k < Z.to_nat n)%nat /\ x <= X (at_step n (S k)) /\ (forall j, (j <= k)%nat -> (0 < j)%nat -> X (at_step n j) < x) /\ evaluate_from_x rationals fuel (compute rationals n x0 y0 x1 y1 x2 y2 x3 y3) x = Some r /\
    r == Y (at_step n k) + (Y (at_step n (S k)) - Y (at_step n k)) * ((x - X (at_step n k)) / (X (at_step n (S k)) - X (at_step n k))).
Proof.
  intros fuel x Xx Lf. unfold evaluate_from_x, compute. cbn [h xs ys rationals leb ofZ div].
  assert (E : Qle_bool (inject_Z 1 / inject_Z n) (inject_Z 0) = false). { apply le_bool_false. unfold Qdiv. change (inject_Z 1) with 1. change (inject_Z 0) with 0. rewrite Qmult_1_l. apply hpos. }
  rewrite E. apply fromx_loop_ok with (k := 0%nat); try exact Xx; try lia; [apply tracks_first|apply tracks_first|reflexivity].
Qed.
End Eval.

(** Easing curves: x grows strictly. *)
Lemma sq_nonneg : forall x, 0 <= x * x.
Proof. intros [a b]. unfold Qle. cbn [Qmult Qnum Qden]. nia. Qed.
Lemma cube_lt : forall s t, s < t -> 0 < t * t * t - s * s * s.
Proof.
  intros s t L. setoid_replace (t * t * t - s * s * s) with ((t - s) * ((1#4) * (3 * ((t + s) * (t + s)) + (t - s) * (t - s)))) by ring.
  assert (H0 : 0 < (t - s) * (t - s)) by (apply Qmult_lt_0_compat; lra). pose proof (sq_nonneg (t + s)) as H1. apply Qmult_lt_0_compat; lra.
Qed.
Lemma easing_increasing : forall x1 x2 s t, 0 <= x1 <= 1 -> 0 <= x2 <= 1 -> 0 <= s -> s < t -> t <= 1 -> bezier 0 x1 x2 1 s < bezier 0 x1 x2 1 t.
Proof.
  intros x1 x2 s t [A1 A2] [B1 B2] S0 L T1.
  assert (C00 : 0 < t * t * t - s * s * s) by (apply cube_lt, L).
  assert (C11 : 0 < (1 - s) * (1 - s) * (1 - s) - (1 - t) * (1 - t) * (1 - t)) by (apply cube_lt; lra).
  assert (C10 : 0 < (3 * t - 6 * t * t + 4 * t * t * t) - (3 * s - 6 * s * s + 4 * s * s * s)).
  { set (u := t - (1#2)). set (v := s - (1#2)). setoid_replace ((3 * t - 6 * t * t + 4 * t * t * t) - (3 * s - 6 * s * s + 4 * s * s * s)) with (4 * (u * u * u - v * v * v)) by (unfold u, v; ring). assert (H : v < u) by (unfold u, v; lra). pose proof (cube_lt _ _ H). lra. }
  assert (C01 : 0 < (3 * t * t - 2 * t * t * t) - (3 * s * s - 2 * s * s * s)).
  { setoid_replace ((3 * t * t - 2 * t * t * t) - (3 * s * s - 2 * s * s * s)) with ((t - s) * (2 * t * (1 - t) + 2 * s * (1 - s) + t * (1 - s) + s * (1 - t))) by ring. apply Qmult_lt_0_compat; [lra|]. assert (0 <= t * (1 - t)) by nra. assert (0 <= s * (1 - s)) by nra. assert (0 <= s * (1 - t)) by nra. assert (0 < t * (1 - s)) by nra. lra. }
  set (D00 := t * t * t - s * s * s) in *. set (D11 := (1 - s) * (1 - s) * (1 - s) - (1 - t) * (1 - t) * (1 - t)) in *. set (D10 := (3 * t - 6 * t * t + 4 * t * t * t) - (3 * s - 6 * s * s + 4 * s * s * s)) in *. set (D01 := (3 * t * t - 2 * t * t * t) - (3 * s * s - 2 * s * s * s)) in *.
  assert (E : bezier 0 x1 x2 1 t - bezier 0 x1 x2 1 s == (1 - x1) * ((1 - x2) * D00 + x2 * D01) + x1 * ((1 - x2) * D10 + x2 * D11)) by (unfold D00, D01, D10, D11, bezier; ring).
  assert (P : forall u v w, 0 <= u -> u <= 1 -> 0 < v -> 0 < w -> 0 < (1 - u) * v + u * w) by (intros u v w U0 U1 V W; nra).
  assert (R : 0 < bezier 0 x1 x2 1 t - bezier 0 x1 x2 1 s) by (rewrite E; apply P; try assumption; apply P; assumption). lra.
Qed.
