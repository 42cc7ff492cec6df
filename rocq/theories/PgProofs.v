(** The loop of triangulatePolygonEarClipping refines [clip]. *)
From Coq Require Import Arith ZArith Lia ZifyBool Bool List.
From Verif Require Import Base PgModel PgSpec.
Import ListNotations.

(** ** Rings *)
Lemma rot_refl : forall A (l : list A), rot l l.
Proof. intros A l. exists l, []. rewrite app_nil_r. split; reflexivity. Qed.
Lemma rot_sym : forall A (l l' : list A), rot l l' -> rot l' l.
Proof. intros A l l' (x & y & -> & ->). exists y, x. split; reflexivity. Qed.
Lemma app_split : forall A (a b c d : list A), a ++ b = c ++ d -> (exists e, c = a ++ e /\ b = e ++ d) \/ (exists e, a = c ++ e /\ d = e ++ b).
Proof.
  intros A a. induction a as [|x a IH]; intros b c d E.
  - left. exists c. split; [reflexivity|exact E].
  - destruct c as [|y c]; [right; exists (x :: a); split; [reflexivity|symmetry; exact E]|]. cbn [app] in E. injection E as -> E. destruct (IH b c d E) as [(e & -> & ->)|(e & -> & ->)]; [left|right]; exists e; split; reflexivity.
Qed.
Lemma rot_trans : forall A (l l' l'' : list A), rot l l' -> rot l' l'' -> rot l l''.
Proof.
  intros A l l' l'' (x & y & -> & ->) (z & w & E & ->). destruct (app_split _ _ _ _ _ E) as [(e & -> & ->)|(e & -> & ->)].
  - exists e, (w ++ y). rewrite <- !app_assoc. split; reflexivity.
  - exists (x ++ z), e. rewrite <- !app_assoc. split; reflexivity.
Qed.
Lemma rot_length : forall A (l l' : list A), rot l l' -> length l = length l'.
Proof. intros A l l' (x & y & -> & ->). rewrite !app_length. lia. Qed.
Lemma rot_in : forall A (l l' : list A) z, rot l l' -> In z l -> In z l'.
Proof. intros A l l' z (x & y & -> & ->) H. apply in_or_app. apply in_app_or in H. tauto. Qed.
Lemma clip_length : forall A ear (l : list A) ts l', clip ear l ts l' -> length l = length l' + length ts.
Proof.
  intros A ear l ts l' H. induction H as [l l' R|l a b c r ts l' R E H IH]; [apply rot_length in R; cbn [length]; lia|]. apply rot_length in R. cbn [length] in *. lia.
Qed.
Lemma clip_snoc : forall A ear (l : list A) ts l' a b c r, clip ear l ts l' -> rot l' (a :: b :: c :: r) -> ear a b c -> clip ear l (ts ++ [(a, b, c)]) (a :: c :: r).
Proof.
  intros A ear l ts l' a b c r H. induction H as [l l' R|l x y z t ts l' R E H IH]; intros Q Er; cbn [app].
  - eapply clip_cut; [exact (rot_trans _ _ _ _ R Q)|exact Er|apply clip_none, rot_refl].
  - eapply clip_cut; [exact R|exact E|exact (IH Q Er)].
Qed.
Lemma clip_rot : forall A ear (l : list A) ts l' l'', clip ear l ts l' -> rot l' l'' -> clip ear l ts l''.
Proof.
  intros A ear l ts l' l'' H Q. induction H as [l l' R|l x y z t ts l' R E H IH]; [apply clip_none; exact (rot_trans _ _ _ _ R Q)|eapply clip_cut; [exact R|exact E|exact (IH Q)]].
Qed.
Lemma clip_in : forall A ear (l : list A) ts l', clip ear l ts l' -> (forall x, In x l' -> In x l) /\ (forall a b c, In (a, b, c) ts -> In a l /\ In b l /\ In c l /\ ear a b c).
Proof.
  intros A ear l ts l' H. induction H as [l l' R|l a b c r ts l' R E H [IH1 IH2]].
  - split; [intros x; apply rot_in, rot_sym, R|intros a b c []].
  - assert (Q : forall x, In x (a :: b :: c :: r) -> In x l) by (intros x; apply rot_in, rot_sym, R). assert (K : forall x, In x (a :: c :: r) -> In x (a :: b :: c :: r)) by (cbn [In]; tauto). split; [auto|]. intros x y z [Ex|Hx].
    + injection Ex as -> -> ->. repeat split; [apply Q; cbn [In]; tauto..|exact E].
    + destruct (IH2 x y z Hx) as (H1 & H2 & H3 & H4). repeat split; auto.
Qed.

(** ** Positions *)
(** the position [k] before [p] in a ring of [n] *)
Definition back (n p k : nat) : nat := if k <=? p then p - k else n + p - k.
Definition triple (l : list nat) (p : nat) (x y z : nat) : Prop :=
  nth_error l (back (length l) p 2) = Some x /\ nth_error l (back (length l) p 1) = Some y /\ nth_error l p = Some z.
Definition without (l : list nat) (i : nat) : list nat := firstn i l ++ skipn (S i) l.
Lemma last_two : forall A (l : list A), 2 <= length l -> exists m x y, l = m ++ [x; y].
Proof.
  intros A l H. destruct l as [|y l _] using rev_ind; [cbn [length] in H; lia|]. destruct l as [|x l _] using rev_ind; [cbn [length app] in H; lia|]. exists l, x, y. rewrite <- app_assoc. reflexivity.
Qed.
Lemma triple_rot : forall l p x y z, 3 <= length l -> p < length l -> triple l p x y z ->
  exists r, rot l (x :: y :: z :: r) /\ rot (without l (back (length l) p 1)) (x :: z :: r).
Proof.
  intros l p x y z L P (H1 & H2 & H3). unfold back in *.
  assert (p = 0 \/ p = 1 \/ 2 <= p) as [-> | [-> | P2]] by lia.
  - cbn [Nat.leb] in *. destruct l as [|c l]; [cbn [length] in L; lia|]. destruct (last_two _ l) as (m & a & b & ->); [cbn [length] in L; lia|]. exists m. cbn [length] in *. rewrite app_length in *. cbn [length] in *.
    replace (S (length m + 2) + 0 - 2) with (S (length m)) in H1 by lia. replace (S (length m + 2) + 0 - 1) with (S (S (length m))) in * by lia.
    change (nth_error (m ++ [a; b]) (S (length m)) = Some y) in H2. change (nth_error (m ++ [a; b]) (length m) = Some x) in H1. cbn [nth_error] in H3. rewrite nth_error_app2 in H1, H2 by lia. rewrite Nat.sub_diag in H1. replace (S (length m) - length m) with 1 in H2 by lia. cbn [nth_error] in H1, H2.
    assert (a = x) by congruence. assert (c = z) by congruence. assert (b = y) by congruence. subst. split.
    + exists (z :: m), [x; y]. split; reflexivity.
    + exists (z :: m), [x]. split; [|reflexivity]. unfold without. change (z :: m ++ [x; y]) with ((z :: m) ++ [x] ++ [y]). rewrite app_assoc. replace (S (S (length m))) with (length ((z :: m) ++ [x])) by (rewrite app_length; cbn [length]; lia).
      rewrite firstn_app, firstn_all, Nat.sub_diag, firstn_O, app_nil_r. rewrite skipn_all2 by (rewrite !app_length; cbn [length]; lia). rewrite app_nil_r. reflexivity.
  - cbn [Nat.leb] in *. destruct l as [|b [|c l]]; [cbn [length] in L; lia..|]. destruct l as [|a m _] using rev_ind; [cbn [length] in L; lia|]. exists m. cbn [length] in *. rewrite app_length in *. cbn [length] in *.
    replace (S (S (length m + 1)) + 1 - 2) with (S (S (length m))) in H1 by lia. replace (1 - 1) with 0 in * by lia. cbn [nth_error] in H1, H2, H3. rewrite nth_error_app2 in H1 by lia. rewrite Nat.sub_diag in H1. cbn [nth_error] in H1.
    assert (a = x) by congruence. assert (b = y) by congruence. assert (c = z) by congruence. subst. split.
    + exists (y :: z :: m), [x]. split; reflexivity.
    + exists (z :: m), [x]. split; reflexivity.
  - assert (E : exists u v, l = u ++ [x; y; z] ++ v /\ length u = p - 2).
    { destruct (Nat.leb_spec 2 p) as [_|Q]; [|lia]. destruct (Nat.leb_spec 1 p) as [_|Q]; [|lia]. exists (firstn (p - 2) l), (skipn (p + 1) l). split; [|rewrite firstn_length; lia]. rewrite <- (firstn_skipn (p - 2) l) at 1. f_equal.
      assert (G : forall i w, nth_error l i = Some w -> skipn i l = w :: skipn (S i) l). { clear. intros i. revert l. induction i as [|i IH]; intros [|h t] w E; cbn [nth_error] in E; try discriminate E; [injection E as ->; reflexivity|]. change (skipn (S i) (h :: t)) with (skipn i t). change (skipn (S (S i)) (h :: t)) with (skipn (S i) t). apply IH, E. }
      rewrite (G _ _ H1). replace (S (p - 2)) with (p - 1) by lia. rewrite (G _ _ H2). replace (S (p - 1)) with p by lia. rewrite (G _ _ H3). replace (S p) with (p + 1) by lia. reflexivity. }
    destruct E as (u & v & -> & Lu). exists (v ++ u). destruct (Nat.leb_spec 1 p) as [_|Q]; [|lia]. split.
    + exists u, ([x; y; z] ++ v). split; [reflexivity|]. rewrite <- app_assoc. reflexivity.
    + exists u, ([x; z] ++ v). split; [|rewrite <- app_assoc; reflexivity]. unfold without. replace (p - 1) with (length (u ++ [x])) by (rewrite app_length; cbn [length]; lia). replace (u ++ [x; y; z] ++ v) with ((u ++ [x]) ++ y :: z :: v) by (rewrite <- app_assoc; reflexivity).
      rewrite firstn_app, firstn_all, Nat.sub_diag, firstn_O, app_nil_r. rewrite skipn_app, skipn_all2 by lia. replace (S (length (u ++ [x])) - length (u ++ [x])) with 1 by lia. cbn [skipn app]. rewrite <- app_assoc. reflexivity.
Qed.
Lemma rot_triple : forall (l : list nat) x y z r, rot l (x :: y :: z :: r) -> exists p, p < length l /\ triple l p x y z.
Proof.
  intros l x y z r (u & v & -> & E). unfold triple, back. destruct v as [|v1 [|v2 [|v3 v]]]; cbn [app] in E.
  - subst u. exists 2. rewrite app_nil_r. cbn [length Nat.leb nth_error Nat.sub]. repeat split; lia.
  - injection E as E1 E2. subst v1 u. exists 1. cbn [app]. cbn [length Nat.leb Nat.sub nth_error]. rewrite app_length. cbn [length]. split; [lia|]. replace (S (S (length r + 1)) + 1 - 2) with (S (S (length r))) by lia. cbn [nth_error]. rewrite nth_error_app2, Nat.sub_diag by lia. repeat split.
  - injection E as E1 E2 E3. subst v1 v2 u. exists 0. cbn [app]. cbn [length Nat.leb]. rewrite app_length. cbn [length]. split; [lia|]. replace (S (length r + 2) + 0 - 2) with (S (length r)) by lia. replace (S (length r + 2) + 0 - 1) with (S (S (length r))) by lia. cbn [nth_error]. rewrite nth_error_app2, Nat.sub_diag by lia.
    replace (z :: r ++ [x; y]) with ((z :: r) ++ [x; y]) by reflexivity. split; [reflexivity|]. split; [|reflexivity]. change (nth_error (r ++ [x; y]) (S (length r)) = Some y). rewrite nth_error_app2 by lia. replace (S (length r) - length r) with 1 by lia. reflexivity.
  - injection E as E1 E2 E3 E4. subst v1 v2 v3 r. exists (length u + 2). rewrite app_length. cbn [length]. split; [lia|]. destruct (Nat.leb_spec 2 (length u + 2)); [|lia]. destruct (Nat.leb_spec 1 (length u + 2)); [|lia]. rewrite !nth_error_app2 by lia. replace (length u + 2 - 2 - length u) with 0 by lia. replace (length u + 2 - 1 - length u) with 1 by lia. replace (length u + 2 - length u) with 2 by lia. repeat split.
Qed.

(** ** The loop *)
Section Proof.
Variable ear : nat -> nat -> nat -> option bool.
Variable cw : bool.
Variable begin max_indices n : nat.
Hypothesis total : forall i j k, i < n -> j < n -> k < n -> ear i j k <> None.
Hypothesis room : 3 * (n - 2) <= max_indices.
Hypothesis n3 : 3 <= n.
Definition Ear (i j k : nat) : Prop := ear i j k = Some true.
Definition emitted (t : nat * nat * nat) : list nat :=
  let '(x, y, z) := t in if cw then [index (x + begin); index (y + begin); index (z + begin)] else [index (x + begin); index (z + begin); index (y + begin)].
Definition active (s : state) : list nat := firstn (size s) (q s).

Record inv (ts : list (nat * nat * nat)) (s : state) : Prop := {
  i_size : 2 <= size s <= length (q s);
  i_clip : clip Ear (seq 0 n) ts (active s);
  i_out : out s = flat_map emitted ts;
  i_cur : current s < size s;
  i_c : c s = current s;
  i_b : b s = back (size s) (current s) 1;
  i_a : a s = back (size s) (current s) 2;
  i_iter : iter s <= 2 * size s + 1;
  i_seen : forall p x y z, p < size s -> (p < current s /\ current s - p <= iter s) \/ (current s <= p /\ current s + size s - p <= iter s) -> triple (active s) p x y z -> ~ Ear x y z
}.
Lemma active_length : forall s, size s <= length (q s) -> length (active s) = size s.
Proof. intros s H. unfold active. rewrite firstn_length. lia. Qed.
Lemma nth_active : forall s i, i < size s -> nth_error (active s) i = nth_error (q s) i.
Proof. intros s i H. unfold active. rewrite <- (firstn_skipn (size s) (q s)) at 2. destruct (Nat.le_gt_cases (size s) (length (q s))) as [L|L]; [rewrite nth_error_app1 by (rewrite firstn_length; lia); reflexivity|]. rewrite firstn_all2, skipn_all2, app_nil_r by lia. reflexivity. Qed.
Lemma back_lt : forall m p k, p < m -> 1 <= k -> k <= m -> back m p k < m.
Proof. intros m p k P K L. unfold back. destruct (Nat.leb_spec k p); lia. Qed.
Lemma nth_some : forall (l : list nat) i, i < length l -> exists w, nth_error l i = Some w.
Proof. intros l i H. destruct (nth_error l i) as [w|] eqn:E; [exists w; reflexivity|]. apply nth_error_None in E. lia. Qed.
Lemma removed : forall l i m, i <= m -> S m <= length l -> exists l', move_down l i (m - i) = Some l' /\ length l' = length l /\ firstn m l' = without (firstn (S m) l) i.
Proof.
  intros l i m Hi Hm. unfold move_down. replace (i + 1 + (m - i)) with (S m) by lia. rewrite (proj2 (Nat.leb_le _ _) Hm). cbn [assert_]. eexists. split; [reflexivity|]. replace (i + (m - i)) with m by lia.
  assert (L1 : length (firstn i l) = i) by (rewrite firstn_length; lia). assert (L2 : length (firstn (m - i) (skipn (i + 1) l)) = m - i) by (rewrite firstn_length, skipn_length; lia). split; [rewrite !app_length, L1, L2, skipn_length; lia|].
  rewrite firstn_app, L1, firstn_firstn, (Nat.min_r m i Hi), firstn_app, L2, Nat.sub_diag, firstn_O, app_nil_r, firstn_firstn, Nat.min_id. unfold without. rewrite firstn_firstn, Nat.min_l by lia. f_equal. rewrite skipn_firstn_comm. replace (S m - S i) with (m - i) by lia. rewrite Nat.add_1_r. reflexivity.
Qed.
Lemma triple_fun : forall l p x y z x' y' z', triple l p x y z -> triple l p x' y' z' -> x = x' /\ y = y' /\ z = z'.
Proof. intros l p x y z x' y' z' (A1 & A2 & A3) (B1 & B2 & B3). repeat split; congruence. Qed.

Lemma body_ok : forall ts s, inv ts s -> 2 < size s ->
  exists r, body ear cw begin max_indices s = Some r /\
  match r with
  | inl s' => (inv ts s' /\ size s' = size s /\ iter s' = iter s + 1 /\ iter s' <= 2 * size s + 1) \/ (exists t, inv (ts ++ [t]) s' /\ size s' = size s - 1 /\ iter s' = 0)
  | inr s' => out s' = out s /\ no_ear Ear (active s)
  end.
Proof.
  intros ts s [Is Ic Io Ip Icc Ib Ia Ii In_] Sz. pose proof (active_length s ltac:(lia)) as La. set (m := size s) in *.
  assert (A3 : back m (current s) 2 < m) by (apply back_lt; lia). assert (B3 : back m (current s) 1 < m) by (apply back_lt; lia).
  destruct (nth_some (q s) (a s)) as [x Ex]; [rewrite Ia; lia|]. destruct (nth_some (q s) (b s)) as [y Ey]; [rewrite Ib; lia|]. destruct (nth_some (q s) (c s)) as [z Ez]; [rewrite Icc; lia|].
  assert (T : triple (active s) (current s) x y z). { unfold triple. rewrite La. fold m. rewrite !nth_active by (fold m; lia). rewrite <- Ib, <- Ia, <- Icc. repeat split; assumption. }
  destruct (clip_in _ _ _ _ _ Ic) as [Cin _]. assert (Bd : forall i w, nth_error (active s) i = Some w -> w < n). { intros i w E. apply nth_error_In, Cin, in_seq in E. lia. }
  pose proof T as (T1 & T2 & T3). assert (Lx : x < n) by (exact (Bd _ _ T1)). assert (Ly : y < n) by (exact (Bd _ _ T2)). assert (Lz : z < n) by (exact (Bd _ _ T3)).
  unfold body. rewrite Ex, Ey, Ez. destruct (ear x y z) as [e|] eqn:Ee; [|destruct (total x y z Lx Ly Lz Ee)]. destruct e.
  - destruct (triple_rot (active s) (current s) x y z) as (r & R1 & R2); [lia|lia|exact T|]. rewrite La in R2. fold m in R2.
    pose proof (clip_length _ _ _ _ _ Ic) as Lc. rewrite seq_length, La in Lc. fold m in Lc.
    assert (Lo : length (out s) = 3 * length ts). { rewrite Io. clear. induction ts as [|[[x y] z] ts IH]; [reflexivity|]. cbn [flat_map]. rewrite app_length, IH. cbn [length emitted]. destruct cw; cbn [length]; lia. }
    rewrite (proj2 (Nat.leb_le (length (out s) + 3) max_indices)) by lia. cbn [assert_].
    destruct (removed (q s) (b s) (m - 1)) as (q' & Eq & Lq & Fq); [rewrite Ib; lia|lia|]. cbv zeta. fold m. rewrite Eq. replace (S (m - 1)) with m in Fq by lia. eexists. split; [reflexivity|]. cbv beta iota. right. exists (x, y, z).
    assert (Cut : clip Ear (seq 0 n) (ts ++ [(x, y, z)]) (firstn (m - 1) q')). { rewrite Fq. fold (active s). rewrite Ib. eapply clip_rot; [exact (clip_snoc _ _ _ _ _ _ _ _ _ Ic R1 Ee)|]. apply rot_sym. exact R2. }
    split; [|split; reflexivity]. constructor; cbn [q size a b c current iter out].
    + lia.
    + exact Cut.
    + rewrite Io, flat_map_app. cbn [flat_map emitted]. rewrite app_nil_r. destruct cw; reflexivity.
    + rewrite Ia. destruct (Nat.leb_spec (m - 1) (back m (current s) 2)); lia.
    + reflexivity.
    + set (cur := if m - 1 <=? a s then a s - (m - 1) else a s). unfold back. destruct (Nat.leb_spec 2 cur), (Nat.leb_spec 1 cur); lia.
    + set (cur := if m - 1 <=? a s then a s - (m - 1) else a s). unfold back. destruct (Nat.leb_spec 2 cur); lia.
    + lia.
    + intros p u v w P Q. destruct (if m - 1 <=? a s then a s - (m - 1) else a s); lia.
  - cbv zeta. fold m.
    assert (Seen : forall p u v w, p < m -> (p < current s /\ current s - p <= iter s) \/ (current s <= p /\ current s + m - p <= iter s) \/ p = current s -> triple (active s) p u v w -> ~ Ear u v w).
    { intros p u v w P [Q | [Q | ->]] Tr; [apply (In_ p u v w P (or_introl Q) Tr)|apply (In_ p u v w P (or_intror Q) Tr)|]. destruct (triple_fun _ _ _ _ _ _ _ _ T Tr) as (<- & <- & <-). unfold Ear. congruence. }
    destruct (Nat.ltb_spec (2 * m) (iter s)) as [L|L].
    + eexists. split; [reflexivity|]. cbv beta iota. split; [destruct (m <=? current s + 1); reflexivity|]. intros u v w r R. destruct (rot_triple _ _ _ _ _ R) as (p & P & Tr). rewrite La in P. fold m in P. apply (Seen p u v w P); [lia|exact Tr].
    + eexists. split; [reflexivity|]. cbv beta iota. left. set (s' := if m <=? current s + 1 then _ else _).
      assert (Q : q s' = q s /\ size s' = m /\ out s' = out s) by (subst s'; destruct (m <=? current s + 1); repeat split). destruct Q as (Q1 & Q2 & Q3).
      assert (K : current s' = (if m <=? current s + 1 then 0 else current s + 1) /\ c s' = current s') by (subst s'; destruct (m <=? current s + 1); split; reflexivity). destruct K as (K1 & K2).
      assert (J : b s' = back m (current s') 1 /\ a s' = back m (current s') 2).
      { subst s'. unfold back. unfold back in Ib. destruct (Nat.leb_spec m (current s + 1)); cbn [a b current]; [cbn [Nat.leb]; lia|]. destruct (Nat.leb_spec 1 (current s + 1)); [|lia]. destruct (Nat.leb_spec 2 (current s + 1)), (Nat.leb_spec 1 (current s)); lia. }
      destruct J as (J1 & J2). clearbody s'. split; [|cbn [size iter]; lia]. constructor; cbn [q size a b c current iter out]; unfold active; cbn [q size]; rewrite ?Q1, ?Q2, ?Q3.
      * lia.
      * exact Ic.
      * exact Io.
      * rewrite K1. destruct (Nat.leb_spec m (current s + 1)); lia.
      * exact K2.
      * exact J1.
      * exact J2.
      * lia.
      * intros p u v w P Q Tr. apply (Seen p u v w P); [|exact Tr]. rewrite K1 in Q. destruct (Nat.leb_spec m (current s + 1)); lia.
Qed.
Lemma loop_ok : forall fuel ts s, inv ts s -> (size s - 2) * (2 * n + 4) + (2 * size s + 1 - iter s) + 1 < fuel -> exists s' ts', loop ear cw begin max_indices fuel s = Some s' /\ out s' = flat_map emitted ts' /\ exists rest, clip Ear (seq 0 n) ts' rest /\ (length rest = 2 \/ no_ear Ear rest).
Proof.
  induction fuel as [|fuel IH]; intros ts s I Fu; [destruct (Nat.nlt_0_r _ Fu)|]. cbn [loop]. pose proof I as [Is Ic Io Ip Icc Ib Ia Ii In_]. pose proof (clip_length _ _ _ _ _ Ic) as Lc. rewrite seq_length, active_length in Lc by lia. destruct (Nat.ltb_spec 2 (size s)) as [L|L].
  - destruct (body_ok ts s I L) as (r & E & H). rewrite E. destruct r as [s'|s'].
    + destruct H as [(I' & S' & T' & Q)|(t & I' & S' & T')].
      * apply (IH ts s' I'). rewrite S', T'. remember ((size s - 2) * (2 * n + 4)) as k. lia.
      * apply (IH _ s' I'). rewrite S', T'. replace (size s - 2) with (S (size s - 1 - 2)) in Fu by lia. rewrite Nat.mul_succ_l in Fu. remember ((size s - 1 - 2) * (2 * n + 4)) as k. lia.
    + destruct H as [H1 H2]. exists s', ts. split; [reflexivity|]. split; [congruence|]. exists (active s). split; [exact Ic|right; exact H2].
  - exists s, ts. split; [reflexivity|]. split; [exact Io|]. exists (active s). split; [exact Ic|left]. rewrite active_length; lia.
Qed.
Lemma triangulate_ok : forall queries, n <= 2 ^ 16 -> n <= length queries -> exists ts rest, triangulate ear cw begin max_indices n queries = Some (flat_map emitted ts) /\ clip Ear (seq 0 n) ts rest /\ (length rest = 2 \/ no_ear Ear rest).
Proof.
  intros queries N16 Lq. unfold triangulate. rewrite (proj2 (Nat.leb_le _ _) Lq). rewrite (proj2 (Nat.eqb_neq max_indices 0)) by lia. cbn [negb andb assert_]. rewrite (proj2 (Nat.ltb_ge n 3) n3).
  assert (Mi : map index (seq 0 n) = seq 0 n). { rewrite <- (map_id (seq 0 n)) at 2. apply map_ext_in. intros i Hi. apply in_seq in Hi. unfold index. apply Nat.mod_small. lia. } rewrite Mi.
  assert (Fi : firstn n (seq 0 n ++ skipn n queries) = seq 0 n). { rewrite firstn_app, seq_length, Nat.sub_diag, firstn_O, app_nil_r. rewrite firstn_all2 by (rewrite seq_length; lia). reflexivity. }
  destruct (loop_ok (n * (2 * n + 4)) [] (State (seq 0 n ++ skipn n queries) n 0 1 2 2 0 [])) as (s' & ts & E & O & rest & C & R).
  - constructor; cbn [q size a b c current iter out]; unfold active; cbn [q size]; try reflexivity; try lia.
    + rewrite app_length, seq_length. lia.
    + rewrite Fi. apply clip_none, rot_refl.
  - cbn [size iter]. assert (Q : n * (2 * n + 4) = (n - 2) * (2 * n + 4) + 2 * (2 * n + 4)) by nia. rewrite Q. remember ((n - 2) * (2 * n + 4)) as k. lia.
  - rewrite E. exists ts, rest. split; [rewrite O; reflexivity|]. split; assumption.
Qed.
End Proof.
