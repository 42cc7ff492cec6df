(** The invariant of the thread pool: per slot, how many places refer to it and what has happened to its work. *)
From Coq Require Import Arith Bool List Lia ZifyBool ZifyNat.
From Verif Require Import Base AsModel AsSpec.
Import ListNotations.

(** ** Lists *)
Definition tot {A} (f : A -> nat) (l : list A) : nat := fold_right (fun x n => f x + n) 0 l.
Lemma set_len {A} (l : list A) i x : i < length l -> length (set l i x) = length l.
Proof. intros H. unfold set. rewrite app_length. cbn [length]. rewrite firstn_length, skipn_length. lia. Qed.
Lemma nth_set_eq {A} (l : list A) i x : i < length l -> nth_error (set l i x) i = Some x.
Proof.
  intros H. unfold set. rewrite nth_error_app2; rewrite firstn_length, Nat.min_l by lia; [|lia].
  rewrite Nat.sub_diag. reflexivity.
Qed.
Lemma nth_set_ne {A} (l : list A) i j x : i < length l -> j <> i -> nth_error (set l i x) j = nth_error l j.
Proof.
  intros H Hj. unfold set. destruct (Nat.lt_ge_cases j i) as [L|L].
  - rewrite nth_error_app1 by (rewrite firstn_length; lia). clear H Hj. revert i j L. induction l as [|a l IH]; intros [|i] [|j] L; try reflexivity; try lia. cbn [firstn nth_error]. apply IH. lia.
  - rewrite nth_error_app2; rewrite firstn_length, Nat.min_l by lia; [|lia].
    destruct (j - i) as [|d] eqn:E; [lia|]. cbn [nth_error].
    replace j with (S i + d) by lia. clear. revert d. generalize (S i) as k. intros k d.
    revert l. induction k as [|k IH]; intros l; [reflexivity|]. destruct l as [|a l].
    + cbn [skipn Nat.add nth_error]. destruct d; reflexivity.
    + cbn [skipn Nat.add nth_error]. apply IH.
Qed.
Lemma nth_lt {A} (l : list A) i x : nth_error l i = Some x -> i < length l.
Proof. intros H. apply nth_error_Some. congruence. Qed.
Lemma tot_app {A} (f : A -> nat) l1 l2 : tot f (l1 ++ l2) = tot f l1 + tot f l2.
Proof. induction l1 as [|a l IH]; [reflexivity|]. cbn [app tot fold_right]. fold (tot f (l ++ l2)). fold (tot f l). lia. Qed.
Lemma tot_set {A} (f : A -> nat) l i x y : nth_error l i = Some y -> tot f (set l i x) + f y = tot f l + f x.
Proof.
  revert i. induction l as [|a l IH]; intros i H; [destruct i; discriminate|]. destruct i as [|i].
  - cbn [nth_error] in H. injection H as ->. unfold set. cbn [firstn skipn app tot fold_right]. lia.
  - cbn [nth_error] in H. specialize (IH i H). change (set (a :: l) (S i) x) with (a :: set l i x). cbn [tot fold_right]. fold (tot f (set l i x)). fold (tot f l). lia.
Qed.
Lemma tot_ge {A} (f : A -> nat) l i y : nth_error l i = Some y -> f y <= tot f l.
Proof. revert i. induction l as [|a l IH]; intros [|i] H; try discriminate; cbn [nth_error] in H; cbn [tot fold_right]; fold (tot f l). injection H as ->. lia. specialize (IH i H). lia. Qed.
Lemma tot_repeat {A} (f : A -> nat) a n : f a = 0 -> tot f (repeat a n) = 0.
Proof. intros H. induction n as [|n IH]; [reflexivity|]. cbn [repeat tot fold_right]. fold (tot f (repeat a n)). lia. Qed.
Lemma tot_zero {A} (f : A -> nat) l : (forall i x, nth_error l i = Some x -> f x = 0) -> tot f l = 0.
Proof. induction l as [|a l IH]; intros H; [reflexivity|]. cbn [tot fold_right]. fold (tot f l). rewrite IH by (intros i x Hi; exact (H (S i) x Hi)). rewrite (H 0 a eq_refl). reflexivity. Qed.
Lemma tot_pos {A} (f : A -> nat) l : 0 < tot f l -> exists i x, nth_error l i = Some x /\ 0 < f x.
Proof.
  induction l as [|a l IH]; [cbn; lia|]. cbn [tot fold_right]. fold (tot f l). intros H. destruct (f a) eqn:E.
  - destruct IH as (i & x & Hi & Hx); [lia|]. exists (S i), x. auto.
  - exists 0, a. split; [reflexivity|lia].
Qed.

(** ** References to a slot *)
Definition same (a b : nat) : nat := if Nat.eqb a b then 1 else 0.
Definition cell (s : nat) (o : option nat) : nat := match o with Some s' => same s s' | None => 0 end.
(** not begun *)
Definition w_new (s : nat) (w : worker) : nat := match w with W_took (Some s') | W_run s' => same s s' | _ => 0 end.
Definition m_new (s : nat) (m : main) : nat :=
  match m with M_try s' | M_block s' | M_claim _ s' | M_store _ s' _ | M_run s' _ => same s s' | _ => 0 end.
(** in the procedure *)
Definition w_in (s : nat) (w : worker) : nat := match w with W_running s' _ => same s s' | _ => 0 end.
Definition m_in (s : nat) (m : main) : nat := match m with M_running s' _ _ => same s s' | _ => 0 end.
(** after it *)
Definition w_out (s : nat) (w : worker) : nat := match w with W_ran s' _ => same s s' | _ => 0 end.
Definition m_out (s : nat) (m : main) : nat := match m with M_ran s' _ => same s s' | _ => 0 end.
(** before SetEvent *)
Definition w_late (s : nat) (w : worker) : nat := match w with W_set s' _ => same s s' | _ => 0 end.
Definition m_late (s : nat) (m : main) : nat := match m with M_set s' _ => same s s' | _ => 0 end.
Definition c_new (t : state) (s : nat) : nat :=
  tot (cell s) (ring (wq t)) + tot (cell s) (ring (dq t)) + tot (same s) (arr t) + tot (w_new s) (workers t) + m_new s (main_at t).
Definition c_in (t : state) (s : nat) : nat := tot (w_in s) (workers t) + m_in s (main_at t).
Definition c_out (t : state) (s : nat) : nat := tot (w_out s) (workers t) + m_out s (main_at t).
Definition c_late (t : state) (s : nat) : nat := tot (w_late s) (workers t) + m_late s (main_at t).
(** the main thread is putting it into a queue *)
Definition pushing (s : nat) (m : main) : nat :=
  match m with M_try s' | M_block s' | M_claim _ s' | M_store _ s' _ | M_pos _ s' _ => same s s' | _ => 0 end.
Definition resetting (s : nat) (m : main) : nat := match m with M_reset s' _ => same s s' | _ => 0 end.
(** it is in a queue *)
Definition placed (s : nat) (m : main) : nat := match m with M_pos _ s' _ => same s s' | _ => 0 end.
Definition work_of (t : state) (s : nat) : option nat := x <- nth_error (slots t) s ;; work x.


(** What has happened to work [w], as numbers *)
Definition hD (l : list event) (w : nat) : nat := tot (fun e => match e with Dispatched v => same w v | _ => 0 end) l.
Definition hS (l : list event) (w : nat) : nat := tot (fun e => match e with Started v => same w v | _ => 0 end) l.
Definition hF (l : list event) (w : nat) : nat := tot (fun e => match e with Finished v => same w v | _ => 0 end) l.
Definition hW (l : list event) (w : nat) : nat := tot (fun e => match e with Withdrawn v => same w v | _ => 0 end) l.
Definition hX (l : list event) (w : nat) : nat := tot (fun e => match e with Freed v => same w v | _ => 0 end) l.
Lemma same_refl s : same s s = 1.
Proof. unfold same. rewrite Nat.eqb_refl. reflexivity. Qed.
Lemma same_ne s s' : s <> s' -> same s s' = 0.
Proof. intros H. unfold same. destruct (Nat.eqb_spec s s'); [contradiction|reflexivity]. Qed.
Lemma same_pos s s' : 0 < same s s' -> s = s'.
Proof. unfold same. destruct (Nat.eqb_spec s s'); [auto|lia]. Qed.
Lemma tot_in {A} (f : A -> nat) l x : In x l -> f x <= tot f l.
Proof. intros H. apply In_nth_error in H as [i H]. exact (tot_ge f l i x H). Qed.
Lemma hD_in l w : hD l w > 0 <-> In (Dispatched w) l.
Proof. split; [intros H; apply tot_pos in H as (i & e & Hi & P); destruct e; try (cbn in P; lia); apply same_pos in P as ->; exact (nth_error_In _ _ Hi)|intros H; apply (tot_in (fun e => match e with Dispatched v => same w v | _ => 0 end)) in H; cbn beta iota in H; rewrite same_refl in H; exact H]. Qed.
Lemma hS_in l w : hS l w > 0 <-> In (Started w) l.
Proof. split; [intros H; apply tot_pos in H as (i & e & Hi & P); destruct e; try (cbn in P; lia); apply same_pos in P as ->; exact (nth_error_In _ _ Hi)|intros H; apply (tot_in (fun e => match e with Started v => same w v | _ => 0 end)) in H; cbn beta iota in H; rewrite same_refl in H; exact H]. Qed.
Lemma hF_in l w : hF l w > 0 <-> In (Finished w) l.
Proof. split; [intros H; apply tot_pos in H as (i & e & Hi & P); destruct e; try (cbn in P; lia); apply same_pos in P as ->; exact (nth_error_In _ _ Hi)|intros H; apply (tot_in (fun e => match e with Finished v => same w v | _ => 0 end)) in H; cbn beta iota in H; rewrite same_refl in H; exact H]. Qed.
Lemma hW_in l w : hW l w > 0 <-> In (Withdrawn w) l.
Proof. split; [intros H; apply tot_pos in H as (i & e & Hi & P); destruct e; try (cbn in P; lia); apply same_pos in P as ->; exact (nth_error_In _ _ Hi)|intros H; apply (tot_in (fun e => match e with Withdrawn v => same w v | _ => 0 end)) in H; cbn beta iota in H; rewrite same_refl in H; exact H]. Qed.
Lemma hX_in l w : hX l w > 0 <-> In (Freed w) l.
Proof. split; [intros H; apply tot_pos in H as (i & e & Hi & P); destruct e; try (cbn in P; lia); apply same_pos in P as ->; exact (nth_error_In _ _ Hi)|intros H; apply (tot_in (fun e => match e with Freed v => same w v | _ => 0 end)) in H; cbn beta iota in H; rewrite same_refl in H; exact H]. Qed.

(** ** The invariant of a slot *)
(** [nw], [ni], [no], [nl]: references; flag, event, position; the main thread is pushing, resetting, has placed it; the
    process failed; its work was dispatched, started, finished, withdrawn, freed *)
Definition used (nw ni no nl av sg ev hp pu re pl fa D St F Wd X : nat) : Prop :=
  nw + ni + no <= 1 /\ av = 0 /\ X = 0 /\
  (F > 0 -> St > 0) /\
  (sg > 0 -> F > 0 /\ no = 0) /\
  (ev > 0 -> F > 0 /\ no = 0) /\
  (nl > 0 -> F > 0 /\ no = 0) /\
  (nw > 0 -> St = 0) /\
  (ni > 0 -> St > 0 /\ F = 0) /\
  (no > 0 -> F > 0) /\
  (St > 0 -> ni > 0 \/ F > 0) /\
  (F > 0 -> no > 0 \/ nl > 0 \/ ev > 0) /\
  (Wd > 0 -> re > 0) /\
  (D > 0 -> hp > 0) /\
  (pu > 0 -> hp = 0) /\
  (hp = 0 -> pu = 0 -> nw + ni + no + nl = 0 /\ St = 0) /\
  (fa = 0 -> hp > 0 \/ pl > 0 -> nw > 0 \/ ni > 0 \/ F > 0 \/ Wd > 0).
(** [fr]: how much work was freed *)
Definition unused (nw ni no nl av sg ev hp fr : nat) : Prop := av > 0 /\ sg = 0 /\ hp = 0 /\ nw + ni + no = 0 /\ (fr = 0 -> ev = 0 /\ nl = 0).
Definition hfree (l : list event) : nat := tot (fun e => match e with Freed _ => 1 | _ => 0 end) l.
Definition flag (b : bool) : nat := if b then 1 else 0.
Definition av (t : state) (s : nat) : nat := match nth_error (avail t) s with Some b => flag b | None => 0 end.
Definition hp (x : slot) : nat := match ring_pos x with Some _ => 1 | None => 0 end.
Definition slot_inv (t : state) (s : nat) : Prop :=
  match nth_error (slots t) s with
  | Some x =>
    match work x with
    | Some w => w < next_work t /\
      used (c_new t s) (c_in t s) (c_out t s) (c_late t s) (av t s) (flag (signaled x)) (flag (evt x)) (hp x) (pushing s (main_at t)) (resetting s (main_at t)) (placed s (main_at t)) (flag (fault t))
           (hD (log t) w) (hS (log t) w) (hF (log t) w) (hW (log t) w) (hX (log t) w)
    | None => unused (c_new t s) (c_in t s) (c_out t s) (c_late t s) (av t s) (flag (signaled x)) (flag (evt x)) (hp x) (hfree (log t))
    end
  | None => c_new t s + c_in t s + c_out t s + c_late t s = 0
  end.
(** where the main thread is *)
Definition main_inv (t : state) : Prop :=
  match main_at t with
  | M_ready => True
  | M_try s | M_block s | M_claim _ s | M_store _ s _ | M_pos _ s _ => exists x w, nth_error (slots t) s = Some x /\ work x = Some w
  | M_post _ s => exists x w, nth_error (slots t) s = Some x /\ work x = Some w /\ hp x > 0 /\ hD (log t) w = 0
  | M_wait s w inf => inf = true /\ exists x, nth_error (slots t) s = Some x /\ work x = Some w
  | M_event s w inf => inf = true /\ exists x, nth_error (slots t) s = Some x /\ work x = Some w /\ hp x > 0
  | M_fpop s w | M_fevent s w => exists x, nth_error (slots t) s = Some x /\ work x = Some w /\ hp x > 0
  | M_pop s w | M_run s w | M_free s w | M_ran s w | M_set s w => exists x, nth_error (slots t) s = Some x /\ work x = Some w
  | M_running s w w' => w' = w /\ exists x, nth_error (slots t) s = Some x /\ work x = Some w
  | M_signal s w _ | M_fsignal s w => exists x, nth_error (slots t) s = Some x /\ work x = Some w /\ evt x = true
  | M_reset s w => exists x, nth_error (slots t) s = Some x /\ work x = Some w /\ c_new t s + c_in t s + c_out t s = 0 /\
                   (hD (log t) w > 0 -> hF (log t) w > 0 \/ hW (log t) w > 0)
  end.
Definition about (e : event) : nat := match e with Dispatched w | Started w | Finished w | Withdrawn w | Waited w _ | Freed w => w end.
Record inv (t : state) : Prop := {
  i_slot : forall s, slot_inv t s;
  i_inj : forall s s' x x' w, nth_error (slots t) s = Some x -> work x = Some w -> nth_error (slots t) s' = Some x' -> work x' = Some w -> s = s';
  i_running : forall k s w, nth_error (workers t) k = Some (W_running s w) -> exists x, nth_error (slots t) s = Some x /\ work x = Some w;
  i_main : main_inv t;
  i_log : history_ok (log t);
  i_lt : forall e, In e (log t) -> about e < next_work t;
  i_all : forall w, w < next_work t -> (exists s x, nth_error (slots t) s = Some x /\ work x = Some w) \/ In (Freed w) (log t);
  i_len : length (avail t) = length (slots t)
}.
Lemma history_snoc l e : history_ok l -> event_ok l e -> history_ok (l ++ [e]).
Proof.
  intros H He b e' a E. destruct a as [|a0 a'] using rev_ind.
  - apply app_inj_tail in E as [-> ->]. exact He.
  - rewrite app_comm_cons, app_assoc in E. apply app_inj_tail in E as [E _]. exact (H b e' a' E).
Qed.
(** A slot the step does not concern *)
Lemma slot_frame t t' s :
  (exists le, log t' = log t ++ le) ->
  nth_error (slots t') s = nth_error (slots t) s -> av t' s = av t s ->
  c_new t' s = c_new t s -> c_in t' s = c_in t s -> c_out t' s = c_out t s -> c_late t' s = c_late t s ->
  pushing s (main_at t') = pushing s (main_at t) -> resetting s (main_at t') = resetting s (main_at t) -> placed s (main_at t') = placed s (main_at t) ->
  (fault t' = false -> fault t = false) -> next_work t <= next_work t' ->
  (forall x w, nth_error (slots t) s = Some x -> work x = Some w ->
     hD (log t') w = hD (log t) w /\ hS (log t') w = hS (log t) w /\ hF (log t') w = hF (log t) w /\ hW (log t') w = hW (log t) w /\ hX (log t') w = hX (log t) w) ->
  slot_inv t s -> slot_inv t' s.
Proof.
  intros [le El] E1 E2 E3 E4 E5 E6 E7 E8 E9 E10 E11 E12 H. unfold slot_inv in *. rewrite E1, E2, E3, E4, E5, E6, E7, E8, E9.
  destruct (nth_error (slots t) s) as [x|] eqn:Ex; [|exact H]. destruct (work x) as [w|] eqn:Ew; [|unfold unused in *; rewrite El; unfold hfree in *; rewrite tot_app; lia].
  destruct (E12 x w eq_refl Ew) as (-> & -> & -> & -> & ->). destruct H as [L H]. split; [lia|].
  unfold used in *. destruct H as (H1 & H2 & H3 & H4 & H5 & H6 & H7 & H8 & H9 & H10 & H11 & H12 & H13 & H14 & H15 & H16 & H17).
  repeat (split; [assumption|]). intros Hf. apply H17. destruct (fault t'), (fault t); try discriminate; try reflexivity. specialize (E10 eq_refl). discriminate.
Qed.
