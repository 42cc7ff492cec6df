(** A check of a decidable statement about every codepoint, and what it needs about the layout of the tables. *)
From Coq Require Import Arith NArith ZArith List Bool Lia ZifyBool ZifyNat ZifyN.
From Verif Require Import Base UcdData UcdModel.
Import ListNotations.
Local Open Scope N_scope.

Lemma blocks_128 : forallb (fun b => (length b =? 128)%nat) stage_two_blocks = true.
Proof. vm_compute. reflexivity. Qed.
Lemma nth_concat {A} (bs : list (list A)) : forall k o d, forallb (fun b => (length b =? d)%nat) bs = true -> (o < d)%nat ->
  nth_error (concat bs) (k * d + o) = match nth_error bs k with Some b => nth_error b o | None => None end.
Proof.
  induction bs as [|b bs IH]; intros k o d H L; cbn [concat forallb] in *.
  - destruct k; destruct (_ + _)%nat; reflexivity.
  - apply andb_prop in H as [Hb H]. apply Nat.eqb_eq in Hb. destruct k as [|k]; cbn [nth_error].
    + rewrite nth_error_app1 by lia. f_equal. 
    + rewrite nth_error_app2 by nia. rewrite <- (IH k o d H L). f_equal. nia.
Qed.

Fixpoint iota (n : nat) (from : N) : list N := match n with O => [] | S n' => from :: iota n' (from + 1) end.
Lemma iota_nth : forall n from k, (k < n)%nat -> nth_error (iota n from) k = Some (from + N.of_nat k).
Proof.
  induction n as [|n IH]; intros from k L; [lia|]. destruct k as [|k]; cbn [iota nth_error].
  - f_equal. lia.
  - rewrite IH by lia. f_equal. lia.
Qed.
Lemma iota_in n from x : (from <= x < from + N.of_nat n)%N -> In x (iota n from).
Proof.
  intros H. apply (nth_error_In _ (N.to_nat (x - from))). rewrite iota_nth by lia. f_equal. lia.
Qed.
Lemma iota_length n : forall from, length (iota n from) = n.
Proof. induction n; intros; cbn [iota length]; [reflexivity|]. f_equal. auto. Qed.

(** The entry numbers of one block of 128 codepoints. *)
Definition row (b : N) : option (list N) :=
  k <- tmu_get_stage_one_value_internal b ;;
  if k <? 210 then nth_error stage_two_blocks (N.to_nat k)
  else if k <? 258 then Some (map (stage_two_alternative (k - 210)) (iota 128 0)) else None.
Fixpoint check_row (P : N -> N * N * N * Z -> bool) (cp : N) (r : list N) : bool :=
  match r with
  | [] => true
  | e :: r' => match nth_error tmu_ucd_entries (N.to_nat e) with Some x => P cp x | None => false end && check_row P (cp + 1) r'
  end.
Definition check (P : N -> N * N * N * Z -> bool) : bool :=
  forallb (fun b => match row b with Some r => (length r =? 128)%nat && check_row P (b * 128) r | None => false end) (iota (N.to_nat 8704) 0).

Lemma check_row_spec P : forall r cp k e, check_row P cp r = true -> nth_error r k = Some e ->
  exists x, nth_error tmu_ucd_entries (N.to_nat e) = Some x /\ P (cp + N.of_nat k) x = true.
Proof.
  induction r as [|e0 r IH]; intros cp k e H Q; [destruct k; discriminate|].
  cbn [check_row] in H. apply andb_prop in H as [H0 H]. destruct k as [|k]; cbn [nth_error] in Q.
  - injection Q as ->. destruct (nth_error tmu_ucd_entries (N.to_nat e)) as [x|]; [|discriminate].
    exists x. split; [reflexivity|]. rewrite N.add_0_r. exact H0.
  - destruct (IH _ _ _ H Q) as [x [E1 E2]]. exists x. split; [exact E1|].
    replace (cp + N.of_nat (S k)) with (cp + 1 + N.of_nat k) by lia. exact E2.
Qed.
Theorem check_spec P : check P = true -> forall cp, cp <= 1114111 -> exists x, tmu_get_ucd_internal cp = Some x /\ P cp x = true.
Proof.
  intros C cp L. unfold check in C. rewrite forallb_forall in C.
  assert (B : cp / 128 < 8704) by (apply N.div_lt_upper_bound; lia).
  assert (D := N.div_mod cp 128 ltac:(lia)). assert (M := N.mod_lt cp 128 ltac:(lia)).
  assert (I : In (cp / 128) (iota (N.to_nat 8704) 0)) by (apply iota_in; rewrite N2Nat.id; split; [apply N.le_0_l|exact B]).
  specialize (C (cp / 128) I). clear I.
  unfold tmu_get_ucd_internal, assert_. rewrite (proj2 (N.leb_le cp 1114111) L).
  unfold row in C. destruct (tmu_get_stage_one_value_internal (cp / 128)) as [k|]; [|discriminate].
  set (q := cp / 128) in *. set (o := cp mod 128) in *. clearbody q o.
  unfold tmu_get_stage_two_value_internal, assert_.
  assert (O : (o <? 128) = true) by lia. rewrite O.
  destruct (k <? 210) eqn:K.
  - assert (K2 : (k <? 258) = true) by lia. rewrite K2.
    replace (N.to_nat (k * 128 + o)) with (N.to_nat k * 128 + N.to_nat o)%nat by lia.
    unfold tmu_ucd_stage_two. rewrite (nth_concat _ _ _ _ blocks_128) by lia.
    destruct (nth_error stage_two_blocks (N.to_nat k)) as [r|]; [|discriminate].
    apply andb_prop in C as [C1 C2]. apply Nat.eqb_eq in C1.
    destruct (nth_error r (N.to_nat o)) as [e|] eqn:E; [|apply nth_error_None in E; lia].
    destruct (check_row_spec P r _ _ e C2 E) as [x [X1 X2]]. exists x. split; [exact X1|].
    replace (q * 128 + N.of_nat (N.to_nat o)) with cp in X2 by lia. exact X2.
  - destruct (k <? 258) eqn:K2; [|discriminate]. apply andb_prop in C as [C1 C2].
    assert (E : nth_error (map (stage_two_alternative (k - 210)) (iota 128 0)) (N.to_nat o) = Some (stage_two_alternative (k - 210) o)).
    { rewrite (map_nth_error _ _ _ (iota_nth 128 0 (N.to_nat o) ltac:(lia))). do 2 f_equal. lia. }
    destruct (check_row_spec P _ _ _ _ C2 E) as [x [X1 X2]]. exists x. split; [exact X1|].
    replace (q * 128 + N.of_nat (N.to_nat o)) with cp in X2 by lia. exact X2.
Qed.

(** Every lookup succeeds and its fields are values of their enumerations. *)
Lemma ucd_total_check : check (fun cp x => let '(b0, b1, full, off) := x in
  (N.land b0 7 <=? 6) && (N.land (N.shiftr b0 3) 3 <=? 3) && (N.land b1 15 <=? 14)
  && match read_run (skipn (N.to_nat full) tmu_codepoint_runs) with Some _ => true | None => false end) = true.
Proof. vm_compute. reflexivity. Qed.

(** What the checks say, as booleans on one codepoint. *)
Definition scalarb (c : N) : bool := (c <? 55296) || ((57344 <=? c) && (c <=? 1114111)).
Definition utf8_size (c : N) : N := if c <? 128 then 1 else if c <? 2048 then 2 else if c <? 65536 then 3 else 4.
Definition digitb (c : N) : bool := (48 <=? c) && (c <=? 57).
Definition sum (l : list N) : N := fold_right N.add 0 l.

Lemma simple_check : check (fun cp x => let '(b0, b1, full, off) := x in
  if (off =? 0)%Z then true else
  let f := add_i32 cp off in
  (f <=? 1114111) && Bool.eqb (scalarb f) (scalarb cp) && (2 * utf8_size f <=? 3 * utf8_size cp)
  && negb (digitb f) && negb (digitb cp)
  && match tmu_get_ucd_internal f with Some (_, _, full', off') => (off' =? 0)%Z | None => false end) = true.
Proof. vm_compute. reflexivity. Qed.
Lemma full_check : check (fun cp x => let '(b0, b1, full, off) := x in
  if (full =? 0) && (off =? 0)%Z then true else
  match (if full =? 0 then Some [add_i32 cp off] else read_run (skipn (N.to_nat full) tmu_codepoint_runs)) with
  | Some l =>
      negb (match l with [] => true | _ => false end) && (length l <=? 3)%nat && (sum (map utf8_size l) <=? 3 * utf8_size cp)
      && negb (digitb cp) && scalarb cp
      && forallb (fun c => negb (digitb c) && scalarb c
                           && match tmu_get_ucd_internal c with Some (_, _, full', off') => (full' =? 0) && (off' =? 0)%Z | None => false end) l
  | None => false
  end) = true.
Proof. vm_compute. reflexivity. Qed.
