(** The text side of scan_double: which digits go where. *)
From Coq Require Import ZArith NArith List Bool Lia ZifyBool ZifyNat ZifyN.
From Verif Require Import Base CTypeModel DigitsSpec DigitsProofs ConvModel ConvScan Fp DblModel DblSpec.
Import ListNotations.
Local Open Scope N_scope.

(** * Digits of a text with at most one point *)

Definition digs (p : list N) : list N := map (fun c => c - 48) (filter (fun c => negb (c =? 46)) p).
Definition points (p : list N) : nat := length (filter (fun c => c =? 46) p).
Definition dot_ok (p : list N) : Prop := Forall (fun c => is_digit c = true \/ c = 46) p /\ (points p <= 1)%nat.

Fixpoint drop_digits (n : nat) (p : list N) : list N :=
  match n with
  | O => p
  | S n' =>
    match p with
    | [] => []
    | c :: r => if c =? 46 then match r with [] => [] | _ :: r' => drop_digits n' r' end else drop_digits n' r
    end
  end.

Lemma digs_digit : forall c r, is_digit c = true -> digs (c :: r) = (c - 48) :: digs r.
Proof.
  intros c r H. unfold digs. cbn [filter]. unfold is_digit in H.
  destruct (N.eqb_spec c 46); [lia|]. reflexivity.
Qed.
Lemma digs_dot : forall r, digs (46 :: r) = digs r.
Proof. reflexivity. Qed.
Lemma digs_app : forall a b, digs (a ++ b) = digs a ++ digs b.
Proof. intros. unfold digs. now rewrite filter_app, map_app. Qed.
Lemma points_digit : forall c r, is_digit c = true -> points (c :: r) = points r.
Proof.
  intros c r H. unfold points. cbn [filter]. unfold is_digit in H.
  destruct (N.eqb_spec c 46); [lia|]. reflexivity.
Qed.
Lemma points_dot : forall r, points (46 :: r) = S (points r).
Proof. reflexivity. Qed.
Lemma points_app : forall a b, points (a ++ b) = (points a + points b)%nat.
Proof. intros. unfold points. now rewrite filter_app, app_length. Qed.
Lemma dot_ok_tail : forall c r, dot_ok (c :: r) -> dot_ok r.
Proof.
  intros c r [F P]. inversion F as [|? ? [H|H] F']; subst.
  - rewrite points_digit in P by assumption. split; assumption.
  - rewrite points_dot in P. split; [assumption|lia].
Qed.
Lemma dot_ok_after_dot : forall r, dot_ok (46 :: r) -> Forall (fun c => is_digit c = true) r.
Proof.
  intros r [F P]. inversion F as [|? ? H F']; subst. rewrite points_dot in P.
  assert (P0 : points r = 0%nat) by lia. clear -F' P0.
  induction F' as [|c r [H|H] F' IH]; constructor; [assumption| | |].
  - apply IH. now rewrite points_digit in P0.
  - subst c. rewrite points_dot in P0. discriminate.
  - subst c. rewrite points_dot in P0. discriminate.
Qed.
Lemma dot_ok_skipn : forall n p, dot_ok p -> dot_ok (skipn n p).
Proof.
  induction n as [|n IH]; intros p D; [assumption|]. destruct p as [|c r]; [assumption|].
  cbn [skipn]. apply IH. eapply dot_ok_tail, D.
Qed.
Lemma dot_ok_drop : forall n p, dot_ok p -> dot_ok (drop_digits n p).
Proof.
  induction n as [|n IH]; intros p D; [assumption|]. destruct p as [|c r]; [assumption|].
  pose proof (dot_ok_tail _ _ D) as D'. cbn [drop_digits]. destruct (c =? 46); [|apply IH, D'].
  destruct r as [|c' r']; [assumption|]. apply IH. eapply dot_ok_tail, D'.
Qed.
Lemma digs_lt : forall p, dot_ok p -> Forall (fun d => d < 10) (digs p).
Proof.
  intros p [F _]. induction F as [|c r [H|H] F IH]; [constructor| |].
  - rewrite digs_digit by assumption. constructor; [unfold is_digit in H; lia|assumption].
  - subst c. assumption.
Qed.
Lemma digs_drop : forall n p, dot_ok p -> (n <= length (digs p))%nat -> digs (drop_digits n p) = skipn n (digs p).
Proof.
  induction n as [|n IH]; intros p D L; [reflexivity|]. destruct p as [|c r]; [reflexivity|].
  pose proof (dot_ok_tail _ _ D) as D'. cbn [drop_digits].
  destruct D as [F P]. inversion F as [|? ? [H|H] F']; subst.
  - rewrite digs_digit in * by assumption. cbn [skipn length] in *.
    assert (E : c =? 46 = false) by (unfold is_digit in H; lia). rewrite E. apply IH; [assumption|lia].
  - rewrite digs_dot in *. cbn [N.eqb Pos.eqb].
    pose proof (dot_ok_after_dot r (conj F P)) as FD. destruct r as [|c' r']; [reflexivity|].
    inversion FD as [|? ? Hc FD']; subst. rewrite digs_digit in * by assumption. cbn [skipn length] in *.
    apply IH; [eapply dot_ok_tail, D'|lia].
Qed.

(** * scan_ScanMantissa *)

Lemma number_firstn_S : forall n d ds, number 10 (firstn (S n) (d :: ds)) =
  d * 10 ^ N.of_nat (length (firstn n ds)) + number 10 (firstn n ds).
Proof. intros. cbn [firstn]. apply number_cons. Qed.

Lemma int32_ok : forall z, (0 <= z <= 2147483647)%Z -> int32 z = Some z.
Proof.
  intros z H. unfold int32, assert_. destruct (Z.leb_spec (-2147483648) z); [|lia].
  destruct (Z.leb_spec z 2147483647); [reflexivity|lia].
Qed.

Lemma scan_part_text : forall n p rest part, dot_ok p -> (n <= length (digs p))%nat -> (0 <= part)%Z ->
  ((part + 1) * 10 ^ Z.of_nat n <= 1000000000)%Z ->
  scan_MantissaPart n (p ++ rest) part =
    Some (part * 10 ^ Z.of_nat n + Z.of_N (number 10 (firstn n (digs p))), drop_digits n p ++ rest)%Z.
Proof.
  induction n as [|n IH]; intros p rest part D L P0 B.
  - cbn [scan_MantissaPart firstn drop_digits]. do 2 f_equal. cbn. lia.
  - rewrite Nat2Z.inj_succ, Z.pow_succ_r in B by lia.
    assert (Hp : (0 < 10 ^ Z.of_nat n)%Z) by (apply Z.pow_pos_nonneg; lia).
    assert (Digit : forall c r, is_digit c = true -> dot_ok r -> (n <= length (digs r))%nat ->
      (t <- int32 (part * 10) ;; part' <- int32 (t + (Z.of_N c - 48))%Z ;;
       str2 <- advance (c :: r ++ rest) 1 ;; scan_MantissaPart n str2 part') =
      Some ((part * 10 ^ Z.of_nat (S n))%Z + Z.of_N (number 10 (firstn (S n) ((c - 48)%N :: digs r))), drop_digits n r ++ rest)%Z).
    { intros c r Hc Dr Lr. unfold is_digit in Hc.
      rewrite int32_ok by nia. rewrite int32_ok by nia.
      unfold advance. cbn [length Nat.leb assert_ skipn].
      rewrite IH; [|assumption|assumption|nia|nia].
      do 2 f_equal. rewrite number_firstn_S, firstn_length_le by assumption.
      rewrite Nat2Z.inj_succ, Z.pow_succ_r by lia.
      rewrite N2Z.inj_add, N2Z.inj_mul, N2Z.inj_pow, nat_N_Z, N2Z.inj_sub by lia. cbn [Z.of_N]. ring. }
    destruct p as [|c r]; [cbn in L; lia|].
    pose proof (dot_ok_tail _ _ D) as D'.
    destruct D as [F P]. inversion F as [|? ? [H|H] F']; subst.
    + rewrite digs_digit in * by assumption. cbn [length] in L.
      assert (E : c =? 46 = false) by (unfold is_digit in H; lia).
      cbn [app scan_MantissaPart deref drop_digits]. rewrite E. apply Digit; [assumption|assumption|lia].
    + rewrite digs_dot in *.
      pose proof (dot_ok_after_dot r (conj F P)) as FD. destruct r as [|c' r']; [cbn in L; lia|].
      inversion FD as [|? ? Hc FD']; subst. rewrite digs_digit in * by assumption. cbn [length] in L.
      cbn [app scan_MantissaPart deref drop_digits N.eqb Pos.eqb advance length Nat.leb assert_ skipn].
      apply Digit; [assumption|eapply dot_ok_tail, D'|lia].
Qed.

(** The double computed for at most 18 digits. *)
Definition mantissa (ds : list N) : double :=
  dadd (dmul (of_int 1000000000) (of_int (Z.of_N (number 10 (firstn (length ds - 9) ds)))))
       (of_int (Z.of_N (number 10 (skipn (length ds - 9) ds)))).

Lemma firstn_firstn_min : forall A (l : list A) n m, (n <= m)%nat -> firstn n (firstn m l) = firstn n l.
Proof. intros. rewrite firstn_firstn. f_equal. lia. Qed.

Lemma drop_drop : forall n m p, drop_digits m (drop_digits n p) = drop_digits (n + m) p.
Proof.
  induction n as [|n IH]; intros m p; [reflexivity|]. destruct p as [|c r]; cbn [drop_digits plus].
  - destruct m; reflexivity.
  - destruct (c =? 46); [|apply IH]. destruct r as [|c' r']; [destruct m; reflexivity|apply IH].
Qed.

Lemma scan_mantissa_text : forall p rest len, dot_ok p -> (len <= length (digs p))%nat ->
  let n := Nat.min 18 len in
  scan_ScanMantissa (p ++ rest) len = Some (mantissa (firstn n (digs p)), drop_digits n p ++ rest).
Proof.
  intros p rest len D L n. unfold scan_ScanMantissa.
  replace (if (18 <? len)%nat then 18%nat else len) with n by (unfold n; destruct (Nat.ltb_spec 18 len); lia).
  assert (Ln : (n <= 18)%nat /\ (n <= length (digs p))%nat) by (unfold n; lia). clearbody n.
  rewrite scan_part_text; [|assumption|lia|lia|].
  2:{ change 1000000000%Z with (10 ^ 9)%Z. rewrite Z.add_0_l, Z.mul_1_l. apply Z.pow_le_mono_r; lia. }
  replace (if (9 <? n)%nat then 9%nat else n) with (n - (n - 9))%nat by (destruct (Nat.ltb_spec 9 n); lia).
  rewrite scan_part_text; [|apply dot_ok_drop, D|rewrite digs_drop by (assumption || lia); rewrite skipn_length; lia|lia|].
  2:{ change 1000000000%Z with (10 ^ 9)%Z. rewrite Z.add_0_l, Z.mul_1_l. apply Z.pow_le_mono_r; lia. }
  rewrite drop_drop. replace (n - 9 + (n - (n - 9)))%nat with n by lia.
  unfold mantissa. rewrite digs_drop by (assumption || lia). rewrite !Z.mul_0_l, !Z.add_0_l.
  rewrite firstn_length_le by lia. rewrite firstn_firstn_min by lia. rewrite skipn_firstn_comm. reflexivity.
Qed.

(** * scan_value *)

Fixpoint zeros (p : list N) (len : nat) {struct len} : nat :=
  match len, p with
  | S len', c :: r => if (c =? 48) || (c =? 46) then S (zeros r len') else O
  | _, _ => O
  end.

Lemma zeros_text : forall len p rest, (len <= length p)%nat -> scan_LeadingZeroes (p ++ rest) len = Some (zeros p len).
Proof.
  induction len as [|len IH]; intros p rest L; [destruct p; destruct rest; reflexivity|]. destruct p as [|c r]; [cbn in L; lia|].
  cbn [app scan_LeadingZeroes zeros length] in *. destruct ((c =? 48) || (c =? 46)); [|reflexivity].
  rewrite IH by lia. reflexivity.
Qed.
Lemma zeros_le : forall len p, (zeros p len <= len)%nat.
Proof.
  induction len as [|len IH]; intros p; destruct p as [|c r]; cbn [zeros]; try lia.
  destruct ((c =? 48) || (c =? 46)); [specialize (IH r)|]; lia.
Qed.

Definition computed_value (p : list N) (negative : bool) (il fl : nat) (e : Z) : option double :=
  let lz := zeros p il in
  let p1 := skipn (if (lz <? il)%nat then lz else il) p in
  let n := if (lz <? il)%nat then Nat.min 18 (il - lz) else O in
  let ip := if (lz <? il)%nat then mantissa (firstn n (digs p1)) else of_int 0 in
  let fp := mantissa (firstn (Nat.min 18 fl) (skipn n (digs p1))) in
  fp' <- str_Pow10 fp (- Z.of_nat fl) ;;
  v <- str_Pow10 (dadd ip fp') e ;;
  Some (if negative then dneg v else v).

Lemma digs_length : forall p, dot_ok p -> length p = (length (digs p) + points p)%nat.
Proof.
  intros p [F _]. induction F as [|c r [H|H] F IH]; [reflexivity| |].
  - rewrite digs_digit, points_digit by assumption. cbn [length]. lia.
  - subst c. rewrite digs_dot, points_dot. cbn [length]. lia.
Qed.

Lemma skipn_app_le : forall A (n : nat) (a b : list A), (n <= length a)%nat -> skipn n (a ++ b) = skipn n a ++ b.
Proof. intros. rewrite skipn_app. replace (n - length a)%nat with 0%nat by lia. reflexivity. Qed.

Lemma advance_text : forall p rest n, (n <= length p)%nat -> advance (p ++ rest) n = Some (skipn n p ++ rest).
Proof.
  intros p rest n L. unfold advance, assert_. destruct (Nat.leb_spec n (length (p ++ rest))).
  - now rewrite skipn_app_le.
  - rewrite app_length in *. lia.
Qed.

Lemma digs_skipn_length : forall n p, dot_ok p -> (n <= length p)%nat -> (length (digs p) - n <= length (digs (skipn n p)))%nat.
Proof.
  induction n as [|n IH]; intros p D L; [cbn [skipn]; lia|]. destruct p as [|c r]; [cbn; lia|].
  cbn [skipn length] in *. pose proof (dot_ok_tail _ _ D) as D'. specialize (IH r D' ltac:(lia)).
  destruct D as [F P]. inversion F as [|? ? [H|H] F']; subst.
  - rewrite digs_digit by assumption. cbn [length]. lia.
  - rewrite digs_dot. lia.
Qed.

Lemma scan_value_text : forall p rest neg il fl e, dot_ok p -> (il + fl)%nat = length (digs p) ->
  scan_value (p ++ rest) neg il fl e = computed_value p neg il fl e.
Proof.
  intros p rest neg il fl e D L. unfold scan_value, computed_value.
  pose proof (digs_length p D) as DL. pose proof (zeros_le il p) as ZL.
  rewrite zeros_text by lia. destruct (Nat.ltb_spec (zeros p il) il) as [H|H].
  - rewrite advance_text by lia.
    pose proof (dot_ok_skipn (zeros p il) p D) as D1.
    pose proof (digs_skipn_length (zeros p il) p D ltac:(lia)) as L1.
    rewrite scan_mantissa_text by (assumption || lia).
    rewrite scan_mantissa_text; [|apply dot_ok_drop, D1|rewrite digs_drop by (assumption || lia); rewrite skipn_length; lia].
    rewrite digs_drop by (assumption || lia). reflexivity.
  - rewrite advance_text by lia.
    pose proof (dot_ok_skipn il p D) as D1.
    pose proof (digs_skipn_length il p D ltac:(lia)) as L1.
    rewrite scan_mantissa_text by (assumption || lia). reflexivity.
Qed.
