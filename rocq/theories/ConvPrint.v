(** Digit counts and integer printing (tm_conversion.h 1931-2560). *)
From Coq Require Import NArith ZArith String List Bool Lia ZifyBool ZifyNat ZifyN.
From Verif Require Import Base Tactics CTypeModel U128Scan U128Text DigitsSpec DigitsProofs ConvModel ConvSpec.
Import ListNotations.
Local Open Scope N_scope.

(** * Digit counts *)
Lemma is_digit_count_intro : forall b v (k : nat) lo hi, (1 <= k)%nat -> b ^ N.of_nat k = hi ->
  b ^ N.of_nat (k - 1) = lo -> (k = 1%nat \/ lo <= v) -> v < hi -> is_digit_count b v k.
Proof. intros b v k lo hi H1 E1 E2 L Hi. split; [assumption|]. rewrite E1, E2. split; [assumption|]. lia. Qed.

Ltac count_case := match goal with |- is_digit_count ?b ?v ?k =>
  let hi := eval vm_compute in (b ^ N.of_nat k) in
  let lo := eval vm_compute in (b ^ N.of_nat (k - 1)) in
  apply (is_digit_count_intro b v k lo hi); [lia|reflexivity|reflexivity|lia|lia] end.

Lemma decimal_count_12 : forall v, v < 1000000000000 -> forall f,
  exists k, digits_count_decimal_u64 (S f) v = Some k /\ is_digit_count 10 v k.
Proof.
  intros v H f. cbn [digits_count_decimal_u64].
  destruct (N.ltb_spec v 10); [exists 1%nat; split; [reflexivity|count_case]|].
  destruct (N.ltb_spec v 100); [exists 2%nat; split; [reflexivity|count_case]|].
  destruct (N.ltb_spec v 1000); [exists 3%nat; split; [reflexivity|count_case]|].
  destruct (N.ltb_spec v 1000000000000); [|lia].
  destruct (N.ltb_spec v 100000000); [destruct (N.ltb_spec v 1000000); [destruct (N.ltb_spec v 10000)|]|
    destruct (N.ltb_spec v 10000000000)].
  - exists 4%nat; split; [reflexivity|count_case].
  - destruct (N.leb_spec 100000 v); [exists 6%nat|exists 5%nat];
      (split; [reflexivity|count_case]).
  - destruct (N.leb_spec 10000000 v); [exists 8%nat|exists 7%nat];
      (split; [reflexivity|count_case]).
  - destruct (N.leb_spec 1000000000 v); [exists 10%nat|exists 9%nat];
      (split; [reflexivity|count_case]).
  - destruct (N.leb_spec 100000000000 v); [exists 12%nat|exists 11%nat];
      (split; [reflexivity|count_case]).
Qed.

Lemma count_mul : forall b v k (j : nat), 2 <= b -> b ^ N.of_nat j <= v ->
  is_digit_count b (v / b ^ N.of_nat j) k -> is_digit_count b v (k + j).
Proof.
  intros b v k j Hb Hv (K1 & K2 & K3).
  assert (P : b ^ N.of_nat j <> 0) by (apply N.pow_nonzero; lia).
  assert (E : forall n : nat, b ^ N.of_nat (n + j) = b ^ N.of_nat n * b ^ N.of_nat j).
  { intros n. rewrite Nat2N.inj_add, N.pow_add_r. reflexivity. }
  pose proof (N.div_mod v _ P) as D. pose proof (N.mod_lt v _ P) as L.
  set (q := v / b ^ N.of_nat j) in *. set (r := v mod b ^ N.of_nat j) in *.
  split; [lia|]. split.
  - rewrite E. nia.
  - intros _. replace (k + j - 1)%nat with ((k - 1) + j)%nat by lia. rewrite E.
    destruct (Nat.eq_dec k 1) as [->|Hk].
    + change (N.of_nat (1 - 1)) with 0. rewrite N.pow_0_r. lia.
    + specialize (K3 ltac:(lia)). nia.
Qed.

Lemma decimal_count_u64 : forall v, v < W64 ->
  exists k, get_digits_count_decimal_u64 v = Some k /\ is_digit_count 10 v k.
Proof.
  intros v H. unfold get_digits_count_decimal_u64.
  destruct (N.lt_ge_cases v 1000000000000) as [L|L]; [now apply decimal_count_12|].
  destruct (decimal_count_12 (v / 1000000000000)) with (f := 0%nat) as (k & E & K).
  { apply N.div_lt_upper_bound; lia. }
  change (digits_count_decimal_u64 2 v) with
   (if v <? 10 then Some 1%nat
    else if v <? 100 then Some 2%nat
    else if v <? 1000 then Some 3%nat
    else if v <? 1000000000000 then
      if v <? 100000000 then
        if v <? 1000000 then
          if v <? 10000 then Some 4%nat
          else Some (5 + N.to_nat (b2n (100000 <=? v)%N))%nat
        else Some (7 + N.to_nat (b2n (10000000 <=? v)%N))%nat
      else if v <? 10000000000 then Some (9 + N.to_nat (b2n (1000000000 <=? v)%N))%nat
      else Some (11 + N.to_nat (b2n (100000000000 <=? v)%N))%nat
    else k <- digits_count_decimal_u64 1 (v / 1000000000000) ;; Some (12 + k)%nat).
  destruct (N.ltb_spec v 10); [lia|]. destruct (N.ltb_spec v 100); [lia|]. destruct (N.ltb_spec v 1000); [lia|].
  destruct (N.ltb_spec v 1000000000000); [lia|]. rewrite E. exists (12 + k)%nat. split; [reflexivity|].
  rewrite Nat.add_comm. apply count_mul; [lia|exact L|exact K].
Qed.

Lemma decimal_count_u32 : forall v, v < W32 ->
  exists k, get_digits_count_decimal_u32 v = Some k /\ is_digit_count 10 v k.
Proof.
  intros v H. unfold get_digits_count_decimal_u32.
  destruct (N.ltb_spec v 10); [exists 1%nat; split; [reflexivity|count_case]|].
  destruct (N.ltb_spec v 100); [exists 2%nat; split; [reflexivity|count_case]|].
  destruct (N.ltb_spec v 1000); [exists 3%nat; split; [reflexivity|count_case]|].
  destruct (N.ltb_spec v 100000000); [destruct (N.ltb_spec v 1000000); [destruct (N.ltb_spec v 10000)|]|].
  - exists 4%nat; split; [reflexivity|count_case].
  - destruct (N.leb_spec 100000 v); [exists 6%nat|exists 5%nat];
      (split; [reflexivity|count_case]).
  - destruct (N.leb_spec 10000000 v); [exists 8%nat|exists 7%nat];
      (split; [reflexivity|count_case]).
  - destruct (N.leb_spec 1000000000 v); [exists 10%nat|exists 9%nat];
      (split; [reflexivity|count_case]).
Qed.

Lemma shiftr4 : forall v, N.shiftr v 4 = v / 16. Proof. intros. now rewrite N.shiftr_div_pow2. Qed.

Lemma hex_count_loop_correct : forall f v r, v < 16 ^ N.of_nat (S f) ->
  exists k, hex_count_loop (S f) v r = Some (r + k)%nat /\ is_digit_count 16 v k.
Proof.
  induction f as [|f IH]; intros v r H.
  all: change (hex_count_loop (S ?g) v r) with
    (if N.shiftr v 4 =? 0 then Some (S r) else hex_count_loop g (N.shiftr v 4) (S r)); rewrite shiftr4.
  all: destruct (N.eqb_spec (v / 16) 0) as [Z|Z].
  1, 3: exists 1%nat; split; [f_equal; lia|]; apply N.div_small_iff in Z; [|lia];
    count_case.
  - exfalso. apply Z. apply N.div_small. exact H.
  - destruct (IH (v / 16) (S r)) as (k & E & K).
    { apply N.div_lt_upper_bound; [lia|]. rewrite Nat2N.inj_succ, N.pow_succ_r' in H. exact H. }
    rewrite E. exists (k + 1)%nat. split; [f_equal; lia|].
    apply count_mul; [lia| |exact K]. change (16 ^ N.of_nat 1) with 16.
    destruct (N.le_gt_cases 16 v); [assumption|]. exfalso. apply Z. now apply N.div_small.
Qed.

Lemma hex_count_correct : forall v, v < W64 ->
  exists k, get_digits_count_hex v = Some k /\ is_digit_count 16 v k.
Proof.
  intros v H. destruct (hex_count_loop_correct 15 v 0) as (k & E & K); [exact H|]. exists k. split; assumption.
Qed.

Lemma count_loop_correct : forall fuel b v r, 2 <= b -> b <= 36 -> v < b ^ 4 * 16 ^ N.of_nat fuel ->
  exists k, count_loop (S fuel) b (b * b) (b * b * b) (b ^ 4) v (S r) = Some (r + k)%nat /\
     is_digit_count b v k.
Proof.
  induction fuel as [|fuel IH]; intros b v r H1 H2 Hv.
  all: change (count_loop (S ?f) ?p1 ?p2 ?p3 ?p4 v (S r)) with
    (if v <? p4 then Some (S r + N.to_nat (b2n (p1 <=? v)%N) + N.to_nat (b2n (p2 <=? v)%N)
            + N.to_nat (b2n (p3 <=? v)%N))%nat
     else if p4 =? 0 then None else count_loop f p1 p2 p3 p4 (v / p4) (S r + 4)).
  all: destruct (N.ltb_spec v (b ^ 4)) as [L|L].
  1, 3: eexists; split; [|now apply small_count]; f_equal; lia.
  - rewrite N.pow_0_r in Hv. lia.
  - assert (B4 : 16 <= b ^ 4) by (change 16 with (2 ^ 4); apply N.pow_le_mono_l; lia).
    destruct (N.eqb_spec (b ^ 4) 0); [lia|].
    destruct (IH b (v / b ^ 4) (r + 4)%nat H1 H2) as (k & Ek & K).
    { apply N.div_lt_upper_bound; [lia|].
      rewrite Nat2N.inj_succ, N.pow_succ_r' in Hv. nia. }
    exists (k + 4)%nat. split.
    + change (S r + 4)%nat with (S (r + 4)). rewrite Ek. f_equal. lia.
    + now apply count_step.
Qed.

Lemma get_digits_count_correct : forall v b, 2 <= b -> b <= 36 -> v < W64 ->
  exists k, get_digits_count v b = Some k /\ is_digit_count b v k.
Proof.
  intros v b H1 H2 Hv. unfold get_digits_count, assert_.
  destruct (N.leb_spec 2 b); [|lia]. destruct (N.leb_spec b 36); [|lia]. cbn [andb].
  assert (P2 : w32 (b * b) = b * b) by (unfold w32; apply N.mod_small; nia).
  assert (B3 : b * b * b <= 46656) by nia.
  assert (P3 : w32 (b * b * b) = b * b * b) by (unfold w32; apply N.mod_small; lia).
  assert (B4 : b * b * b * b <= 1679616) by nia.
  assert (P4 : w32 (b * b * b * b) = b ^ 4).
  { unfold w32. rewrite N.mod_small by lia.
    change 4 with (N.succ (N.succ (N.succ 1))). rewrite !N.pow_succ_r', N.pow_1_r. lia. }
  cbv zeta. rewrite P2, P3, P4.
  destruct (count_loop_correct 16 b v 0 H1 H2) as (k & E & K).
  - change (16 ^ N.of_nat 16) with W64.
    assert (b ^ 4 <> 0) by (apply N.pow_nonzero; lia). nia.
  - exists k. split; [exact E|exact K].
Qed.

(** * Writing *)
Lemma write1_some : forall buf p c, (p < length buf)%nat ->
  write1 buf (S p) c = Some (firstn p buf ++ c :: skipn (S p) buf).
Proof. intros. unfold write1. now apply write_some. Qed.

Lemma write2_some : forall buf p c1 c0, (S p < length buf)%nat ->
  write2 buf (S (S p)) c1 c0 = Some (firstn p buf ++ c1 :: c0 :: skipn (S (S p)) buf).
Proof.
  intros buf p c1 c0 H. unfold write2. rewrite write_some by assumption.
  rewrite write_some by (rewrite app_length, firstn_length; lia). f_equal. f_equal.
  - rewrite firstn_app, firstn_firstn, firstn_length. replace (p - Nat.min (S p) (length buf))%nat with 0%nat by lia.
    rewrite firstn_O, app_nil_r. f_equal. lia.
  - f_equal. rewrite skipn_app, firstn_length.
    replace (S p - Nat.min (S p) (length buf))%nat with 0%nat by lia.
    rewrite skipn_all2 by (rewrite firstn_length; lia). reflexivity.
Qed.

Lemma number_table_digit : forall lc d, d < 36 -> nth_error (number_table lc) (N.to_nat d) = Some (digit_char lc d).
Proof. intros lc d H. exact (table_digit lc d H). Qed.

Lemma double_table : forall lc v, v < 100 ->
  nth_error double_digits_table (N.to_nat (v * 2 + 1)) = Some (digit_char lc (v mod 10)) /\
  nth_error double_digits_table (N.to_nat (v * 2)) = Some (digit_char lc (v / 10)).
Proof.
  intros lc v H.
  pose (P := fun v => match nth_error double_digits_table (N.to_nat (v * 2 + 1)),
    nth_error double_digits_table (N.to_nat (v * 2)) with
    Some a, Some b => (a =? digit_char lc (v mod 10)) && (b =? digit_char lc (v / 10)) | _, _ => false end).
  assert (E : P v = true).
  { apply (forall_lt_N 100); [destruct lc; vm_compute; reflexivity|exact H]. }
  unfold P in E. destruct (nth_error double_digits_table (N.to_nat (v * 2 + 1))); [|discriminate].
  destruct (nth_error double_digits_table (N.to_nat (v * 2))); [|discriminate].
  apply andb_true_iff in E as [E1 E2]. apply N.eqb_eq in E1, E2. now subst.
Qed.

Lemma digit_char_decimal : forall lc d, d < 10 -> digit_char lc d = 48 + d.
Proof.
  intros lc d H. apply N.eqb_eq.
  apply (forall_lt_N 10 (fun d => digit_char lc d =? 48 + d)); [destruct lc; vm_compute; reflexivity|exact H].
Qed.

(** What an unsigned print function does: nothing if the text is too long. *)
Definition printed (text buf : list N) (maxlen : nat) : conv * list N :=
  if (length text <=? maxlen)%nat
  then (Conv (length text) OK, text ++ skipn (length text) buf)
  else (Conv maxlen EOVERFLOW, buf).

Lemma printed_report : forall text buf maxlen, report_print text buf maxlen (printed text buf maxlen).
Proof.
  intros. unfold report_print, printed. destruct (length text <=? maxlen)%nat; [reflexivity|].
  split; [reflexivity|]. split; reflexivity.
Qed.

Lemma firstn_le_app : forall A (a b : list A) n, (n <= length a)%nat -> firstn n (a ++ b) = firstn n a.
Proof. intros A a b n H. rewrite firstn_app. replace (n - length a)%nat with 0%nat by lia. now rewrite firstn_O, app_nil_r. Qed.

Lemma skipn_eq_app : forall A (a b : list A) n, n = length a -> skipn n (a ++ b) = b.
Proof. intros A a b n ->. rewrite skipn_app, skipn_all, Nat.sub_diag. reflexivity. Qed.

Lemma skipn_plus : forall A n m (l : list A), skipn n (skipn m l) = skipn (m + n) l.
Proof. induction m as [|m IH]; intros l; [reflexivity|]. destruct l; [now rewrite !skipn_nil|apply IH]. Qed.

Section Printing.
  Variables dbg cw : bool.

  Lemma tm_assert_true : forall A b (k : option A), b = true -> tm_assert dbg b k = k.
  Proof using All. intros A b k ->. unfold tm_assert. destruct dbg; reflexivity. Qed.

  (** ** Decimal *)
  Lemma decimal_loop_eq : forall pos buf value, decimal_loop dbg cw pos buf value =
    if (100 <=? value) && (negb cw || (2 <=? pos)%nat) then
      match pos with
      | S (S pos') =>
        let index := (value mod 100) * 2 in
        tm_assert dbg (index <? 200)
        (c0 <- nth_error double_digits_table (N.to_nat (index + 1)) ;;
         c1 <- nth_error double_digits_table (N.to_nat index) ;;
         buf' <- write2 buf pos c1 c0 ;;
         decimal_loop dbg cw pos' buf' (value / 100))
      | _ => None
      end
    else Some (buf, pos, value).
  Proof using All. intros [|pos] buf value; reflexivity. Qed.

  Lemma canonical_split2 : forall b v ds, 2 <= b -> canonical b v ds -> b * b <= v ->
    exists ds', ds = ds' ++ [(v / b) mod b; v mod b] /\ canonical b (v / (b * b)) ds'.
  Proof using.
    intros b v ds Hb C Hv.
    destruct (canonical_split b v ds Hb C) as (d1 & E1 & C1); [nia|].
    destruct (canonical_split b (v / b) d1 Hb C1) as (d2 & E2 & C2).
    { apply N.div_le_lower_bound; lia. }
    exists d2. rewrite N.div_div in C2 by lia. split; [|assumption].
    rewrite E1, E2, <- app_assoc. reflexivity.
  Qed.

  Lemma decimal_loop_correct : forall lc pos ds v buf, canonical 10 v ds -> pos = length ds ->
    (pos <= length buf)%nat ->
    exists ds1 ds2 v', decimal_loop dbg cw pos buf v
        = Some (firstn (length ds1) buf ++ map (digit_char lc) ds2 ++ skipn pos buf, length ds1, v') /\
      ds = ds1 ++ ds2 /\ canonical 10 v' ds1 /\ v' < 100.
  Proof using All.
    intros lc pos. induction pos as [pos IH] using (well_founded_induction lt_wf).
    intros ds v buf C Ep Lb. rewrite decimal_loop_eq.
    destruct (N.leb_spec 100 v) as [Hv|Hv]; cbn [andb].
    2:{ exists ds, [], v. rewrite app_nil_r. subst pos. split; [|auto].
        cbn [map app]. rewrite firstn_skipn. reflexivity. }
    destruct (canonical_split2 10 v ds ltac:(lia) C ltac:(lia)) as (ds' & Ed & C').
    change (10 * 10) with 100 in C'.
    pose proof (canonical_length_pos _ _ _ C') as Lp.
    assert (El : pos = S (S (length ds'))) by (rewrite Ep, Ed, app_length; cbn [length]; lia).
    replace (negb cw || (2 <=? pos)%nat)%bool with true
      by (symmetry; apply orb_true_iff; right; apply Nat.leb_le; lia).
    clear Ep. rewrite El in *. cbv zeta.
    assert (M100 : v mod 100 < 100) by (apply N.mod_lt; lia).
    rewrite tm_assert_true by (apply N.ltb_lt; lia).
    destruct (double_table lc (v mod 100) M100) as [T0 T1]. rewrite T0, T1.
    assert (D1 : (v mod 100) mod 10 = v mod 10).
    { change 100 with (10 * 10). rewrite N.mod_mul_r by lia.
      rewrite (N.mul_comm 10), N.mod_add by lia. apply N.mod_mod. lia. }
    assert (D2 : (v mod 100) / 10 = (v / 10) mod 10).
    { change 100 with (10 * 10). rewrite N.mod_mul_r by lia.
      rewrite (N.mul_comm 10), N.div_add by lia. rewrite N.div_small by (apply N.mod_lt; lia). reflexivity. }
    rewrite D1, D2, write2_some by lia.
    set (c1 := digit_char lc ((v / 10) mod 10)). set (c0 := digit_char lc (v mod 10)).
    destruct (IH (length ds') ltac:(lia) ds' (v / 100)
      (firstn (length ds') buf ++ c1 :: c0 :: skipn (S (S (length ds'))) buf) C' eq_refl)
      as (ds1 & ds2 & v' & E & E1 & C1 & L1).
    { rewrite app_length, firstn_length. lia. }
    exists ds1, (ds2 ++ [(v / 10) mod 10; v mod 10]), v'. rewrite E.
    assert (Ll : (length ds1 <= length ds')%nat) by (rewrite E1, app_length; lia).
    split.
    - rewrite firstn_le_app by (rewrite firstn_length; lia). rewrite firstn_firstn, Nat.min_l by assumption.
      rewrite skipn_eq_app by (rewrite firstn_length; lia).
      rewrite map_app, <- app_assoc. reflexivity.
    - split; [|auto]. rewrite Ed, E1, <- app_assoc. reflexivity.
  Qed.

  Lemma print_decimal_w_correct : forall lc count buf maxlen v ds, canonical 10 v ds ->
    count v = Some (length ds) -> (maxlen <= length buf)%nat ->
    print_decimal_w dbg cw count buf maxlen (length ds) v
      = Some (printed (map (digit_char lc) ds) buf maxlen).
  Proof using All.
    intros lc count buf maxlen v ds C Ec Lb. unfold print_decimal_w, printed. rewrite map_length.
    pose proof (canonical_length_pos _ _ _ C) as Lp.
    rewrite tm_assert_true by (apply Nat.ltb_lt; lia).
    rewrite tm_assert_true by (rewrite Ec; apply Nat.eqb_refl).
    destruct (Nat.ltb_spec maxlen (length ds)); destruct (Nat.leb_spec (length ds) maxlen); try lia; [reflexivity|].
    destruct (decimal_loop_correct lc (length ds) ds v buf C eq_refl ltac:(lia))
      as (ds1 & ds2 & v' & E & Ed & C1 & L1).
    rewrite E. assert (Ll : (length ds1 <= length ds)%nat) by (rewrite Ed, app_length; lia).
    destruct (N.ltb_spec v' 10) as [S|S].
    - assert (E1 : ds1 = [v']) by (apply (canonical_small_inv 10); [lia|assumption|assumption]).
      assert (Le1 : length ds1 = 1%nat) by (rewrite E1; reflexivity). rewrite Le1 in *.
      destruct (N.leb_spec 10 v'); [lia|]. cbn [Nat.eqb negb andb orb]. rewrite andb_false_r.
      rewrite write1_some by (rewrite !app_length, firstn_length, map_length, skipn_length; lia).
      f_equal. f_equal. rewrite firstn_O. cbn [app]. rewrite skipn_eq_app by (rewrite firstn_length; lia).
      rewrite Ed, E1. cbn [app map]. rewrite digit_char_decimal by assumption.
      cbn [length]. reflexivity.
    - assert (Le1 : length ds1 = 2%nat).
      { eapply (digit_count_unique 10 v'); [lia|apply canonical_count; [lia|assumption]|].
        count_case. }
      assert (E1 : ds1 = [v' / 10; v' mod 10]).
      { destruct (canonical_split 10 v' ds1 ltac:(lia) C1 S) as (d & Ex & Cx).
        assert (d = [v' / 10]) by (eapply canonical_small_inv; [|eassumption|apply N.div_lt_upper_bound]; lia).
        subst d. exact Ex. }
      rewrite Le1 in *. destruct (N.leb_spec 10 v'); [|lia]. cbn [Nat.eqb negb andb orb].
      rewrite andb_false_r.
      rewrite tm_assert_true by (apply N.ltb_lt; lia). cbv zeta.
      rewrite tm_assert_true by (apply N.ltb_lt; lia).
      destruct (double_table lc v' L1) as [T0 T1]. rewrite T0, T1.
      rewrite write2_some by (rewrite !app_length, firstn_length, map_length, skipn_length; lia).
      f_equal. f_equal. rewrite firstn_O. cbn [app]. rewrite skipn_eq_app by (rewrite firstn_length; lia).
      rewrite Ed, E1. cbn [app map length]. reflexivity.
  Qed.

  (** ** Hexadecimal *)
  Lemma hex_loop_eq : forall lc pos buf value, hex_loop cw lc pos buf value =
    if (16 <=? value) && (negb cw || (2 <=? pos)%nat) then
      match pos with
      | S (S pos') =>
        c0 <- nth_error (number_table lc) (N.to_nat (N.land value 15)) ;;
        c1 <- nth_error (number_table lc) (N.to_nat (N.land (N.shiftr value 4) 15)) ;;
        buf' <- write2 buf pos c1 c0 ;;
        hex_loop cw lc pos' buf' (N.shiftr value 8)
      | _ => None
      end
    else Some (buf, pos, value).
  Proof using cw. intros lc [|pos] buf value; reflexivity. Qed.

  Lemma land15 : forall v, N.land v 15 = v mod 16.
  Proof using. intros v. change 15 with (N.ones 4). now rewrite N.land_ones. Qed.
  Lemma shiftr8 : forall v, N.shiftr v 8 = v / 16 / 16.
  Proof using. intros v. rewrite N.shiftr_div_pow2, N.div_div by lia. reflexivity. Qed.

  Lemma hex_loop_correct : forall lc pos ds v buf, canonical 16 v ds -> v <> 0 -> pos = length ds ->
    (pos <= length buf)%nat ->
    exists ds1 ds2 v', hex_loop cw lc pos buf v
        = Some (firstn (length ds1) buf ++ map (digit_char lc) ds2 ++ skipn pos buf, length ds1, v') /\
      ds = ds1 ++ ds2 /\ (v' = 0 /\ ds1 = [] \/ v' <> 0 /\ v' < 16 /\ ds1 = [v']).
  Proof using All.
    intros lc pos. induction pos as [pos IH] using (well_founded_induction lt_wf).
    intros ds v buf C V0 Ep Lb. rewrite hex_loop_eq.
    destruct (N.leb_spec 16 v) as [Hv|Hv]; cbn [andb].
    2:{ exists ds, [], v. rewrite app_nil_r. subst pos. split; [cbn [map app]; rewrite firstn_skipn; reflexivity|].
        split; [reflexivity|]. right. split; [assumption|]. split; [assumption|].
        eapply canonical_small_inv; [|eassumption|]; lia. }
    destruct (canonical_split 16 v ds ltac:(lia) C Hv) as (d1 & E1 & C1).
    pose proof (canonical_length_pos _ _ _ C1) as Lp1.
    assert (El : pos = S (length d1)) by (rewrite Ep, E1, app_length; cbn [length]; lia).
    replace (negb cw || (2 <=? pos)%nat)%bool with true
      by (symmetry; apply orb_true_iff; right; apply Nat.leb_le; lia).
    destruct (exists_last (l := d1)) as (d2 & x & Ex); [destruct d1; [cbn in Lp1; lia|discriminate]|].
    assert (El2 : pos = S (S (length d2))) by (rewrite El, Ex, app_length; cbn [length]; lia).
    clear Ep El. rewrite El2 in *.
    rewrite shiftr4, shiftr8, !land15.
    assert (M1 : v mod 16 < 16) by (apply N.mod_lt; lia).
    assert (M2 : (v / 16) mod 16 < 16) by (apply N.mod_lt; lia).
    rewrite !number_table_digit by lia. rewrite write2_some by lia.
    set (c1 := digit_char lc ((v / 16) mod 16)). set (c0 := digit_char lc (v mod 16)).
    assert (V1 : v / 16 <> 0) by (intro Z; apply N.div_small_iff in Z; lia).
    destruct (N.lt_ge_cases (v / 16) 16) as [Hs|Hs].
    - assert (Ed1 : d1 = [v / 16]) by (eapply canonical_small_inv; [|eassumption|]; lia).
      assert (d2 = [] /\ x = v / 16) as [-> ->].
      { rewrite Ed1 in Ex. destruct d2 as [|y [|z d2]]; [|discriminate|discriminate]. injection Ex as ->. auto. }
      rewrite (N.div_small (v / 16)) by assumption. cbn [length firstn app].
      rewrite hex_loop_eq. change (16 <=? 0) with false. cbn [andb].
      exists [], [v / 16; v mod 16], 0. subst c1 c0. rewrite (N.mod_small (v / 16)) by assumption.
      cbn [length firstn app map]. split; [reflexivity|]. split; [|auto].
      rewrite E1, Ed1. reflexivity.
    - destruct (canonical_split 16 (v / 16) d1 ltac:(lia) C1 Hs) as (d2' & E2 & C2).
      rewrite E2 in Ex. apply app_inj_tail in Ex. destruct Ex as [Ed2 Ex]. subst x. subst d2'.
      assert (V2 : v / 16 / 16 <> 0) by (intro Z; apply N.div_small_iff in Z; lia).
      destruct (IH (length d2) ltac:(lia) d2 (v / 16 / 16)
        (firstn (length d2) buf ++ c1 :: c0 :: skipn (S (S (length d2))) buf) C2 V2 eq_refl)
        as (ds1 & ds2 & v' & E & Ed & Cv).
      { rewrite app_length, firstn_length. lia. }
      exists ds1, (ds2 ++ [(v / 16) mod 16; v mod 16]), v'. rewrite E.
      assert (Ll : (length ds1 <= length d2)%nat) by (rewrite Ed, app_length; lia).
      split.
      + rewrite firstn_le_app by (rewrite firstn_length; lia). rewrite firstn_firstn, Nat.min_l by assumption.
        rewrite skipn_eq_app by (rewrite firstn_length; lia).
        rewrite map_app, <- app_assoc. reflexivity.
      + split; [|assumption]. rewrite E1, E2, Ed, <- !app_assoc. reflexivity.
  Qed.

  Lemma print_hex_w_correct : forall lc buf maxlen v ds, canonical 16 v ds ->
    get_digits_count_hex v = Some (length ds) -> (maxlen <= length buf)%nat ->
    print_hex_w dbg cw buf maxlen (length ds) v lc = Some (printed (map (digit_char lc) ds) buf maxlen).
  Proof using All.
    intros lc buf maxlen v ds C Ec Lb. unfold print_hex_w, printed. rewrite map_length.
    pose proof (canonical_length_pos _ _ _ C) as Lp.
    rewrite tm_assert_true by (apply Nat.ltb_lt; lia).
    rewrite tm_assert_true by (rewrite Ec; apply Nat.eqb_refl).
    destruct (Nat.ltb_spec maxlen (length ds)); destruct (Nat.leb_spec (length ds) maxlen); try lia; [reflexivity|].
    destruct (N.eqb_spec v 0) as [Z|Z].
    - rewrite Z in C. apply zero_canonical_inv in C; [|lia]. subst ds. cbn [length] in *.
      rewrite tm_assert_true by reflexivity. rewrite write_some by lia.
      cbn [firstn app map]. rewrite digit_char_zero. reflexivity.
    - rewrite tm_assert_true by (apply Nat.ltb_lt; lia).
      destruct (hex_loop_correct lc (length ds) ds v buf C Z eq_refl ltac:(lia))
        as (ds1 & ds2 & v' & E & Ed & [[V' E1]|(V' & L' & E1)]); rewrite E; subst ds1.
      + rewrite V'. change (0 <? 0) with false. change (15 <? 0) with false. cbn [length].
        match goal with |- context[if ?c then _ else _] => replace c with false by (destruct cw; reflexivity) end.
        rewrite N.eqb_refl. cbn [length firstn app]. rewrite Ed. reflexivity.
      + cbn [length]. destruct (N.ltb_spec 15 v'); [lia|]. 
        match goal with |- context[if ?c then _ else _] => replace c with false
          by (destruct cw, (0 <? v'), (v' <=? 15); reflexivity) end.
        destruct (N.eqb_spec v' 0); [contradiction|].
        rewrite land15, N.mod_small by assumption. rewrite number_table_digit by lia.
        rewrite write1_some by (rewrite !app_length, firstn_length, map_length, skipn_length; lia).
        f_equal. f_equal. rewrite firstn_O. cbn [app]. rewrite skipn_eq_app by (rewrite firstn_length; lia).
        rewrite Ed. reflexivity.
  Qed.

  (** ** Any base *)
  Lemma base_loop_correct : forall ds b lc v buf, 2 <= b -> b <= 36 -> v <> 0 ->
    canonical b v ds -> (length ds <= length buf)%nat ->
    base_loop dbg cw lc b (length ds) buf v = Some (map (digit_char lc) ds ++ skipn (length ds) buf, 0%nat, 0).
  Proof using All.
    intros ds. remember (length ds) as w eqn:Ew. revert ds Ew.
    induction w as [|w IH]; intros ds Ew b lc v buf H1 H2 V0 C L.
    - pose proof (canonical_length_pos _ _ _ C). lia.
    - cbn [base_loop].
      assert (M : v mod b < b) by (apply N.mod_lt; lia).
      rewrite tm_assert_true by (apply N.ltb_lt; lia).
      rewrite number_table_digit by lia.
      rewrite write_some by lia. cbv zeta.
      destruct (N.lt_ge_cases v b) as [S|S].
      + assert (Ed : ds = [v]) by (eapply canonical_small_inv; eassumption).
        subst ds. cbn [length] in Ew. injection Ew as ->.
        rewrite N.div_small by assumption. cbn [N.eqb negb andb firstn app map skipn].
        rewrite N.mod_small by assumption. reflexivity.
      + destruct (canonical_split b v ds H1 C S) as (ds' & Ed & C').
        assert (D0 : v / b <> 0). { intro Z. apply N.div_small_iff in Z; lia. }
        destruct (N.eqb_spec (v / b) 0); [contradiction|]. cbn [negb andb].
        assert (Ew' : w = length ds'). { subst ds. rewrite app_length in Ew. cbn in Ew. lia. }
        pose proof (canonical_length_pos _ _ _ C').
        replace (negb cw || (0 <? w)%nat)%bool with true
          by (symmetry; apply orb_true_iff; right; apply Nat.ltb_lt; lia).
        rewrite (IH ds' Ew' b lc (v / b)); try assumption.
        2:{ rewrite app_length, firstn_length. cbn [length]. rewrite skipn_length. lia. }
        f_equal. f_equal. f_equal. subst ds. rewrite map_app, <- app_assoc. cbn [map app]. f_equal.
        rewrite skipn_eq_app by (rewrite firstn_length; lia). reflexivity.
  Qed.

  Lemma print_base_w_correct : forall lc b buf maxlen v ds, 2 <= b -> b <= 36 -> canonical b v ds ->
    get_digits_count v b = Some (length ds) -> (maxlen <= length buf)%nat ->
    print_base_w dbg cw buf maxlen (length ds) v b lc = Some (printed (map (digit_char lc) ds) buf maxlen).
  Proof using All.
    intros lc b buf maxlen v ds H1 H2 C Ec Lb. unfold print_base_w, printed. rewrite map_length.
    pose proof (canonical_length_pos _ _ _ C) as Lp.
    rewrite tm_assert_true by (apply andb_true_iff; split; apply N.leb_le; lia).
    rewrite tm_assert_true by (apply Nat.ltb_lt; lia).
    rewrite tm_assert_true by (rewrite Ec; apply Nat.eqb_refl).
    destruct (Nat.eqb_spec (length ds) 0); [lia|]. cbn [orb].
    destruct (N.eqb_spec v 0) as [Z|Z].
    - rewrite Z in C. apply zero_canonical_inv in C; [|lia]. subst ds. cbn [length] in *.
      cbn [Nat.eqb negb andb]. rewrite andb_false_r, orb_false_r.
      destruct (Nat.ltb_spec maxlen 1); destruct (Nat.leb_spec 1 maxlen); try lia; [reflexivity|].
      rewrite tm_assert_true by reflexivity. rewrite write1_some by lia.
      cbn [firstn app map]. rewrite digit_char_zero. reflexivity.
    - cbn [andb]. rewrite andb_false_r, orb_false_r.
      destruct (Nat.ltb_spec maxlen (length ds)); destruct (Nat.leb_spec (length ds) maxlen); try lia; [reflexivity|].
      rewrite tm_assert_true by (apply Nat.ltb_lt; lia).
      rewrite base_loop_correct by (assumption || lia). cbn [N.eqb negb andb]. rewrite andb_false_r. reflexivity.
  Qed.

  (** ** Unsigned *)
  Definition counts_decimal (W : N) (count : N -> option nat) : Prop :=
    forall v ds, v < W -> canonical 10 v ds -> count v = Some (length ds).

  Lemma counts_decimal_intro : forall W count,
    (forall v, v < W -> exists k, count v = Some k /\ is_digit_count 10 v k) -> counts_decimal W count.
  Proof using.
    intros W count H v ds Hv C. destruct (H v Hv) as (k & E & K). rewrite E. f_equal.
    eapply digit_count_unique; [|exact K|]; [lia|]. apply canonical_count; [lia|assumption].
  Qed.

  Lemma print_decimal_u_correct : forall W count lc buf maxlen v ds, counts_decimal W count -> v < W ->
    canonical 10 v ds -> (maxlen <= length buf)%nat ->
    print_decimal_u dbg cw count buf maxlen v = Some (printed (map (digit_char lc) ds) buf maxlen).
  Proof using All.
    intros W count lc buf maxlen v ds Hc Hv C Lb. unfold print_decimal_u. rewrite (Hc v ds Hv C).
    apply print_decimal_w_correct; auto.
  Qed.

  Lemma print_hex_u_correct : forall lc buf maxlen v ds, v < W64 ->
    canonical 16 v ds -> (maxlen <= length buf)%nat ->
    print_hex_u dbg cw buf maxlen v lc = Some (printed (map (digit_char lc) ds) buf maxlen).
  Proof using All.
    intros lc buf maxlen v ds Hv C Lb. unfold print_hex_u.
    destruct (hex_count_correct v Hv) as (k & E & K).
    assert (k = length ds) by (eapply digit_count_unique; [|exact K|apply canonical_count; [|exact C]]; lia).
    subst k. rewrite E. apply print_hex_w_correct; auto.
  Qed.

  Lemma print_unsigned_correct : forall W count lc b buf maxlen v ds, counts_decimal W count -> W <= W64 ->
    2 <= b -> b <= 36 -> v < W -> canonical b v ds -> (maxlen <= length buf)%nat ->
    print_unsigned dbg cw count buf maxlen v b lc = Some (printed (map (digit_char lc) ds) buf maxlen).
  Proof using All.
    intros W count lc b buf maxlen v ds Hc HW H1 H2 Hv C Lb. unfold print_unsigned.
    rewrite tm_assert_true by (apply andb_true_iff; split; apply N.leb_le; lia).
    destruct (N.eqb_spec b 10) as [->|_]; [eapply print_decimal_u_correct; eassumption|].
    destruct (N.eqb_spec b 16) as [->|_]; [apply print_hex_u_correct; [lia|assumption|assumption]|].
    destruct (get_digits_count_correct v b H1 H2 ltac:(lia)) as (k & E & K).
    assert (k = length ds) by (eapply digit_count_unique; [exact H1|exact K|now apply canonical_count]).
    subst k. rewrite E. now apply print_base_w_correct.
  Qed.

  (** ** Signed *)
  Lemma print_sign_correct : forall W lc b print_u buf maxlen z text, W mod 2 = 0 -> 2 <= W ->
    (forall buf maxlen v ds, v < W -> canonical b v ds -> (maxlen <= length buf)%nat ->
       print_u buf maxlen v = Some (printed (map (digit_char lc) ds) buf maxlen)) ->
    (- Z.of_N (W / 2) <= z < Z.of_N (W / 2))%Z -> (maxlen <= length buf)%nat ->
    integer_text lc b z text ->
    exists r, print_sign W print_u buf maxlen z = Some r /\ report_print text buf maxlen r.
  Proof using All.
    intros W lc b print_u buf maxlen z text HW1 HW0 Hp Hz Lb (ds & C & ->).
    assert (HW : W = 2 * (W / 2)).
    { pose proof (N.div_mod W 2). set (h := W / 2) in *. clearbody h. lia. }
    assert (U : forall x, (0 <= x < Z.of_N W)%Z -> to_unsigned W x = Z.to_N x).
    { intros x Hx. unfold to_unsigned. rewrite Z.mod_small by lia. reflexivity. }
    unfold print_sign. destruct (Z.ltb_spec z 0) as [Z0|Z0].
    - change (bytes_of "-"%string) with [45]. cbn [app].
      destruct (Nat.eqb_spec maxlen 0) as [->|M0].
      { eexists. split; [reflexivity|]. unfold report_print. cbn [length Nat.leb fst snd]. auto. }
      destruct buf as [|x t]; [cbn in Lb; lia|]. cbn [length] in Lb.
      assert (E : exists v, (if Z.eqb z (int_min W) then Some z else neg_signed W z) = Some v /\
        to_unsigned W v = Z.to_N (Z.abs z)).
      { destruct (Z.eqb_spec z (int_min W)) as [->|Hm].
        - eexists. split; [reflexivity|]. unfold to_unsigned, int_min in *.
          rewrite <- (Z.mod_unique (- Z.of_N (W / 2)) (Z.of_N W) (-1) (Z.of_N (W / 2))) by lia. lia.
        - exists (- z)%Z. unfold neg_signed, assert_. destruct (Z.eqb_spec z (int_min W)); [contradiction|].
          split; [reflexivity|]. rewrite U by lia. f_equal. lia. }
      destruct E as (v & -> & ->).
      rewrite (Hp t (maxlen - 1)%nat (Z.to_N (Z.abs z)) ds) by (assumption || lia).
      unfold printed, report_print. cbn [length]. rewrite map_length.
      destruct (Nat.leb_spec (length ds) (maxlen - 1)); destruct (Nat.leb_spec (S (length ds)) maxlen); try lia.
      + eexists. split; [reflexivity|]. reflexivity.
      + eexists. split; [reflexivity|]. unfold combine_conv. cbn [cv_size cv_ec fst snd length].
        split; [f_equal; lia|]. split; [reflexivity|]. destruct maxlen; [lia|]. reflexivity.
    - cbn [app]. rewrite U by lia. rewrite (Z.abs_eq z) in C by lia.
      rewrite (Hp buf maxlen (Z.to_N z) ds) by (assumption || lia).
      pose proof (printed_report (map (digit_char lc) ds) buf maxlen) as R.
      destruct (printed (map (digit_char lc) ds) buf maxlen) as [[s e] r]. eexists. split; [reflexivity|].
      exact R.
  Qed.

  Lemma zero_padded_correct : forall lc buf maxlen width v ds, v < W64 -> canonical 10 v ds ->
    (maxlen <= length buf)%nat -> (length ds <= width)%nat ->
    print_zero_padded dbg cw buf maxlen width v = Some
      (printed (repeat 48 (width - length ds) ++ map (digit_char lc) ds) buf maxlen).
  Proof using All.
    intros lc buf maxlen width v ds Hv C Lb Lw. unfold print_zero_padded.
    assert (Hc : get_digits_count_decimal_u64 v = Some (length ds)).
    { apply (counts_decimal_intro W64); [exact decimal_count_u64|assumption|assumption]. }
    rewrite Hc. unfold printed at 1. rewrite app_length, repeat_length, map_length.
    replace (width - length ds + length ds)%nat with width by lia.
    destruct (Nat.ltb_spec maxlen width); destruct (Nat.leb_spec width maxlen); try lia; [reflexivity|].
    destruct (Nat.ltb_spec (length ds) width) as [L|L].
    - destruct (Nat.ltb_spec (length buf) (width - length ds)); [lia|].
      rewrite (print_decimal_w_correct lc) by (try assumption; rewrite skipn_length; lia).
      unfold printed. rewrite map_length.
      destruct (Nat.leb_spec (length ds) (maxlen - (width - length ds))); [|lia].
      unfold combine_conv. cbn [cv_size cv_ec]. f_equal. f_equal; [f_equal; lia|].
      rewrite <- app_assoc. f_equal. f_equal.
      rewrite skipn_plus. f_equal. lia.
    - replace width with (length ds) in * by lia. rewrite (print_decimal_w_correct lc) by assumption.
      unfold printed. rewrite map_length. destruct (Nat.leb_spec (length ds) maxlen); [|lia].
      rewrite Nat.sub_diag. reflexivity.
  Qed.
End Printing.
