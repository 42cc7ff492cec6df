(** Correctness of the float/double conversions (both instances have the same shape). *)
From Coq Require Import NArith ZArith List Bool Lia ZifyBool ZifyNat ZifyN.
From Verif Require Import Base U128Model U128Spec Tactics U128Proofs U128Bits U128Scan U128Popcount
  U128FloatModel FloatSpec FloatProofs.
Import ListNotations.
Local Open Scope N_scope.
Ltac Zify.zify_post_hook ::= Z.div_mod_to_equations.

(** [v] moved up so that its highest bit is bit 127. *)
Lemma normalize : forall v, wf v -> val v <> 0 ->
  let k := N.log2 (val v) in
  k < 128 /\ exists n, tmi_fls v = Some k /\ tmi_shl_u64 v (127 - k) = Some n /\ wf n /\
    val n = val v * 2 ^ (127 - k) /\ 2 ^ 127 <= val n /\ val n * 2 ^ k = val v * 2 ^ 127.
Proof.
  intros v Wv V0 k.
  assert (K : k < 128) by (apply N.log2_lt_pow2; [lia|now apply val_lt_wf]).
  pose proof (N.log2_spec (val v)) as [L1 L2]; [lia|]. fold k in L1, L2.
  assert (E : 2 ^ 127 = 2 ^ (127 - k) * 2 ^ k) by (rewrite <- N.pow_add_r; f_equal; lia).
  split; [assumption|].
  destruct (shl_u64_correct v (127 - k) Wv) as (n & En & Wn & Vn); [lia|].
  exists n. split; [now apply fls_log2|]. split; [assumption|]. split; [assumption|].
  assert (B : val v * 2 ^ (127 - k) < 2 ^ 128).
  { change (2 ^ 128) with (2 ^ 127 * 2). rewrite E, N.pow_succ_r' in *.
    assert (2 ^ (127 - k) <> 0) by (apply N.pow_nonzero; discriminate). nia. }
  rewrite N.mod_small in Vn by assumption.
  split; [assumption|]. split.
  - rewrite Vn, E. assert (2 ^ (127 - k) <> 0) by (apply N.pow_nonzero; discriminate). nia.
  - rewrite Vn, E. lia.
Qed.

Lemma negb_eqb_0 : forall x, negb (x =? 0) = (0 <? x).
Proof. intros. lia. Qed.

(** * double *)

(** How far above the truncated mantissa the result is: [rem] out of 2^75 is discarded. *)
Definition double_ru (T rem : N) (rm : rounding) : N :=
  match rm with
  | ToNearest => if 2 * rem <? 2 ^ 75 then 0 else if 2 ^ 75 <? 2 * rem then 1 else T mod 2
  | Upward => b2n (0 <? rem)
  | _ => 0
  end.

Lemma to_double_bits : forall v rm, wf v -> val v <> 0 ->
  let k := N.log2 (val v) in
  exists T rem, 2 ^ 52 <= T /\ T < 2 ^ 53 /\ rem < 2 ^ 75 /\
    (T * 2 ^ 75 + rem) * 2 ^ k = val v * 2 ^ 127 /\ k < 128 /\
    tmi_to_double_rm v rm = Some ((1023 + k) * 2 ^ 52 + (T + double_ru T rem rm) mod 2 ^ 52).
Proof.
  intros v rm Wv V0 k. unfold tmi_to_double_rm. rewrite is_zero_val by assumption.
  destruct (N.eqb_spec (val v) 0); [contradiction|].
  destruct (normalize v Wv V0) as (K & n' & Ef & Es & [Wl Wh] & _ & Lo & En). fold k in K, Ef, Es, En.
  rewrite Ef, Es. destruct n' as [l h]. change (val (U128 l h)) with (h * 2 ^ 64 + l) in *. cbn [low high] in *.
  change (2 ^ 64) with W64 in *. change (2 ^ 127) with 170141183460469231731687303715884105728 in *.
  set (T := h / 2048). set (b := (h / 1024) mod 2). set (a := h mod 1024).
  assert (Hh : h = a + 1024 * b + 2048 * T) by (unfold a, b, T; clear; lia).
  assert (Ha : a < 1024) by (unfold a; clear; lia).
  assert (Hb : b < 2) by (unfold b; clear; lia).
  clearbody a b T.
  exists T, ((a + 1024 * b) * W64 + l).
  change (2 ^ 75) with 37778931862957161709568. change (2 ^ 52) with 4503599627370496. change (2 ^ 53) with 9007199254740992.
  split; [lia|]. split; [lia|]. split; [lia|].
  split; [rewrite <- En; f_equal; lia|]. split; [assumption|].
  assert (EX : w64 (1023 + k) = 1023 + k) by (unfold w64; apply N.mod_small; lia).
  rewrite EX. destruct (N.leb_spec 2048 (1023 + k)); [lia|]. f_equal.
  unfold double_round_up. cbn [low high].
  replace (N.land h (N.shiftl 1 10) =? 0) with (b =? 0).
  2:{ rewrite <- (negb_involutive (N.land h _ =? 0)), land_bit_nonzero.
      rewrite N.testbit_eqb. change (2 ^ 10) with 1024.
      replace ((h / 1024) mod 2) with b by (clear -Hh Ha Hb; lia). clear -Hb; lia. }
  replace (N.land h 0xBFF) with (a + 2048 * (T mod 2)).
  2:{ rewrite Hh. change (a + 1024 * b + 2048 * T) with (a + 1024 * b + 2 ^ 11 * T).
      change 0xBFF with (1023 + 2 ^ 11 * 1). rewrite land_digit by (change (2 ^ 11) with 2048; clear -Ha Hb; lia).
      rewrite land_1. change (2 ^ 11) with 2048. f_equal. change 1023 with (N.ones 10). rewrite N.land_ones.
      change (2 ^ 10) with 1024. clear -Ha; lia. }
  replace (N.land h 0x7FF) with (a + 1024 * b).
  2:{ change 0x7FF with (N.ones 11). rewrite N.land_ones. change (2 ^ 11) with 2048.
      clear -Hh Ha Hb; lia. }
  rewrite shiftr_div. change (2 ^ 11) with 2048.
  replace (h / 2048) with T by (clear -Hh Ha Hb; lia).
  match goal with |- context [w64 (T + ?x)] => assert (RU : x = double_ru T ((a + 1024 * b) * W64 + l) rm) end.
  { unfold double_ru. change (2 ^ 75) with 37778931862957161709568. unfold b2n.
    rewrite !negb_eqb_0. clear -Ha Hb Wl. destruct rm; [| |reflexivity|reflexivity].
    - destruct (N.ltb_spec 0 b) as [B|B].
      + assert (b = 1) by lia. subst b. clear Hb B.
        destruct (N.ltb_spec (2 * ((a + 1024 * 1) * W64 + l)) 37778931862957161709568); [lia|].
        destruct (N.ltb_spec 37778931862957161709568 (2 * ((a + 1024 * 1) * W64 + l)));
        destruct (N.ltb_spec 0 l); destruct (N.ltb_spec 0 (a + 2048 * (T mod 2))); cbn [orb]; lia.
      + assert (b = 0) by lia. subst b.
        destruct (N.ltb_spec (2 * ((a + 1024 * 0) * W64 + l)) 37778931862957161709568); lia.
    - destruct (N.ltb_spec 0 l); destruct (N.ltb_spec 0 (a + 1024 * b)); cbn [orb];
      destruct (N.ltb_spec 0 ((a + 1024 * b) * W64 + l)); lia. }
  rewrite RU. clear RU. set (ru := double_ru T _ rm).
  assert (Hru : ru <= 1).
  { unfold ru, double_ru, b2n. clear. destruct rm; try lia.
    - destruct (_ <? _); [lia|]. destruct (_ <? _); lia.
    - destruct (_ <? _); lia. }
  clearbody ru.
  change 0xFFFFFFFFFFFFF with (N.ones 52). rewrite N.land_ones. change (2 ^ 52) with 4503599627370496.
  unfold w64. rewrite (N.mod_small (T + ru)) by lia.
  rewrite shiftl_mul. rewrite (N.mod_small (_ * 2 ^ 52)) by (change (2 ^ 52) with 4503599627370496; lia).
  rewrite lor_disjoint' by (change (2 ^ 52) with 4503599627370496; clear; lia).
  change (2 ^ 52) with 4503599627370496. apply N.add_comm.
Qed.

Section Correct_double.
  Variables (v : u128) (rm : rounding).
  Hypotheses (Wv : wf v) (V0 : val v <> 0).
  Let k := N.log2 (val v).
  Let t := val v * unit64.

  Lemma double_setup : exists T rem r Y,
    2 ^ 52 <= T /\ T < 2 ^ 53 /\ rem < 2 ^ 75 /\ 0 < Y /\ k < 128 /\
    (T * 2 ^ 75 + rem) * 2 ^ k = val v * 2 ^ 127 /\
    r = (1023 + k) * 2 ^ 52 + (T - 2 ^ 52) /\ N.even r = N.even T /\ finite64 r /\
    (T + 1 < 2 ^ 53 -> finite64 (r + 1)) /\
    value64 r = T * 2 ^ 75 * Y /\ value64 (r + 1) = (T + 1) * 2 ^ 75 * Y /\
    t = (T * 2 ^ 75 + rem) * Y /\
    (T + double_ru T rem rm < 2 ^ 53 -> tmi_to_double_rm v rm = Some (r + double_ru T rem rm)) /\
    (2 ^ 53 <= T + double_ru T rem rm -> tmi_to_double_rm v rm = Some ((1023 + k) * 2 ^ 52)).
  Proof.
    destruct (to_double_bits v rm Wv V0) as (T & rem & T1 & T2 & R & E & K & Eq). fold k in E, K, Eq.
    exists T, rem, ((1023 + k) * 2 ^ 52 + (T - 2 ^ 52)), (2 ^ (k + 947)).
    assert (RU : double_ru T rem rm <= 1).
    { unfold double_ru, b2n. clear. destruct rm; try lia.
      - destruct (2 * rem <? 2 ^ 75); [lia|]. destruct (2 ^ 75 <? 2 * rem); lia.
      - match goal with |- context [if ?c then _ else _] => destruct c end; lia. }
    assert (P : forall x, x < 2 ^ 52 -> value64 ((1023 + k) * 2 ^ 52 + x) = (2 ^ 52 + x) * 2 ^ (1022 + k)).
    { intros x Hx. rewrite value64_eq, value_fields by (assumption || lia).
      f_equal. f_equal. lia. }
    assert (P1 : forall x, x < 2 ^ 52 -> value64 ((1023 + k) * 2 ^ 52 + x + 1) = (2 ^ 52 + x + 1) * 2 ^ (1022 + k)).
    { intros x Hx. rewrite value64_eq, value_succ by (assumption || lia).
      f_equal. f_equal. lia. }
    assert (YE : 2 ^ (1022 + k) = 2 ^ 75 * 2 ^ (k + 947)).
    { rewrite <- N.pow_add_r. f_equal. lia. }
    assert (W1E : 2 ^ 53 = 2 * 2 ^ 52) by reflexivity.
    split; [assumption|]. split; [assumption|]. split; [assumption|].
    split; [apply pow2_pos|]. split; [assumption|]. split; [assumption|]. split; [reflexivity|].
    split.
    { rewrite N.even_add, N.even_mul. change (N.even (2 ^ 52)) with true. rewrite orb_true_r.
      rewrite N.even_sub by assumption. change (N.even (2 ^ 52)) with true.
      destruct (N.even T); reflexivity. }
    split.
    { unfold finite64. change (2 ^ 52) with 4503599627370496 in *. change (2 ^ 53) with 9007199254740992 in *. lia. }
    split.
    { unfold finite64. change (2 ^ 52) with 4503599627370496 in *. change (2 ^ 53) with 9007199254740992 in *. lia. }
    split.
    { rewrite P by lia. rewrite YE. rewrite N.mul_assoc. f_equal. f_equal. lia. }
    split.
    { rewrite P1 by lia. rewrite YE. rewrite N.mul_assoc. f_equal. f_equal. lia. }
    split.
    { unfold t, unit64. rewrite N.pow_add_r, N.mul_assoc, E, <- N.mul_assoc, <- N.pow_add_r. reflexivity. }
    split; intros H; rewrite Eq; f_equal.
    - rewrite <- N.add_assoc. f_equal. 
      symmetry. apply N.mod_unique with 1; lia.
    - rewrite <- (N.add_0_r ((1023 + k) * 2 ^ 52)) at 2. f_equal.
      symmetry. apply N.mod_unique with 2; [apply pow2_pos|]. lia.
  Qed.
End Correct_double.

(** Truncation is always correct. *)
Lemma to_double_down : forall v rm, wf v -> rm = Downward \/ rm = TowardZero ->
  exists r, tmi_to_double_rm v rm = Some r /\ rounded_down finite64 value64 (val v * unit64) r.
Proof.
  intros v rm Wv Hrm. destruct (N.eq_dec (val v) 0) as [Z|Z].
  - exists 0. unfold tmi_to_double_rm. rewrite is_zero_val, Z by assumption. split; [reflexivity|].
    split; [reflexivity|]. change (value64 0) with 0. rewrite N.mul_0_l. split; [lia|]. intros; lia.
  - destruct (double_setup v rm Wv Z) as (T & rem & r & Y & T1 & T2 & R & HY & K & Ek & Er & Ev & F & F1 & V & V1 & Et & O1 & O2).
    assert (RU : double_ru T rem rm = 0) by (destruct Hrm as [-> | ->]; reflexivity).
    rewrite RU, !N.add_0_r in O1. exists r. split; [auto|].
    eapply (round_down_ok 52); [exact V|exact V1| | |exact F]; rewrite Et; nia.
Qed.

(** Upward. *)
Lemma to_double_up : forall v, wf v -> val v * 2 ^ 52 <= (2 ^ 53 - 1) * 2 ^ N.log2 (val v) ->
  
  exists r, tmi_to_double_rm v Upward = Some r /\ rounded_up finite64 value64 (val v * unit64) r.
Proof.
  intros v Wv H. destruct (N.eq_dec (val v) 0) as [Z|Z].
  - exists 0. unfold tmi_to_double_rm. rewrite is_zero_val, Z by assumption. split; [reflexivity|].
    split; [reflexivity|]. change (value64 0) with 0. rewrite N.mul_0_l. split; [lia|]. intros; lia.
  - destruct (double_setup v Upward Wv Z) as (T & rem & r & Y & T1 & T2 & R & HY & K & Ek & Er & Ev & F & F1 & V & V1 & Et & O1 & O2).
    set (k := N.log2 (val v)) in *.
    assert (P : 2 ^ k <> 0) by (apply N.pow_nonzero; discriminate).
    assert (H' : T * 2 ^ 75 + rem <= (2 ^ 53 - 1) * 2 ^ 75).
    { apply N.mul_le_mono_pos_r with (2 ^ k); [lia|]. rewrite Ek.
      change (2 ^ 127) with (2 ^ 52 * 2 ^ 75). nia. }
    change (2 ^ 75) with 37778931862957161709568 in *. change (2 ^ 53) with 9007199254740992 in *.
    unfold double_ru in O1. change (2 ^ 75) with 37778931862957161709568 in *.
    destruct (N.ltb_spec 0 rem) as [L|L]; cbn [b2n] in O1.
    + exists (r + 1). split; [apply O1; lia|].
      eapply (round_up_inexact 52); [exact V|exact V1| | |apply F1; lia|]; rewrite Et; nia.
    + rewrite !N.add_0_r in O1. exists r. split; [apply O1; lia|].
      assert (rem = 0) by lia. subst rem. eapply (round_up_exact 52); [exact V|exact V1| | |exact F|]; rewrite Et; nia.
Qed.

(** To nearest, ties to even. *)
Lemma to_double_nearest_zero : forall v, wf v -> val v = 0 ->
  exists r, tmi_to_double_rm v ToNearest = Some r /\
    rounded_nearest_even finite64 value64 (val v * unit64) r.
Proof.
  intros v Wv Z.
  exists 0. unfold tmi_to_double_rm. rewrite is_zero_val, Z by assumption. split; [reflexivity|].
  split; [reflexivity|]. assert (V0 : value64 0 = 0) by reflexivity. rewrite V0, N.mul_0_l. intros f Hf.
  unfold dist. split; [lia|]. intros E. left. apply (value_inj 52).
  change (value64 f = value64 0). rewrite V0. lia.
Qed.

Lemma double_tie : forall T rem Y, 2 * rem = 37778931862957161709568 ->
  (T * 37778931862957161709568 + rem) * Y - T * 37778931862957161709568 * Y = (T + 1) * 37778931862957161709568 * Y - (T * 37778931862957161709568 + rem) * Y.
Proof. intros T rem Y H. nia. Qed.

Lemma double_near_bound : forall T rem v k, (T * 2 ^ 75 + rem) * 2 ^ k = v * 2 ^ 127 ->
  v * 2 ^ 53 < (2 ^ 54 - 1) * 2 ^ k -> T * 37778931862957161709568 + rem < 18014398509481983 * 18889465931478580854784.
Proof.
  intros T rem v k Ek H. apply N.mul_lt_mono_pos_r with (2 ^ k); [apply pow2_pos|].
  change 37778931862957161709568 with (2 ^ 75). rewrite Ek.
  change (2 ^ 127) with (2 ^ 53 * 18889465931478580854784). change 18014398509481983 with (2 ^ 54 - 1). nia.
Qed.

Lemma to_double_nearest : forall v, wf v ->
  (val v <> 0 -> val v * 2 ^ 53 < (2 ^ 54 - 1) * 2 ^ N.log2 (val v)) ->
  exists r, tmi_to_double_rm v ToNearest = Some r /\
    rounded_nearest_even finite64 value64 (val v * unit64) r.
Proof.
  intros v Wv H. destruct (N.eq_dec (val v) 0) as [Z|Z]; [now apply to_double_nearest_zero|].
  specialize (H Z).
  destruct (double_setup v ToNearest Wv Z) as (T & rem & r & Y & T1 & T2 & R & HY & K & Ek & Er & Ev & F & F1 & V & V1 & Et & O1 & O2).
  assert (H' := double_near_bound _ _ _ _ Ek H). clear H Ek O2.
  assert (EC : 2 ^ 75 = 37778931862957161709568) by reflexivity. assert (EW : 2 ^ 53 = 9007199254740992) by reflexivity.
  assert (RU : double_ru T rem ToNearest = if 2 * rem <? 37778931862957161709568 then 0 else if 37778931862957161709568 <? 2 * rem then 1 else T mod 2) by reflexivity.
  rewrite RU in O1. clear RU. rewrite EC, EW in *. clear EC EW.
  set (t := val v * unit64) in *. clearbody t.
  destruct (N.ltb_spec (2 * rem) 37778931862957161709568) as [L|L].
  { exists r. rewrite !N.add_0_r in O1. split; [apply O1; lia|].
    apply (round_near_lo 52 _ _ _ _ _ V V1); [rewrite Et; nia|rewrite Et; nia|exact F|left; rewrite Et; nia]. }
  destruct (N.ltb_spec 37778931862957161709568 (2 * rem)) as [L2|L2].
  { exists (r + 1). split; [apply O1; lia|].
    apply (round_near_hi 52 _ _ _ _ _ V V1); [rewrite Et; nia|rewrite Et; nia|apply F1; lia|left; rewrite Et; nia]. }
  assert (Tie : 2 * rem = 37778931862957161709568) by lia. apply (double_tie T rem Y) in Tie. rewrite <- Et in Tie.
  assert (M2 : T mod 2 = if N.even T then 0 else 1).
  { rewrite <- (N.bit0_mod T), N.bit0_odd, <- N.negb_even. destruct (N.even T); reflexivity. }
  rewrite M2 in O1. destruct (N.even T) eqn:ET.
  - rewrite !N.add_0_r in O1. exists r. split; [apply O1; lia|].
    apply (round_near_lo 52 _ _ _ _ _ V V1); [rewrite Et; nia|rewrite Et; nia|exact F|right; split; [exact Tie|congruence]].
  - exists (r + 1). split; [apply O1; lia|].
    apply (round_near_hi 52 _ _ _ _ _ V V1); [rewrite Et; nia|rewrite Et; nia|apply F1; lia|right; split; [exact Tie|congruence]].
Qed.

(** When rounding carries out of the mantissa the result is 2^k instead of 2^(k+1). *)
Lemma to_double_nearest_carry : forall v, wf v -> val v <> 0 ->
  (2 ^ 54 - 1) * 2 ^ N.log2 (val v) <= val v * 2 ^ 53 ->
  exists r, tmi_to_double_rm v ToNearest = Some r /\ value64 r = 2 ^ N.log2 (val v) * unit64.
Proof.
  intros v Wv Z H.
  destruct (double_setup v ToNearest Wv Z) as (T & rem & r & Y & T1 & T2 & R & HY & K & Ek & Er & Ev & F & F1 & V & V1 & Et & O1 & O2).
  set (k := N.log2 (val v)) in *.
  assert (P : 2 ^ k <> 0) by (apply N.pow_nonzero; discriminate).
  assert (H' : (2 ^ 54 - 1) * 2 ^ 74 <= T * 2 ^ 75 + rem).
  { apply N.mul_le_mono_pos_r with (2 ^ k); [lia|]. rewrite Ek.
    change (2 ^ 127) with (2 ^ 53 * 2 ^ 74). nia. }
  change (2 ^ 75) with 37778931862957161709568 in *. change (2 ^ 53) with 9007199254740992 in *. change (2 ^ 54 - 1) with 18014398509481983 in *.
  change (2 ^ 74) with 18889465931478580854784 in *.
  assert (ET : T = 9007199254740992 - 1) by lia.
  exists ((1023 + k) * 2 ^ 52). split.
  - apply O2. unfold double_ru. change (2 ^ 75) with 37778931862957161709568. subst T.
    destruct (N.ltb_spec (2 * rem) 37778931862957161709568); [lia|]. destruct (N.ltb_spec 37778931862957161709568 (2 * rem)); [lia|].
    change ((9007199254740992 - 1) mod 2) with 1. lia.
  - rewrite value64_eq. rewrite <- (N.add_0_r (_ * _)). rewrite value_fields by (reflexivity || lia).
    rewrite N.add_0_r. unfold unit64. rewrite <- !N.pow_add_r. f_equal. lia.
Qed.

(** * float *)

(** How far above the truncated mantissa the result is: [rem] out of 2^104 is discarded. *)
Definition float_ru (T rem : N) (rm : rounding) : N :=
  match rm with
  | ToNearest => if 2 * rem <? 2 ^ 104 then 0 else if 2 ^ 104 <? 2 * rem then 1 else T mod 2
  | Upward => b2n ((0 <? rem) || (T mod 2 =? 1))
  | _ => 0
  end.

Lemma to_float_bits : forall v rm, wf v -> val v <> 0 ->
  let k := N.log2 (val v) in
  exists T rem, 2 ^ 23 <= T /\ T < 2 ^ 24 /\ rem < 2 ^ 104 /\
    (T * 2 ^ 104 + rem) * 2 ^ k = val v * 2 ^ 127 /\ k < 128 /\
    tmi_to_float_rm v rm = Some ((127 + k) * 2 ^ 23 + (T + float_ru T rem rm) mod 2 ^ 23).
Proof.
  intros v rm Wv V0 k. unfold tmi_to_float_rm. rewrite is_zero_val by assumption.
  destruct (N.eqb_spec (val v) 0); [contradiction|].
  destruct (normalize v Wv V0) as (K & n' & Ef & Es & [Wl Wh] & _ & Lo & En). fold k in K, Ef, Es, En.
  rewrite Ef, Es. destruct n' as [l h]. change (val (U128 l h)) with (h * 2 ^ 64 + l) in *. cbn [low high] in *.
  change (2 ^ 64) with W64 in *. change (2 ^ 127) with 170141183460469231731687303715884105728 in *.
  set (T := h / 1099511627776). set (b := (h / 549755813888) mod 2). set (a := h mod 549755813888).
  assert (Hh : h = a + 549755813888 * b + 1099511627776 * T) by (unfold a, b, T; clear; lia).
  assert (Ha : a < 549755813888) by (unfold a; clear; lia).
  assert (Hb : b < 2) by (unfold b; clear; lia).
  clearbody a b T.
  exists T, ((a + 549755813888 * b) * W64 + l).
  change (2 ^ 104) with 20282409603651670423947251286016. change (2 ^ 23) with 8388608. change (2 ^ 24) with 16777216.
  split; [lia|]. split; [lia|]. split; [lia|].
  split; [rewrite <- En; f_equal; lia|]. split; [assumption|].
  assert (EX : w32 (127 + w32 k) = 127 + k) by (unfold w32; rewrite !N.mod_small; lia).
  rewrite EX. destruct (N.leb_spec 256 (127 + k)); [lia|]. f_equal.
  unfold float_round_up. cbn [low high].
  rewrite (shiftr_div h 32). change (2 ^ 32) with W32.
  assert (EM : w32 (h / W32) = h / W32) by (unfold w32; apply N.mod_small; clear -Wh; lia).
  rewrite EM.
  replace (N.land (h / W32) (N.shiftl 1 7) =? 0) with (b =? 0).
  2:{ rewrite <- (negb_involutive (N.land _ (N.shiftl 1 7) =? 0)), land_bit_nonzero.
      rewrite N.testbit_eqb. change (2 ^ 7) with 128.
      replace ((h / W32 / 128) mod 2) with b by (rewrite N.div_div by discriminate; change (W32 * 128) with 549755813888; clear -Hh Ha Hb; lia). clear -Hb; lia. }
  replace (N.land h 0x17FFFFFFFFF) with (a + 1099511627776 * (T mod 2)).
  2:{ rewrite Hh. change (a + 549755813888 * b + 1099511627776 * T) with (a + 549755813888 * b + 2 ^ 40 * T).
      change 0x17FFFFFFFFF with (549755813887 + 2 ^ 40 * 1). rewrite land_digit by (change (2 ^ 40) with 1099511627776; clear -Ha Hb; lia).
      rewrite land_1. change (2 ^ 40) with 1099511627776. f_equal. change 549755813887 with (N.ones 39). rewrite N.land_ones.
      change (2 ^ 39) with 549755813888. clear -Ha; lia. }
  replace (N.land h 0x1FFFFFFFFFF) with (a + 549755813888 * b + 1099511627776 * (T mod 2)).
  2:{ change 0x1FFFFFFFFFF with (N.ones 41). rewrite N.land_ones. change (2 ^ 41) with 2199023255552.
      clear -Hh Ha Hb; lia. }
  rewrite shiftr_div. change (2 ^ 8) with 256.
  replace (h / W32 / 256) with T by (rewrite N.div_div by discriminate; change (W32 * 256) with 1099511627776; clear -Hh Ha Hb; lia).
  match goal with |- context [w32 (T + ?x)] => assert (RU : x = float_ru T ((a + 549755813888 * b) * W64 + l) rm) end.
  { unfold float_ru. change (2 ^ 104) with 20282409603651670423947251286016. unfold b2n.
    rewrite !negb_eqb_0. clear -Ha Hb Wl. destruct rm; [| |reflexivity|reflexivity].
    - destruct (N.ltb_spec 0 b) as [B|B].
      + assert (b = 1) by lia. subst b. clear Hb B.
        destruct (N.ltb_spec (2 * ((a + 549755813888 * 1) * W64 + l)) 20282409603651670423947251286016); [lia|].
        destruct (N.ltb_spec 20282409603651670423947251286016 (2 * ((a + 549755813888 * 1) * W64 + l)));
        destruct (N.ltb_spec 0 l); destruct (N.ltb_spec 0 (a + 1099511627776 * (T mod 2))); cbn [orb]; lia.
      + assert (b = 0) by lia. subst b.
        destruct (N.ltb_spec (2 * ((a + 549755813888 * 0) * W64 + l)) 20282409603651670423947251286016); lia.
    - destruct (N.ltb_spec 0 l); destruct (N.ltb_spec 0 (a + 549755813888 * b + 1099511627776 * (T mod 2))); cbn [orb];
      destruct (N.ltb_spec 0 ((a + 549755813888 * b) * W64 + l)); destruct (N.eqb_spec (T mod 2) 1); cbn [orb]; lia. }
  rewrite RU. clear RU. set (ru := float_ru T _ rm).
  assert (Hru : ru <= 1).
  { unfold ru, float_ru, b2n. clear. destruct rm; try lia.
    - destruct (_ <? _); [lia|]. destruct (_ <? _); lia.
    - destruct (_ || _); lia. }
  clearbody ru.
  change 0x7FFFFF with (N.ones 23). rewrite N.land_ones. change (2 ^ 23) with 8388608.
  unfold w32. rewrite (N.mod_small (T + ru)) by lia.
  rewrite shiftl_mul. rewrite (N.mod_small (_ * 2 ^ 23)) by (change (2 ^ 23) with 8388608; lia).
  rewrite lor_disjoint' by (change (2 ^ 23) with 8388608; clear; lia).
  change (2 ^ 23) with 8388608. apply N.add_comm.
Qed.

Section Correct_float.
  Variables (v : u128) (rm : rounding).
  Hypotheses (Wv : wf v) (V0 : val v <> 0).
  Let k := N.log2 (val v).
  Let t := val v * unit32.

  Lemma float_setup : exists T rem r Y,
    2 ^ 23 <= T /\ T < 2 ^ 24 /\ rem < 2 ^ 104 /\ 0 < Y /\ k < 128 /\
    (T * 2 ^ 104 + rem) * 2 ^ k = val v * 2 ^ 127 /\
    r = (127 + k) * 2 ^ 23 + (T - 2 ^ 23) /\ N.even r = N.even T /\ finite32 r /\
    (T + 1 < 2 ^ 24 -> finite32 (r + 1)) /\
    value32 r = T * 2 ^ 104 * Y /\ value32 (r + 1) = (T + 1) * 2 ^ 104 * Y /\
    t = (T * 2 ^ 104 + rem) * Y /\
    (T + float_ru T rem rm < 2 ^ 24 -> tmi_to_float_rm v rm = Some (r + float_ru T rem rm)) /\
    (2 ^ 24 <= T + float_ru T rem rm -> tmi_to_float_rm v rm = Some ((127 + k) * 2 ^ 23)).
  Proof.
    destruct (to_float_bits v rm Wv V0) as (T & rem & T1 & T2 & R & E & K & Eq). fold k in E, K, Eq.
    exists T, rem, ((127 + k) * 2 ^ 23 + (T - 2 ^ 23)), (2 ^ (k + 22)).
    assert (RU : float_ru T rem rm <= 1).
    { unfold float_ru, b2n. clear. destruct rm; try lia.
      - destruct (2 * rem <? 2 ^ 104); [lia|]. destruct (2 ^ 104 <? 2 * rem); lia.
      - match goal with |- context [if ?c then _ else _] => destruct c end; lia. }
    assert (P : forall x, x < 2 ^ 23 -> value32 ((127 + k) * 2 ^ 23 + x) = (2 ^ 23 + x) * 2 ^ (126 + k)).
    { intros x Hx. rewrite value32_eq, value_fields by (assumption || lia).
      f_equal. f_equal. lia. }
    assert (P1 : forall x, x < 2 ^ 23 -> value32 ((127 + k) * 2 ^ 23 + x + 1) = (2 ^ 23 + x + 1) * 2 ^ (126 + k)).
    { intros x Hx. rewrite value32_eq, value_succ by (assumption || lia).
      f_equal. f_equal. lia. }
    assert (YE : 2 ^ (126 + k) = 2 ^ 104 * 2 ^ (k + 22)).
    { rewrite <- N.pow_add_r. f_equal. lia. }
    assert (W1E : 2 ^ 24 = 2 * 2 ^ 23) by reflexivity.
    split; [assumption|]. split; [assumption|]. split; [assumption|].
    split; [apply pow2_pos|]. split; [assumption|]. split; [assumption|]. split; [reflexivity|].
    split.
    { rewrite N.even_add, N.even_mul. change (N.even (2 ^ 23)) with true. rewrite orb_true_r.
      rewrite N.even_sub by assumption. change (N.even (2 ^ 23)) with true.
      destruct (N.even T); reflexivity. }
    split.
    { unfold finite32. change (2 ^ 23) with 8388608 in *. change (2 ^ 24) with 16777216 in *. lia. }
    split.
    { unfold finite32. change (2 ^ 23) with 8388608 in *. change (2 ^ 24) with 16777216 in *. lia. }
    split.
    { rewrite P by lia. rewrite YE. rewrite N.mul_assoc. f_equal. f_equal. lia. }
    split.
    { rewrite P1 by lia. rewrite YE. rewrite N.mul_assoc. f_equal. f_equal. lia. }
    split.
    { unfold t, unit32. rewrite N.pow_add_r, N.mul_assoc, E, <- N.mul_assoc, <- N.pow_add_r. reflexivity. }
    split; intros H; rewrite Eq; f_equal.
    - rewrite <- N.add_assoc. f_equal. 
      symmetry. apply N.mod_unique with 1; lia.
    - rewrite <- (N.add_0_r ((127 + k) * 2 ^ 23)) at 2. f_equal.
      symmetry. apply N.mod_unique with 2; [apply pow2_pos|]. lia.
  Qed.
End Correct_float.

(** Truncation is always correct. *)
Lemma to_float_down : forall v rm, wf v -> rm = Downward \/ rm = TowardZero ->
  exists r, tmi_to_float_rm v rm = Some r /\ rounded_down finite32 value32 (val v * unit32) r.
Proof.
  intros v rm Wv Hrm. destruct (N.eq_dec (val v) 0) as [Z|Z].
  - exists 0. unfold tmi_to_float_rm. rewrite is_zero_val, Z by assumption. split; [reflexivity|].
    split; [reflexivity|]. change (value32 0) with 0. rewrite N.mul_0_l. split; [lia|]. intros; lia.
  - destruct (float_setup v rm Wv Z) as (T & rem & r & Y & T1 & T2 & R & HY & K & Ek & Er & Ev & F & F1 & V & V1 & Et & O1 & O2).
    assert (RU : float_ru T rem rm = 0) by (destruct Hrm as [-> | ->]; reflexivity).
    rewrite RU, !N.add_0_r in O1. exists r. split; [auto|].
    eapply (round_down_ok 23); [exact V|exact V1| | |exact F]; rewrite Et; nia.
Qed.

(** Upward. *)
Lemma to_float_up : forall v, wf v -> val v * 2 ^ 23 <= (2 ^ 24 - 1) * 2 ^ N.log2 (val v) ->
  (forall T, 2 ^ 23 <= T -> N.odd T = true -> val v * 2 ^ 23 <> T * 2 ^ N.log2 (val v)) ->
  exists r, tmi_to_float_rm v Upward = Some r /\ rounded_up finite32 value32 (val v * unit32) r.
Proof.
  intros v Wv H Hodd. destruct (N.eq_dec (val v) 0) as [Z|Z].
  - exists 0. unfold tmi_to_float_rm. rewrite is_zero_val, Z by assumption. split; [reflexivity|].
    split; [reflexivity|]. change (value32 0) with 0. rewrite N.mul_0_l. split; [lia|]. intros; lia.
  - destruct (float_setup v Upward Wv Z) as (T & rem & r & Y & T1 & T2 & R & HY & K & Ek & Er & Ev & F & F1 & V & V1 & Et & O1 & O2).
    set (k := N.log2 (val v)) in *.
    assert (P : 2 ^ k <> 0) by (apply N.pow_nonzero; discriminate).
    assert (H' : T * 2 ^ 104 + rem <= (2 ^ 24 - 1) * 2 ^ 104).
    { apply N.mul_le_mono_pos_r with (2 ^ k); [lia|]. rewrite Ek.
      change (2 ^ 127) with (2 ^ 23 * 2 ^ 104). nia. }
    change (2 ^ 104) with 20282409603651670423947251286016 in *. change (2 ^ 24) with 16777216 in *.
    unfold float_ru in O1. change (2 ^ 104) with 20282409603651670423947251286016 in *.
    destruct (N.ltb_spec 0 rem) as [L|L]; cbn [orb b2n] in O1.
    + exists (r + 1). split; [apply O1; lia|].
      eapply (round_up_inexact 23); [exact V|exact V1| | |apply F1; lia|]; rewrite Et; nia.
    + assert (rem = 0) by lia. subst rem. rewrite N.add_0_r in *.
      assert (OT : T mod 2 <> 1).
      { intros OT. apply (Hodd T); [assumption| |].
        - apply N.odd_spec. exists (T / 2). clear -OT. lia.
        - apply N.mul_cancel_r with (2 ^ 104); [discriminate|].
          change (val v * 2 ^ 23 * 2 ^ 104 = T * 2 ^ k * 2 ^ 104).
          rewrite <- N.mul_assoc. change (2 ^ 23 * 2 ^ 104) with (2 ^ 127). rewrite <- Ek.
          change (2 ^ 104) with 20282409603651670423947251286016. lia. }
      destruct (N.eqb_spec (T mod 2) 1); [contradiction|]. cbn [orb b2n] in O1. rewrite !N.add_0_r in O1.
      exists r. split; [apply O1; lia|].
      eapply (round_up_exact 23); [exact V|exact V1| | |exact F|]; rewrite Et; nia.
Qed.

(** To nearest, ties to even. *)
Lemma to_float_nearest_zero : forall v, wf v -> val v = 0 ->
  exists r, tmi_to_float_rm v ToNearest = Some r /\
    rounded_nearest_even finite32 value32 (val v * unit32) r.
Proof.
  intros v Wv Z.
  exists 0. unfold tmi_to_float_rm. rewrite is_zero_val, Z by assumption. split; [reflexivity|].
  split; [reflexivity|]. assert (V0 : value32 0 = 0) by reflexivity. rewrite V0, N.mul_0_l. intros f Hf.
  unfold dist. split; [lia|]. intros E. left. apply (value_inj 23).
  change (value32 f = value32 0). rewrite V0. lia.
Qed.

Lemma float_tie : forall T rem Y, 2 * rem = 20282409603651670423947251286016 ->
  (T * 20282409603651670423947251286016 + rem) * Y - T * 20282409603651670423947251286016 * Y = (T + 1) * 20282409603651670423947251286016 * Y - (T * 20282409603651670423947251286016 + rem) * Y.
Proof. intros T rem Y H. nia. Qed.

Lemma float_near_bound : forall T rem v k, (T * 2 ^ 104 + rem) * 2 ^ k = v * 2 ^ 127 ->
  v * 2 ^ 24 < (2 ^ 25 - 1) * 2 ^ k -> T * 20282409603651670423947251286016 + rem < 33554431 * 10141204801825835211973625643008.
Proof.
  intros T rem v k Ek H. apply N.mul_lt_mono_pos_r with (2 ^ k); [apply pow2_pos|].
  change 20282409603651670423947251286016 with (2 ^ 104). rewrite Ek.
  change (2 ^ 127) with (2 ^ 24 * 10141204801825835211973625643008). change 33554431 with (2 ^ 25 - 1). nia.
Qed.

Lemma to_float_nearest : forall v, wf v ->
  (val v <> 0 -> val v * 2 ^ 24 < (2 ^ 25 - 1) * 2 ^ N.log2 (val v)) ->
  exists r, tmi_to_float_rm v ToNearest = Some r /\
    rounded_nearest_even finite32 value32 (val v * unit32) r.
Proof.
  intros v Wv H. destruct (N.eq_dec (val v) 0) as [Z|Z]; [now apply to_float_nearest_zero|].
  specialize (H Z).
  destruct (float_setup v ToNearest Wv Z) as (T & rem & r & Y & T1 & T2 & R & HY & K & Ek & Er & Ev & F & F1 & V & V1 & Et & O1 & O2).
  assert (H' := float_near_bound _ _ _ _ Ek H). clear H Ek O2.
  assert (EC : 2 ^ 104 = 20282409603651670423947251286016) by reflexivity. assert (EW : 2 ^ 24 = 16777216) by reflexivity.
  assert (RU : float_ru T rem ToNearest = if 2 * rem <? 20282409603651670423947251286016 then 0 else if 20282409603651670423947251286016 <? 2 * rem then 1 else T mod 2) by reflexivity.
  rewrite RU in O1. clear RU. rewrite EC, EW in *. clear EC EW.
  set (t := val v * unit32) in *. clearbody t.
  destruct (N.ltb_spec (2 * rem) 20282409603651670423947251286016) as [L|L].
  { exists r. rewrite !N.add_0_r in O1. split; [apply O1; lia|].
    apply (round_near_lo 23 _ _ _ _ _ V V1); [rewrite Et; nia|rewrite Et; nia|exact F|left; rewrite Et; nia]. }
  destruct (N.ltb_spec 20282409603651670423947251286016 (2 * rem)) as [L2|L2].
  { exists (r + 1). split; [apply O1; lia|].
    apply (round_near_hi 23 _ _ _ _ _ V V1); [rewrite Et; nia|rewrite Et; nia|apply F1; lia|left; rewrite Et; nia]. }
  assert (Tie : 2 * rem = 20282409603651670423947251286016) by lia. apply (float_tie T rem Y) in Tie. rewrite <- Et in Tie.
  assert (M2 : T mod 2 = if N.even T then 0 else 1).
  { rewrite <- (N.bit0_mod T), N.bit0_odd, <- N.negb_even. destruct (N.even T); reflexivity. }
  rewrite M2 in O1. destruct (N.even T) eqn:ET.
  - rewrite !N.add_0_r in O1. exists r. split; [apply O1; lia|].
    apply (round_near_lo 23 _ _ _ _ _ V V1); [rewrite Et; nia|rewrite Et; nia|exact F|right; split; [exact Tie|congruence]].
  - exists (r + 1). split; [apply O1; lia|].
    apply (round_near_hi 23 _ _ _ _ _ V V1); [rewrite Et; nia|rewrite Et; nia|apply F1; lia|right; split; [exact Tie|congruence]].
Qed.

(** When rounding carries out of the mantissa the result is 2^k instead of 2^(k+1). *)
Lemma to_float_nearest_carry : forall v, wf v -> val v <> 0 ->
  (2 ^ 25 - 1) * 2 ^ N.log2 (val v) <= val v * 2 ^ 24 ->
  exists r, tmi_to_float_rm v ToNearest = Some r /\ value32 r = 2 ^ N.log2 (val v) * unit32.
Proof.
  intros v Wv Z H.
  destruct (float_setup v ToNearest Wv Z) as (T & rem & r & Y & T1 & T2 & R & HY & K & Ek & Er & Ev & F & F1 & V & V1 & Et & O1 & O2).
  set (k := N.log2 (val v)) in *.
  assert (P : 2 ^ k <> 0) by (apply N.pow_nonzero; discriminate).
  assert (H' : (2 ^ 25 - 1) * 2 ^ 103 <= T * 2 ^ 104 + rem).
  { apply N.mul_le_mono_pos_r with (2 ^ k); [lia|]. rewrite Ek.
    change (2 ^ 127) with (2 ^ 24 * 2 ^ 103). nia. }
  change (2 ^ 104) with 20282409603651670423947251286016 in *. change (2 ^ 24) with 16777216 in *. change (2 ^ 25 - 1) with 33554431 in *.
  change (2 ^ 103) with 10141204801825835211973625643008 in *.
  assert (ET : T = 16777216 - 1) by lia.
  exists ((127 + k) * 2 ^ 23). split.
  - apply O2. unfold float_ru. change (2 ^ 104) with 20282409603651670423947251286016. subst T.
    destruct (N.ltb_spec (2 * rem) 20282409603651670423947251286016); [lia|]. destruct (N.ltb_spec 20282409603651670423947251286016 (2 * rem)); [lia|].
    change ((16777216 - 1) mod 2) with 1. lia.
  - rewrite value32_eq. rewrite <- (N.add_0_r (_ * _)). rewrite value_fields by (reflexivity || lia).
    rewrite N.add_0_r. unfold unit32. rewrite <- !N.pow_add_r. f_equal. lia.
Qed.

