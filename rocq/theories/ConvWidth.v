(** The _w printing functions with a width that is not the digit count, built with
    TMC_CHECKED_WIDTH and without assertions. *)
From Coq Require Import Arith NArith ZArith String List Bool Lia ZifyBool ZifyNat ZifyN.
From Verif Require Import Base Tactics DigitsSpec DigitsProofs U128Text ConvModel ConvSpec ConvPrint.
Import ListNotations.
Local Open Scope N_scope.

(** [b] is [buf] with changes in the first [n] characters only. *)
Definition changed_below (n : nat) (buf b : list N) : Prop :=
  length b = length buf /\ skipn n b = skipn n buf.

Lemma changed_refl : forall n buf, changed_below n buf buf. Proof. intros. split; reflexivity. Qed.
Lemma changed_mono : forall n m buf b, changed_below n buf b -> (n <= m)%nat -> changed_below m buf b.
Proof.
  intros n m buf b [L E] H. split; [assumption|]. replace m with (n + (m - n))%nat by lia.
  rewrite <- !skipn_plus, E. reflexivity.
Qed.
Lemma changed_trans : forall n buf b c, changed_below n buf b -> changed_below n b c -> changed_below n buf c.
Proof. intros n buf b c [L1 E1] [L2 E2]. split; congruence. Qed.
Lemma changed_write : forall buf p c, (p < length buf)%nat ->
  exists b, write buf p c = Some b /\ changed_below (S p) buf b.
Proof.
  intros buf p c H. rewrite write_some by assumption. eexists. split; [reflexivity|]. split.
  - rewrite app_length, firstn_length. cbn [length]. rewrite skipn_length. lia.
  - change (firstn p buf ++ c :: skipn (S p) buf) with (firstn p buf ++ [c] ++ skipn (S p) buf).
    rewrite app_assoc. apply skipn_eq_app. rewrite app_length, firstn_length. cbn [length]. lia.
Qed.
Lemma changed_write2 : forall buf p c1 c0, (S p < length buf)%nat ->
  exists b, write2 buf (S (S p)) c1 c0 = Some b /\ changed_below (S (S p)) buf b.
Proof.
  intros buf p c1 c0 H. unfold write2. destruct (changed_write buf (S p) c0 H) as (b & E & Cb). rewrite E.
  destruct (changed_write b p c1) as (b' & E' & Cb'); [destruct Cb; lia|]. rewrite E'. exists b'.
  split; [reflexivity|]. eapply changed_trans; [exact Cb|]. eapply changed_mono; [exact Cb'|lia].
Qed.

(** ** Decimal *)
Lemma decimal_loop_width : forall pos buf v ds, canonical 10 v ds -> (pos <= length buf)%nat ->
  exists buf' pos' v' ds', decimal_loop false true pos buf v = Some (buf', pos', v') /\
    changed_below pos buf buf' /\ canonical 10 v' ds' /\ (pos' <= pos)%nat /\
    (pos + length ds' = pos' + length ds)%nat /\ (v' < 100 \/ (pos' < 2)%nat).
Proof.
  intros pos. induction pos as [pos IH] using (well_founded_induction lt_wf). intros buf v ds C L.
  rewrite decimal_loop_eq. destruct (N.leb_spec 100 v) as [Hv|Hv]; cbn [negb orb andb].
  - destruct (Nat.leb_spec 2 pos) as [Hp|Hp].
    + destruct pos as [|[|p]]; [lia|lia|]. unfold tm_assert. cbv zeta.
      destruct (double_table false (v mod 100)) as [T0 T1]; [apply N.mod_lt; lia|]. rewrite T0, T1.
      destruct (changed_write2 buf p (digit_char false (v mod 100 / 10)) (digit_char false ((v mod 100) mod 10)))
        as (b & Eb & Cb); [lia|]. rewrite Eb.
      destruct (canonical_split2 10 v ds ltac:(lia) C ltac:(lia)) as (ds1 & -> & C1).
      change (10 * 10) with 100 in C1.
      destruct (IH p ltac:(lia) b (v / 100) ds1 C1) as (buf' & pos' & v' & ds' & E & Cc & C' & Lp & Ll & S');
        [destruct Cb; lia|].
      exists buf', pos', v', ds'. split; [exact E|]. split.
      { eapply changed_trans; [exact Cb|]. eapply changed_mono; [exact Cc|lia]. }
      split; [assumption|]. split; [lia|]. split; [rewrite app_length; cbn [length]; lia|assumption].
    + exists buf, pos, v, ds. split; [reflexivity|]. split; [apply changed_refl|].
      split; [assumption|]. split; [lia|]. split; [lia|]. right. lia.
  - exists buf, pos, v, ds. split; [reflexivity|]. split; [apply changed_refl|].
    split; [assumption|]. split; [lia|]. split; [lia|]. now left.
Qed.

Lemma decimal_two : forall v ds, canonical 10 v ds ->
  (v < 10 -> length ds = 1%nat) /\ (10 <= v -> v < 100 -> length ds = 2%nat) /\ (10 <= v -> (2 <= length ds)%nat).
Proof.
  intros v ds C. pose proof (canonical_count 10 v ds ltac:(lia) C) as K. split; [|split].
  - intros H. rewrite (canonical_small_inv 10 v ds) by (assumption || lia). reflexivity.
  - intros H1 H2. eapply digit_count_unique; [|exact K|]; [lia|]. split; [lia|]. split; [exact H2|].
    intros _. exact H1.
  - intros H. destruct K as (K1 & K2 & K3). destruct (Nat.eq_dec (length ds) 1) as [E|]; [|lia].
    rewrite E in K2. change (10 ^ N.of_nat 1) with 10 in K2. lia.
Qed.

Lemma print_decimal_w_wrong : forall count buf maxlen width v ds, canonical 10 v ds ->
  (maxlen <= length buf)%nat -> width <> length ds ->
  exists buf', print_decimal_w false true count buf maxlen width v = Some (Conv maxlen EOVERFLOW, buf') /\
    changed_below maxlen buf buf'.
Proof.
  intros count buf maxlen width v ds C L Hw. unfold print_decimal_w, tm_assert.
  destruct (Nat.ltb_spec maxlen width) as [Hm|Hm].
  { exists buf. split; [reflexivity|apply changed_refl]. }
  destruct (decimal_loop_width width buf v ds C ltac:(lia)) as (buf' & pos' & v' & ds' & E & Cb & C' & Lp & Ll & S').
  rewrite E. destruct (decimal_two v' ds' C') as (T1 & T2 & T3).
  exists buf'. split; [|eapply changed_mono; [exact Cb|assumption]].
  replace (true && (((v' <? 10) && negb (pos' =? 1)%nat) || ((10 <=? v') && negb (pos' =? 2)%nat))) with true; [reflexivity|].
  symmetry. cbn [andb]. destruct (N.ltb_spec v' 10) as [H|H], (N.leb_spec 10 v') as [H'|H']; try lia; cbn [andb orb].
Qed.

(** ** Any base *)
Lemma base_loop_width : forall b lc pos buf v ds, 2 <= b -> b <= 36 -> canonical b v ds -> v <> 0 ->
  (1 <= pos)%nat -> (pos <= length buf)%nat ->
  exists buf' pos' v', base_loop false true lc b pos buf v = Some (buf', pos', v') /\
    changed_below pos buf buf' /\
    ((length ds <= pos)%nat -> v' = 0) /\ ((pos < length ds)%nat -> v' <> 0 /\ pos' = 0%nat).
Proof.
  intros b lc. induction pos as [|p IH]; intros buf v ds H1 H2 C V0 Hp L; [lia|].
  cbn [base_loop]. unfold tm_assert.
  assert (M : v mod b < b) by (apply N.mod_lt; lia).
  rewrite number_table_digit by lia.
  destruct (changed_write buf p (digit_char lc (v mod b)) ltac:(lia)) as (bf & Eb & Cb). rewrite Eb. cbv zeta.
  destruct (N.eqb_spec (v / b) 0) as [D|D]; cbn [negb andb].
  - assert (v < b) by (apply N.div_small_iff in D; lia).
    exists bf, p, (v / b). split; [reflexivity|]. split; [assumption|].
    split; [intros _; exact D|]. rewrite (canonical_small_inv b v ds) by assumption. cbn [length]. lia.
  - assert (Hv : b <= v) by (destruct (N.lt_ge_cases v b) as [Hc|]; [exfalso; apply D, N.div_small, Hc|assumption]).
    destruct (canonical_split b v ds H1 C Hv) as (ds1 & -> & C1). rewrite app_length. cbn [length].
    pose proof (canonical_length_pos _ _ _ C1) as Lp1.
    destruct (Nat.ltb_spec 0 p) as [P|P]; cbn [orb].
    + destruct (IH bf (v / b) ds1 H1 H2 C1 D ltac:(lia)) as (buf' & pos' & v' & E & Cc & A1 & A2);
        [destruct Cb; lia|].
      exists buf', pos', v'. split; [exact E|]. split.
      { eapply changed_trans; [exact Cb|]. eapply changed_mono; [exact Cc|lia]. }
      split; intros; [apply A1|apply A2]; lia.
    + exists bf, p, (v / b). split; [reflexivity|]. split; [assumption|]. split; [lia|]. intros _. split; [assumption|lia].
Qed.

Lemma print_base_w_width : forall b lc buf maxlen width v ds, 2 <= b -> b <= 36 -> canonical b v ds ->
  (maxlen <= length buf)%nat ->
  exists r, print_base_w false true buf maxlen width v b lc = Some r /\ changed_below maxlen buf (snd r) /\
    ((width < length ds)%nat -> fst r = Conv maxlen EOVERFLOW).
Proof.
  intros b lc buf maxlen width v ds H1 H2 C L. unfold print_base_w, tm_assert.
  pose proof (canonical_length_pos _ _ _ C) as Lp.
  destruct (Nat.ltb_spec maxlen width) as [Hm|Hm]; cbn [orb andb].
  { eexists. split; [reflexivity|]. split; [apply changed_refl|reflexivity]. }
  destruct (Nat.eqb_spec width 0) as [->|W0]; cbn [orb].
  { eexists. split; [reflexivity|]. split; [apply changed_refl|reflexivity]. }
  destruct (N.eqb_spec v 0) as [->|V0]; cbn [andb].
  - destruct (Nat.eqb_spec width 1) as [->|W1]; cbn [negb].
    + unfold write1. destruct (changed_write buf 0 48 ltac:(lia)) as (bf & Eb & Cb). rewrite Eb.
      eexists. split; [reflexivity|]. split; [eapply changed_mono; [exact Cb|lia]|].
      rewrite (canonical_small_inv b 0 ds) by (assumption || lia). cbn [length]. lia.
    + eexists. split; [reflexivity|]. split; [apply changed_refl|reflexivity].
  - destruct (base_loop_width b lc width buf v ds H1 H2 C V0 ltac:(lia) ltac:(lia)) as (buf' & pos' & v' & E & Cb & A1 & A2).
    rewrite E. assert (Cm : changed_below maxlen buf buf') by (eapply changed_mono; [exact Cb|lia]).
    destruct (Nat.lt_ge_cases width (length ds)) as [Hw|Hw].
    + destruct (A2 Hw) as [V' ->]. destruct (N.eqb_spec v' 0); [contradiction|]. cbn [negb andb Nat.eqb].
      eexists. split; [reflexivity|]. split; [exact Cm|reflexivity].
    + rewrite (A1 Hw). cbn [N.eqb negb andb]. eexists. split; [reflexivity|]. split; [exact Cm|]. lia.
Qed.

(** ** Hexadecimal *)
Lemma hex_loop_width : forall lc pos buf v ds, canonical 16 v ds -> v <> 0 -> (pos <= length buf)%nat ->
  exists buf' pos' v', hex_loop true lc pos buf v = Some (buf', pos', v') /\ changed_below pos buf buf' /\
    (v' < 16 \/ (pos' < 2)%nat) /\ (pos' <= pos)%nat /\
    ((v' = 0 /\ (length ds + pos' = pos)%nat) \/ (v' <> 0 /\ exists ds', canonical 16 v' ds' /\
       (pos + length ds' = pos' + length ds)%nat)).
Proof.
  intros lc pos. induction pos as [pos IH] using (well_founded_induction lt_wf). intros buf v ds C V0 L.
  rewrite hex_loop_eq. destruct (N.leb_spec 16 v) as [Hv|Hv]; cbn [negb orb andb].
  - destruct (Nat.leb_spec 2 pos) as [Hp|Hp].
    + destruct pos as [|[|p]]; [lia|lia|].
      rewrite shiftr4, !land15, !number_table_digit
        by (eapply N.lt_trans; [apply N.mod_lt; lia|lia]).
      destruct (changed_write2 buf p (digit_char lc ((v / 16) mod 16)) (digit_char lc (v mod 16))) as (b & Eb & Cb); [lia|].
      rewrite Eb, shiftr8.
      destruct (canonical_split 16 v ds ltac:(lia) C Hv) as (d1 & -> & C1). rewrite app_length. cbn [length].
      destruct (N.lt_ge_cases (v / 16) 16) as [Hs|Hs].
      * rewrite (N.div_small (v / 16)) by assumption.
        rewrite (canonical_small_inv 16 (v / 16) d1) by (assumption || lia). cbn [length].
        rewrite hex_loop_eq. cbn [N.leb N.compare andb].
        exists b, p, 0. split; [reflexivity|]. split; [exact Cb|].
        split; [left; lia|]. split; [lia|]. left. split; [reflexivity|lia].
      * destruct (canonical_split 16 (v / 16) d1 ltac:(lia) C1 Hs) as (d2 & -> & C2). rewrite app_length. cbn [length].
        assert (D0 : v / 16 / 16 <> 0) by (intro D; apply N.div_small_iff in D; lia).
        destruct (IH p ltac:(lia) b (v / 16 / 16) d2 C2 D0) as (buf' & pos' & v' & E & Cc & S' & Lp & R); [destruct Cb; lia|].
        exists buf', pos', v'. split; [exact E|]. split.
        { eapply changed_trans; [exact Cb|]. eapply changed_mono; [exact Cc|lia]. }
        split; [assumption|]. split; [lia|].
        destruct R as [[R1 R2]|(R1 & ds' & R2 & R3)]; [left; split; [assumption|lia]|right].
        split; [assumption|]. exists ds'. split; [assumption|lia].
    + exists buf, pos, v. split; [reflexivity|]. split; [apply changed_refl|]. split; [right; lia|].
      split; [lia|]. right. split; [assumption|]. exists ds. split; [assumption|lia].
  - exists buf, pos, v. split; [reflexivity|]. split; [apply changed_refl|]. split; [left; lia|].
    split; [lia|]. right. split; [assumption|]. exists ds. split; [assumption|lia].
Qed.

Lemma print_hex_w_width : forall lc buf maxlen width v ds, canonical 16 v ds ->
  (maxlen <= length buf)%nat -> (0 < width)%nat ->
  exists r, print_hex_w false true buf maxlen width v lc = Some r /\ changed_below maxlen buf (snd r) /\
    ((width < length ds)%nat -> fst r = Conv maxlen EOVERFLOW).
Proof.
  intros lc buf maxlen width v ds C L W0. unfold print_hex_w, tm_assert.
  destruct (Nat.ltb_spec maxlen width) as [Hm|Hm].
  { eexists. split; [reflexivity|]. split; [apply changed_refl|reflexivity]. }
  destruct (N.eqb_spec v 0) as [->|V0].
  - destruct (changed_write buf 0 48 ltac:(lia)) as (bf & Eb & Cb). rewrite Eb.
    eexists. split; [reflexivity|]. split; [eapply changed_mono; [exact Cb|lia]|].
    rewrite (canonical_small_inv 16 0 ds) by (assumption || lia). cbn [length]. lia.
  - destruct (hex_loop_width lc width buf v ds C V0 ltac:(lia)) as (buf' & pos' & v' & E & Cb & S' & Lp & R).
    rewrite E. assert (Cm : changed_below maxlen buf buf') by (eapply changed_mono; [exact Cb|lia]).
    destruct R as [[-> R]|(V' & ds' & C' & R)].
    + cbn [N.ltb N.compare andb orb N.eqb]. eexists. split; [reflexivity|]. split; [exact Cm|]. lia.
    + pose proof (canonical_length_pos _ _ _ C') as L1.
      destruct (N.ltb_spec 15 v') as [Hb|Hb].
      { rewrite orb_true_r. cbn [andb]. eexists. split; [reflexivity|]. split; [exact Cm|reflexivity]. }
      assert (length ds' = 1%nat) by (rewrite (canonical_small_inv 16 v' ds') by (assumption || lia); reflexivity).
      destruct (N.ltb_spec 0 v'); [|lia]. destruct (N.leb_spec v' 15); [|lia]. cbn [andb orb].
      destruct (Nat.eqb_spec pos' 1) as [->|P1]; cbn [negb orb].
      * destruct (N.eqb_spec v' 0); [contradiction|]. rewrite land15, number_table_digit
          by (eapply N.lt_trans; [apply N.mod_lt; lia|lia]).
        unfold write1. destruct (changed_write buf' 0 (digit_char lc (v' mod 16))) as (b2 & E2 & Cb2);
          [destruct Cb; lia|]. rewrite E2.
        eexists. split; [reflexivity|]. split; [|lia]. cbn [snd].
        eapply changed_trans; [exact Cm|]. eapply changed_mono; [exact Cb2|lia].
      * eexists. split; [reflexivity|]. split; [exact Cm|reflexivity].
Qed.
