(** Printing an integer and scanning the text again. *)
From Coq Require Import NArith ZArith String List Bool Lia ZifyBool ZifyNat ZifyN.
From Verif Require Import Base CTypeModel U128Text DigitsSpec DigitsProofs U128RoundTrip ConvModel ConvSpec ConvScan.
Import ListNotations.
Local Open Scope N_scope.

Lemma digit_char_not_minus : forall lc d, d < 36 -> digit_char lc d <> 45.
Proof.
  intros lc d H E. pose proof (digit_value_char lc d H) as X. rewrite E in X. discriminate.
Qed.

Lemma integer_text_ok : forall lc b z text, b <= 36 -> integer_text lc b z text ->
  Forall is_byte text /\ ~ In 0 text /\ text <> [].
Proof.
  intros lc b z text Hb (ds & C & ->).
  destruct C as (_ & F & Ne & _). destruct (chars_ok lc b ds Hb F) as [B Z0].
  destruct (z <? 0)%Z; cbn [app]; change (bytes_of "-") with [45]; cbn [app].
  - split; [|split].
    + constructor; [unfold is_byte; lia|assumption].
    + intros [X|X]; [discriminate|auto].
    + discriminate.
  - split; [assumption|]. split; [assumption|]. destruct ds; [contradiction|discriminate].
Qed.

(** The text of an integer is read as that integer. *)
Lemma scan_signed_text : forall lo hi lc b z text rest, 2 <= b -> b <= 36 -> (lo <= z <= hi)%Z ->
  integer_text lc b z text -> digit_run b rest = [] ->
  scan_signed_spec lo hi b (text ++ rest) = Integer (length text) z.
Proof.
  intros lo hi lc b z text rest H1 H2 Hz (ds & C & ->) Hr.
  rewrite spec_unsigned_part. destruct C as (N1 & F & Ne & Hd).
  destruct (Z.ltb_spec z 0) as [Hn|Hn].
  - change (bytes_of "-") with [45]. cbn [app unsigned_part]. change (45 =? 45) with true. cbv iota.
    rewrite digit_run_chars by assumption. destruct ds as [|d ds]; [contradiction|].
    rewrite N1. cbv zeta.
    replace (-1 * Z.of_N (Z.to_N (Z.abs z)))%Z with z by lia.
    replace ((lo <=? z) && (z <=? hi))%Z with true by (symmetry; apply andb_true_iff; lia).
    f_equal; cbn [length]; rewrite ?map_length; try rewrite app_length, map_length; cbn [length]; lia.
  - cbn [app]. destruct ds as [|d ds]; [contradiction|].
    unfold unsigned_part. cbn [map app].
    destruct (N.eqb_spec (digit_char lc d) 45) as [E|_].
    { exfalso. revert E. apply digit_char_not_minus. apply Forall_cons_iff in F as [Hd' _]. lia. }
    change (digit_char lc d :: map (digit_char lc) ds ++ rest) with (map (digit_char lc) (d :: ds) ++ rest).
    rewrite digit_run_chars by assumption. rewrite N1. cbv zeta.
    replace (1 * Z.of_N (Z.to_N (Z.abs z)))%Z with z by lia.
    replace ((lo <=? z) && (z <=? hi))%Z with true by (symmetry; apply andb_true_iff; lia).
    f_equal. cbn [length]. rewrite map_length. lia.
Qed.

(** What a successful print left in the buffer. *)
Lemma report_ok : forall text buf maxlen n buf', report_print text buf maxlen (Conv n OK, buf') ->
  n = length text /\ buf' = text ++ skipn n buf /\ (n <= maxlen)%nat.
Proof.
  intros text buf maxlen n buf' R. unfold report_print in R.
  destruct (Nat.leb_spec (length text) maxlen) as [H|H].
  - injection R as E1 E2. subst. auto.
  - destruct R as [R _]. discriminate R.
Qed.

Lemma Forall_skipn : forall A (P : A -> Prop) l n, Forall P l -> Forall P (skipn n l).
Proof.
  intros A P l. induction l as [|x l IH]; intros [|n] F; try assumption.
  cbn [skipn]. apply IH. apply Forall_cons_iff in F. tauto.
Qed.

Section Signed.
  Variables (W : N).
  Hypotheses (HW : W mod 2 = 0) (HW0 : 2 <= W).

  Lemma signed_round_trip : forall lc b z text buf maxlen n buf' out rest, 2 <= b -> b <= 36 ->
    (- Z.of_N (W / 2) < z < Z.of_N (W / 2))%Z -> integer_text lc b z text -> Forall is_byte buf ->
    (maxlen <= length buf)%nat ->
    report_print text buf maxlen (Conv n OK, buf') ->
    scan_signed_n W buf' n (Some out) b = Some (Conv n OK, Some z) /\
    scan_signed W (Some (firstn n buf' ++ 0 :: rest)) (Some out) b = Some (Conv n OK, Some z).
  Proof using All.
    intros lc b z text buf maxlen n buf' out rest H1 H2 Hz T Fb Lm R.
    apply report_ok in R as (-> & -> & Ln). destruct (integer_text_ok _ _ _ _ H2 T) as (B & Z0 & _).
    pose proof (scan_signed_text (- Z.of_N (W / 2)) (Z.of_N (W / 2) - 1) lc b z text [] H1 H2 ltac:(lia) T eq_refl) as E.
    rewrite app_nil_r in E. split.
    - rewrite scan_signed_n_correct; try assumption; [|apply Forall_app; split; [assumption|now apply Forall_skipn]
        |rewrite app_length; lia].
      rewrite firstn_app_exact, E. cbn [stores_minimum]. destruct (Z.eqb_spec z (- Z.of_N (W / 2))); [lia|]. reflexivity.
    - rewrite firstn_app_exact, scan_signed_correct by assumption.
      rewrite E. cbn [stores_minimum]. destruct (Z.eqb_spec z (- Z.of_N (W / 2))); [lia|]. reflexivity.
  Qed.
End Signed.

Lemma unsigned_round_trip : forall W lc b v ds buf maxlen n buf' out rest, 2 <= b -> b <= 36 -> v < W ->
  canonical b v ds -> Forall is_byte buf -> (maxlen <= length buf)%nat ->
  report_print (map (digit_char lc) ds) buf maxlen (Conv n OK, buf') ->
  scan_unsigned_n W buf' n (Some out) b = Some (Conv n OK, Some v) /\
  scan_unsigned W (Some (firstn n buf' ++ 0 :: rest)) (Some out) b = Some (Conv n OK, Some v).
Proof.
  intros W lc b v ds buf maxlen n buf' out rest H1 H2 Hv C Fb Lm R.
  apply report_ok in R as (-> & -> & Ln).
  destruct (chars_ok lc b ds H2 ltac:(now destruct C as (_ & F & _))) as [B Z0].
  pose proof (scan_print (W - 1) b lc v ds [] H1 H2 C ltac:(lia) eq_refl) as E. rewrite app_nil_r in E.
  rewrite map_length in *. split.
  - rewrite scan_unsigned_n_correct; try assumption; [|lia|apply Forall_app; split; [assumption|now apply Forall_skipn]
      |rewrite app_length, map_length; lia].
    pose proof (firstn_app_exact N (map (digit_char lc) ds) (skipn (length ds) buf)) as X. rewrite map_length in X.
    rewrite X, E. reflexivity.
  - pose proof (firstn_app_exact N (map (digit_char lc) ds) (skipn (length ds) buf)) as X. rewrite map_length in X.
    rewrite X, scan_unsigned_correct, E by (assumption || lia). reflexivity.
Qed.
