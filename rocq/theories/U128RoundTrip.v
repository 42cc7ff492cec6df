From Coq Require Import NArith ZArith List Bool Lia ZifyBool ZifyNat ZifyN.
From Verif Require Import Base CTypeModel U128Model U128Spec Tactics U128Proofs U128Scan U128Div
  DigitsSpec DigitsProofs U128TextModel U128Text.
Import ListNotations.
Local Open Scope N_scope.

Lemma digit_char_byte : forall lc d, d < 36 -> is_byte (digit_char lc d).
Proof.
  intros lc d H. apply N.ltb_lt.
  apply (forall_lt_N 36 (fun d => digit_char lc d <? 256)); [destruct lc; vm_compute; reflexivity|exact H].
Qed.

Lemma chars_ok : forall lc b ds, b <= 36 -> Forall (fun d => d < b) ds ->
  Forall is_byte (map (digit_char lc) ds) /\ ~ In 0 (map (digit_char lc) ds).
Proof.
  intros lc b ds Hb F. induction F as [|d ds Hd F [I1 I2]]; cbn [map].
  - split; [constructor|auto].
  - split; [constructor; [apply digit_char_byte; lia|assumption]|].
    intros [E|E]; [|auto]. apply (digit_char_nonzero lc d); [lia|assumption].
Qed.

Lemma firstn_app_exact : forall A (a b : list A), firstn (length a) (a ++ b) = a.
Proof. intros. rewrite firstn_app, firstn_all, Nat.sub_diag. cbn. apply app_nil_r. Qed.

(** Printing into a large enough buffer, then scanning what was printed. *)
Lemma print_scan : forall buf maxlen v b lc out rest, 2 <= b -> b <= 36 -> wf v ->
  (maxlen <= length buf)%nat -> Forall is_byte buf ->
  forall n buf', tmi_print_u128 buf maxlen v b lc = Some (Conv n OK, buf') ->
  tmi_scan_u128_n buf' n out b = Some (Conv n OK, v) /\
  tmi_scan_u128 (Some (firstn n buf' ++ 0 :: rest)) out b = Some (Conv n OK, v).
Proof.
  intros buf maxlen v b lc out rest H1 H2 Wv Lb Fb n buf' E.
  destruct (canonical_exists b (val v) H1) as [ds C].
  rewrite (print_u128_correct buf maxlen v b lc ds) in E by assumption.
  destruct (Nat.leb_spec (length ds) maxlen) as [L|L]; [|discriminate].
  injection E as En Eb. subst n buf'.
  set (cs := map (digit_char lc) ds).
  assert (Lc : length cs = length ds) by apply map_length.
  assert (C' := C). destruct C' as (_ & F & _).
  destruct (chars_ok lc b ds H2 F) as [F1 F2]. fold cs in F1, F2.
  assert (Vm : val v <= 2 ^ 128 - 1).
  { pose proof (val_lt_wf v Wv). change (2 ^ 128) with W128 in *. lia. }
  assert (S : scan_spec (2 ^ 128 - 1) b cs = Number (length ds) (val v)).
  { rewrite <- (app_nil_r cs). apply scan_print; auto. }
  assert (Fn : firstn (length ds) (cs ++ skipn (length ds) buf) = cs).
  { rewrite <- Lc. apply firstn_app_exact. }
  split.
  - destruct (scan_u128_n_correct (cs ++ skipn (length ds) buf) (length ds) out b H1 H2) as (r & Er & R).
    + apply Forall_app. split; [assumption|].
      rewrite <- (firstn_skipn (length ds) buf), Forall_app in Fb. apply Fb.
    + rewrite app_length. lia.
    + rewrite Er. rewrite Fn, S in R. destruct R as (w & -> & Ww & Vw).
      rewrite (val_inj w v Ww Wv Vw). reflexivity.
  - rewrite Fn.
    destruct (scan_u128_correct cs rest out b H1 H2 F1 F2) as (r & Er & R).
    rewrite Er. rewrite S in R. destruct R as (w & -> & Ww & Vw).
    rewrite (val_inj w v Ww Wv Vw). reflexivity.
Qed.

Lemma from_string_correct : forall s rest b, 2 <= b -> b <= 36 -> Forall is_byte s -> ~ In 0 s ->
  exists r, tmi_from_string (Some (s ++ 0 :: rest)) b = Some r /\ wf r /\
    val r = match scan_spec (2 ^ 128 - 1) b s with Number _ v => v | _ => 0 end.
Proof.
  intros s rest b H1 H2 F N0. unfold tmi_from_string.
  destruct (scan_u128_correct s rest tmi_zero b H1 H2 F N0) as (r & E & R). rewrite E.
  destruct (scan_spec _ b s); cbn [reports] in R.
  - subst r. exists tmi_zero. repeat split.
  - subst r. exists tmi_zero. repeat split.
  - destruct R as (w & -> & Ww & Vw). exists w. auto.
Qed.
Lemma from_string_n_correct : forall s len b, 2 <= b -> b <= 36 -> Forall is_byte s -> (len <= length s)%nat ->
  exists r, tmi_from_string_n s len b = Some r /\ wf r /\
    val r = match scan_spec (2 ^ 128 - 1) b (firstn len s) with Number _ v => v | _ => 0 end.
Proof.
  intros s len b H1 H2 F L. unfold tmi_from_string_n.
  destruct (scan_u128_n_correct s len tmi_zero b H1 H2 F L) as (r & E & R). rewrite E.
  destruct (scan_spec _ b _); cbn [reports] in R.
  - subst r. exists tmi_zero. repeat split.
  - subst r. exists tmi_zero. repeat split.
  - destruct R as (w & -> & Ww & Vw). exists w. auto.
Qed.

(** tmi_to_bytes is the little endian byte sequence. *)
Lemma horner : forall x k m, k + 8 = m ->
  (x / 2 ^ k) mod 256 + 256 * (x / 2 ^ m) = x / 2 ^ k.
Proof.
  intros x k m <-. rewrite N.pow_add_r, <- N.div_div by (apply N.pow_nonzero; discriminate).
  change (2 ^ 8) with 256. rewrite N.add_comm. symmetry. apply N.div_mod. discriminate.
Qed.
Lemma word_bytes : forall x acc, x < 2 ^ 64 ->
  fold_right (fun b acc => b + 256 * acc) acc (map (fun i => N.land (N.shiftr x (8 * i)) 0xFF) [0;1;2;3;4;5;6;7])
  = x + 2 ^ 64 * acc.
Proof.
  intros x acc Hx. cbn [map fold_right]. rewrite !land_mask8, !N.shiftr_div_pow2.
  change (8 * 0) with 0. change (8 * 1) with 8. change (8 * 2) with 16. change (8 * 3) with 24.
  change (8 * 4) with 32. change (8 * 5) with 40. change (8 * 6) with 48. change (8 * 7) with 56.
  pose proof (horner x 0 8 eq_refl) as H0. pose proof (horner x 8 16 eq_refl) as H1.
  pose proof (horner x 16 24 eq_refl) as H2. pose proof (horner x 24 32 eq_refl) as H3.
  pose proof (horner x 32 40 eq_refl) as H4. pose proof (horner x 40 48 eq_refl) as H5.
  pose proof (horner x 48 56 eq_refl) as H6. pose proof (horner x 56 64 eq_refl) as H7.
  assert (E : x / 2 ^ 64 = 0) by (apply N.div_small; assumption).
  assert (E0 : x / 2 ^ 0 = x) by apply N.div_1_r.
  rewrite E in H7. rewrite E0 in *.
  change (2 ^ 64) with W64 in *.
  set (a1 := x / 2 ^ 8) in *. set (a2 := x / 2 ^ 16) in *. set (a3 := x / 2 ^ 24) in *.
  set (a4 := x / 2 ^ 32) in *. set (a5 := x / 2 ^ 40) in *. set (a6 := x / 2 ^ 48) in *.
  set (a7 := x / 2 ^ 56) in *.
  set (m0 := x mod 256) in *. set (m1 := a1 mod 256) in *. set (m2 := a2 mod 256) in *.
  set (m3 := a3 mod 256) in *. set (m4 := a4 mod 256) in *. set (m5 := a5 mod 256) in *.
  set (m6 := a6 mod 256) in *. set (m7 := a7 mod 256) in *.
  clearbody a1 a2 a3 a4 a5 a6 a7 m0 m1 m2 m3 m4 m5 m6 m7. clear E E0.
  lia.
Qed.

Lemma to_bytes_correct : forall v, wf v ->
  length (tmi_to_bytes v) = 16%nat /\ Forall is_byte (tmi_to_bytes v) /\
  fold_right (fun b acc => b + 256 * acc) 0 (tmi_to_bytes v) = val v.
Proof.
  intros v [Hl Hh]. split; [reflexivity|]. split.
  - apply Forall_forall. intros x Hx. unfold tmi_to_bytes in Hx. apply in_app_iff in Hx.
    destruct Hx as [Hx|Hx]; apply in_map_iff in Hx; destruct Hx as (i & <- & _);
      rewrite land_mask8; unfold is_byte; apply N.mod_lt; discriminate.
  - unfold tmi_to_bytes. rewrite fold_right_app, word_bytes, word_bytes by assumption.
    unfold val. lia.
Qed.
