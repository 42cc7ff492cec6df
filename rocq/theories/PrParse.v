(** tm_print.h: placeholders are read as they are meant; the packed argument types; proofs *)
From Coq Require Import Arith NArith ZArith List Bool Lia Ascii String.
From Verif Require Import Base DigitsSpec PrModel PrSpec.
Import ListNotations.
Local Open Scope nat_scope.

Lemma digit_char_decimal d : (d < 10)%N -> digit_char true d = (48 + d)%N.
Proof.
  intros H. assert (D : (d = 0 \/ d = 1 \/ d = 2 \/ d = 3 \/ d = 4 \/ d = 5 \/ d = 6 \/ d = 7 \/ d = 8 \/ d = 9)%N) by lia.
  repeat (destruct D as [-> | D]; [reflexivity|]). subst. reflexivity.
Qed.
Lemma digits_text_length ds : List.length (digits_text ds) = List.length ds.
Proof. apply map_length. Qed.
Definition no_digit (s : list N) : Prop := match s with c :: _ => is_digit c = false | [] => True end.
Lemma scan_digits_spec ds : decimal ds -> forall rest n v, no_digit rest ->
  scan_digits (digits_text ds ++ rest) n v = (n + List.length ds, fold_left (fun a d => (a * 10 + d)%N) ds v).
Proof.
  induction 1 as [|d ds H D IH]; intros rest n v R.
  - cbn [digits_text map app List.length fold_left]. rewrite Nat.add_0_r. destruct rest as [|c rest]; [reflexivity|].
    cbn [scan_digits]. unfold no_digit in R. rewrite R. reflexivity.
  - cbn [digits_text map app]. rewrite digit_char_decimal by exact H. cbn [scan_digits].
    assert (E : is_digit (48 + d) = true) by (unfold is_digit; apply andb_true_iff; split; apply N.leb_le; lia).
    rewrite E. fold (digits_text ds). rewrite IH by exact R. cbn [List.length fold_left]. f_equal; [lia|]. f_equal. lia.
Qed.
Lemma scan_number ds rest maxlen : decimal ds -> ds <> [] -> (number 10 ds < 4294967296)%N -> no_digit rest -> List.length ds <= maxlen ->
  scan_u32_n (digits_text ds ++ rest) maxlen = Some (List.length ds, number 10 ds).
Proof.
  intros D ND B R L. unfold scan_u32_n.
  assert (0 < List.length ds) by (destruct ds; [congruence|cbn [List.length]; lia]).
  destruct (Nat.eqb_spec maxlen 0) as [C|_]; [lia|].
  destruct ds as [|d ds]; [congruence|]. set (l := d :: ds) in *.
  assert (Hd : (d < 10)%N) by (inversion D; assumption).
  assert (E1 : skip_spaces (digits_text l ++ rest) = (0, digits_text l ++ rest)).
  { subst l. cbn [digits_text map app skip_spaces]. rewrite digit_char_decimal by exact Hd.
    assert (E : is_space (48 + d) = false).
    { unfold is_space. apply orb_false_iff. split; [apply N.eqb_neq; lia|]. apply andb_false_iff. right. apply N.leb_gt. lia. }
    rewrite E. reflexivity. }
  rewrite E1.
  assert (E2 : (match digits_text l ++ rest with 43%N :: s => (1, false, s) | 45%N :: s => (1, true, s) | _ => (0, false, digits_text l ++ rest) end)
    = (0, false, digits_text l ++ rest)).
  { subst l. cbn [digits_text map app]. rewrite digit_char_decimal by exact Hd.
    assert (C : (d = 0 \/ d = 1 \/ d = 2 \/ d = 3 \/ d = 4 \/ d = 5 \/ d = 6 \/ d = 7 \/ d = 8 \/ d = 9)%N) by lia.
    repeat (destruct C as [-> | C]; [reflexivity|]). subst. reflexivity. }
  rewrite E2. rewrite (scan_digits_spec l D rest 0 0 R). cbn [Nat.add]. fold (number 10 l).
  destruct (List.length l) as [|n] eqn:EL; [lia|]. rewrite <- EL in *.
  destruct (N.ltb_spec 18446744073709551615 (number 10 l)) as [C|_]; [lia|].
  cbn [Nat.add]. destruct (Nat.leb_spec (List.length l) maxlen) as [_|C]; [|lia]. rewrite N.mod_small by lia. reflexivity.
Qed.
Definition no_number (s : list N) : Prop :=
  match s with c :: _ => is_digit c = false /\ is_space c = false /\ c <> 43%N /\ c <> 45%N | [] => True end.
Lemma scan_none s maxlen : no_number s -> scan_u32_n s maxlen = None.
Proof.
  intros H. unfold scan_u32_n. destruct (maxlen =? 0); [reflexivity|]. destruct s as [|c s]; [reflexivity|].
  destruct H as [H1 [H2 [H3 H4]]]. cbn [skip_spaces]. rewrite H2.
  assert (E2 : (match c :: s with 43%N :: s => (1, false, s) | 45%N :: s => (1, true, s) | _ => (0, false, c :: s) end) = (0, false, c :: s)).
  { destruct c as [|c]; [reflexivity|]. do 6 (try destruct c as [c|c|]; try reflexivity); congruence. }
  rewrite E2. cbn [scan_digits]. rewrite H1. reflexivity.
Qed.

Definition no_flag (s : list N) : Prop := match s with c :: _ => c <> 45%N /\ c <> 43%N /\ c <> 32%N /\ c <> 35%N /\ c <> 48%N | [] => True end.
Lemma parse_flags_spec fl : forall s len st, no_flag s \/ len = 0 ->
  parse_flags (map flag_char fl ++ s) (List.length fl + len) st =
  (SpecFlags (s_left st || has Minus fl) (s_sign st || has Plus fl) (padding_flag fl (s_spaces st)) (s_pound st || has Pound fl), s, len).
Proof.
  induction fl as [|x fl IH]; intros s len st H.
  - cbn [map app List.length Nat.add has existsb padding_flag]. rewrite !orb_false_r. destruct st as [a b c d]. cbn [s_left s_sign s_spaces s_pound].
    destruct H as [H| ->].
    + destruct len as [|len]; [destruct s; reflexivity|]. destruct s as [|c' s]; [reflexivity|]. cbn [parse_flags]. destruct H as [H1 [H2 [H3 [H4 H5]]]].
      rewrite (proj2 (N.eqb_neq c' 45) H1), (proj2 (N.eqb_neq c' 43) H2), (proj2 (N.eqb_neq c' 32) H3), (proj2 (N.eqb_neq c' 35) H4), (proj2 (N.eqb_neq c' 48) H5). reflexivity.
    + destruct s; reflexivity.
  - cbn [map app List.length Nat.add]. destruct x; cbn [flag_char parse_flags]; cbn [N.eqb Pos.eqb]; rewrite IH by exact H;
      cbn [s_left s_sign s_spaces s_pound has existsb flag_eqb padding_flag orb]; rewrite ?orb_true_r, ?orb_true_l, ?orb_false_l; reflexivity.
Qed.

(** the end of a specification: precision and specifier *)
Definition tail_text (x : spec) : list N :=
  (match sp_precision x with Some ds => 46%N :: digits_text ds | None => [] end) ++ (match sp_specifier x with Some c => [specifier_char c] | None => [] end).
Lemma to_int_small n : (n < 2147483648)%N -> to_int n = Z.of_N n.
Proof. intros H. unfold to_int. destruct (N.ltb_spec n 2147483648); [reflexivity|lia]. Qed.
Lemma skipn_app_exact (a b : list N) n : List.length a = n -> skipn n (a ++ b) = b.
Proof. intros <-. rewrite skipn_app, skipn_all, Nat.sub_diag. reflexivity. Qed.

Lemma parse_format_spec x rest : spec_ok x ->
  parse_format (spec_text x ++ 125%N :: rest) (List.length (spec_text x)) = (format_of x, 0).
Proof.
  intros [DW [HW [BW PR]]]. unfold parse_format, spec_text. fold (tail_text x).
  set (W := digits_text (sp_width x)). set (T := tail_text x).
  rewrite <- !app_assoc. rewrite app_length, map_length.
  assert (NF : no_flag (W ++ T ++ 125%N :: rest) \/ List.length (W ++ T) = 0).
  { subst W. destruct (sp_width x) as [|d ds].
    - cbn [digits_text map app]. subst T. unfold tail_text. destruct (sp_precision x) as [ds|]; [left; cbn [app no_flag]; repeat split; discriminate|].
      destruct (sp_specifier x) as [c|]; [|right; reflexivity]. left. destruct c; cbn [app no_flag specifier_char]; repeat split; discriminate.
    - left. cbn [digits_text map app no_flag]. cbn [hd] in HW. inversion DW; subst. rewrite digit_char_decimal by assumption. repeat split; lia. }
  fold (tail_text x). fold T.
  rewrite (parse_flags_spec (sp_flags x) (W ++ T ++ 125%N :: rest) (List.length (W ++ T)) (SpecFlags false false true false) NF).
  cbn [s_left s_sign s_spaces s_pound orb].
  assert (TN : no_digit (T ++ 125%N :: rest)).
  { subst T. unfold tail_text. destruct (sp_precision x); [reflexivity|]. destruct (sp_specifier x) as [c|]; [destruct c|]; reflexivity. }
  assert (EW : match scan_u32_n (W ++ T ++ 125%N :: rest) (List.length (W ++ T)) with
    | Some (n, v) => (to_int v, skipn n (W ++ T ++ 125%N :: rest), List.length (W ++ T) - n) | None => (0%Z, W ++ T ++ 125%N :: rest, List.length (W ++ T)) end
    = (Z.of_N (number 10 (sp_width x)), T ++ 125%N :: rest, List.length T)).
  { subst W. destruct (sp_width x) as [|d ds] eqn:E.
    - cbn [digits_text map app]. rewrite scan_none; [reflexivity|].
      subst T. unfold tail_text. destruct (sp_precision x); [repeat split; discriminate|]. destruct (sp_specifier x) as [c|]; [destruct c|]; repeat split; discriminate.
    - rewrite <- E in *. rewrite scan_number; try assumption; [|congruence|lia|rewrite app_length, digits_text_length; lia].
      rewrite to_int_small by exact BW. rewrite skipn_app_exact by apply digits_text_length. rewrite app_length, digits_text_length.
      f_equal. lia. }
  rewrite EW. clear EW NF.
  set (S := match sp_specifier x with Some c => [specifier_char c] | None => [] end).
  assert (EP : match List.length T, T ++ 125%N :: rest with
    | S len', 46%N :: s' => match scan_u32_n s' len' with Some (n, v) => (to_int v, skipn n s', len' - n) | None => (6%Z, s', len') end
    | _, _ => (6%Z, T ++ 125%N :: rest, List.length T) end
    = (match sp_precision x with None | Some [] => 6%Z | Some ds => Z.of_N (number 10 ds) end, S ++ 125%N :: rest, List.length S)).
  { subst T. unfold tail_text. fold S. destruct (sp_precision x) as [ds|] eqn:E.
    - cbn [app List.length]. destruct PR as [DP BP]. destruct ds as [|d ds].
      + cbn [digits_text map app]. rewrite scan_none; [reflexivity|]. subst S. destruct (sp_specifier x) as [c|]; [destruct c|]; repeat split; discriminate.
      + set (l := d :: ds) in *. rewrite <- app_assoc. rewrite scan_number; try assumption; [|subst l; congruence|lia| |rewrite app_length, digits_text_length; lia].
        * rewrite to_int_small by exact BP. rewrite skipn_app_exact by apply digits_text_length. rewrite app_length, digits_text_length. f_equal. lia.
        * subst S. destruct (sp_specifier x) as [c|]; [destruct c|]; reflexivity.
    - cbn [app]. subst S. destruct (sp_specifier x) as [c|]; [destruct c|]; reflexivity. }
  rewrite EP. clear EP. unfold format_of. subst S. destruct (sp_specifier x) as [c|]; [|cbn [List.length app]; cbn [one_of]; rewrite !andb_false_r; reflexivity].
  cbn [List.length app]. destruct c; cbn [specifier_char one_of existsb]; cbn [N.eqb Pos.eqb]; cbn [orb]; rewrite ?andb_false_r, ?andb_true_r; reflexivity.
Qed.

Lemma parse_specifiers_spec index x rest initial next :
  piece_ok (Hole index x) ->
  parse_specifiers (hole_text index x ++ 125%N :: rest) (List.length (hole_text index x)) initial next =
  (match index with Some _ => true | None => false end, match index with Some ds => number 10 ds | None => next end,
   match x with Some x => format_of x | None => initial end).
Proof.
  intros [HI HX]. unfold parse_specifiers, hole_text.
  set (X := match x with Some x => 58%N :: spec_text x | None => [] end).
  assert (XN : no_digit (X ++ 125%N :: rest)) by (subst X; destruct x; reflexivity).
  assert (XE : forall (g : bool) (i : N), match List.length X, X ++ 125%N :: rest with S len', 58%N :: s' => (g, i, fst (parse_format s' len')) | _, _ => (g, i, initial) end
    = (g, i, match x with Some x => format_of x | None => initial end)).
  { intros g i. subst X. destruct x as [x|]; [|reflexivity]. cbn [List.length app]. rewrite (parse_format_spec x rest HX). reflexivity. }
  destruct index as [ds|].
  - destruct HI as [ND [D B]]. rewrite <- app_assoc.
    assert (0 < List.length ds) by (destruct ds; [congruence|cbn [List.length]; lia]).
    rewrite app_length, digits_text_length. destruct (Nat.eqb_spec (List.length ds + List.length X) 0) as [C|_]; [lia|].
    rewrite scan_number; try assumption; [|lia]. rewrite skipn_app_exact by apply digits_text_length.
    replace (List.length ds + List.length X - List.length ds) with (List.length X) by lia. apply XE.
  - cbn [app]. destruct (Nat.eqb_spec (List.length X) 0) as [C|_].
    + subst X. destruct x; [discriminate|reflexivity].
    + rewrite scan_none; [apply XE|]. subst X. destruct x; repeat split; discriminate.
Qed.

(** no closing or opening brace inside *)
Lemma digits_no_brace ds c : decimal ds -> In c (digits_text ds) -> c <> 123%N /\ c <> 125%N.
Proof.
  intros D H. unfold digits_text in H. apply in_map_iff in H. destruct H as [d [<- Hd]]. unfold decimal in D. rewrite Forall_forall in D.
  rewrite digit_char_decimal by (apply D; exact Hd). specialize (D d Hd). cbn beta in D. lia.
Qed.
Lemma hole_no_brace index x c : piece_ok (Hole index x) -> In c (hole_text index x) -> c <> 123%N /\ c <> 125%N.
Proof.
  intros [HI HX] H. unfold hole_text in H. apply in_app_or in H. destruct H as [H|H].
  - destruct index as [ds|]; [|destruct H]. eapply digits_no_brace; [apply HI|exact H].
  - destruct x as [x|]; [|destruct H]. destruct H as [<-|H]; [split; discriminate|].
    destruct HX as [DW [_ [_ PR]]]. unfold spec_text in H. rewrite !in_app_iff in H. destruct H as [H|[H|[H|H]]].
    + apply in_map_iff in H. destruct H as [y [<- _]]. destruct y; split; discriminate.
    + eapply digits_no_brace; [exact DW|exact H].
    + destruct (sp_precision x) as [ds|]; [|destruct H]. destruct H as [<-|H]; [split; discriminate|]. eapply digits_no_brace; [apply PR|exact H].
    + destruct (sp_specifier x) as [y|]; [|destruct H]. destruct H as [<-|[]]. destruct y; split; discriminate.
Qed.

(** ** The types of the arguments *)
Lemma type_code_small v : (0 < type_code v < 12)%N.
Proof. destruct v; cbn [type_code]; lia. Qed.
Lemma code_pack v m : N.lor (type_code v) (m * 16) = (type_code v + 16 * m)%N.
Proof.
  pose proof (type_code_small v).
  assert (D : N.land (type_code v) (m * 16) = 0%N).
  { change 16%N with (2 ^ 4)%N. rewrite <- N.shiftl_mul_pow2.
    apply N.bits_inj. intros i. rewrite N.land_spec, N.bits_0. destruct (N.lt_ge_cases i 4) as [C|C].
    + rewrite N.shiftl_spec_low by exact C. apply andb_false_r.
    + rewrite (N.bits_above_log2 (type_code v) i); [reflexivity|]. apply N.log2_lt_pow2; [lia|]. eapply N.lt_le_trans; [|apply N.pow_le_mono_r with (b := 4%N); [lia|exact C]]. change (2 ^ 4)%N with 16%N. lia. }
  rewrite <- N.lxor_lor by exact D. rewrite <- N.add_nocarry_lxor by exact D. lia.
Qed.
Lemma type_flags_bound args : List.length args <= 16 -> (type_flags args < 16 ^ N.of_nat (List.length args))%N.
Proof.
  induction args as [|v args IH]; intros L; [cbn; lia|]. cbn [List.length] in L. specialize (IH ltac:(lia)).
  cbn [type_flags List.length]. pose proof (type_code_small v).
  assert (P : (16 ^ N.of_nat (S (List.length args)) = 16 * 16 ^ N.of_nat (List.length args))%N).
  { replace (N.of_nat (S (List.length args))) with (N.succ (N.of_nat (List.length args))) by lia. apply N.pow_succ_r'. }
  assert (Q : (16 ^ N.of_nat (List.length args) <= 16 ^ 15)%N) by (apply N.pow_le_mono_r; lia).
  rewrite N.shiftl_mul_pow2. change (2 ^ 4)%N with 16%N. rewrite N.mod_small by (change (16 ^ 15)%N with 1152921504606846976%N in Q; lia).
  rewrite code_pack, P. lia.
Qed.
Lemma type_flags_cons v args : List.length args <= 15 -> type_flags (v :: args) = (type_code v + 16 * type_flags args)%N.
Proof.
  intros L. cbn [type_flags]. pose proof (type_flags_bound args ltac:(lia)) as B.
  assert (Q : (16 ^ N.of_nat (List.length args) <= 16 ^ 15)%N) by (apply N.pow_le_mono_r; lia).
  rewrite N.shiftl_mul_pow2. change (2 ^ 4)%N with 16%N. rewrite N.mod_small by (change (16 ^ 15)%N with 1152921504606846976%N in Q; lia).
  apply code_pack.
Qed.
Lemma type_lookup args : List.length args <= 16 -> forall i, 
  N.land (N.shiftr (type_flags args) (N.of_nat i * 4)) 15 = match nth_error args i with Some v => type_code v | None => 0%N end.
Proof.
  induction args as [|v args IH]; intros L i.
  - cbn [type_flags]. rewrite N.shiftr_0_l. destruct i; reflexivity.
  - cbn [List.length] in L. rewrite type_flags_cons by lia. pose proof (type_code_small v). destruct i as [|i].
    + cbn [nth_error]. change (N.of_nat 0 * 4)%N with 0%N. rewrite N.shiftr_0_r. change 15%N with (N.ones 4). rewrite N.land_ones. change (2 ^ 4)%N with 16%N.
      rewrite (N.mul_comm 16), N.mod_add by lia. apply N.mod_small. lia.
    + cbn [nth_error]. rewrite <- IH by lia. f_equal. replace (N.of_nat (S i) * 4)%N with (4 + N.of_nat i * 4)%N by lia. rewrite <- N.shiftr_shiftr. f_equal.
      rewrite N.shiftr_div_pow2. change (2 ^ 4)%N with 16%N. rewrite N.add_comm, N.mul_comm, N.div_add_l by lia. rewrite (N.div_small (type_code v)) by lia. lia.
Qed.

(** ** Digits *)
Lemma digit_spec lower d : (d < 36)%N -> digit lower d = digit_char lower d.
Proof.
  intros H. assert (E : forallb (fun n => (digit lower (N.of_nat n) =? digit_char lower (N.of_nat n))%N) (seq 0 36) = true) by (destruct lower; vm_compute; reflexivity).
  rewrite forallb_forall in E. specialize (E (N.to_nat d)). apply N.eqb_eq. rewrite <- (N2Nat.id d). apply E. apply in_seq. lia.
Qed.
Lemma digits_loop_acc fuel base v acc : digits_loop fuel base v acc = digits_loop fuel base v [] ++ acc.
Proof.
  revert v acc. induction fuel as [|fuel IH]; intros v acc; [reflexivity|]. cbn [digits_loop]. destruct (v / base =? 0)%N; [reflexivity|].
  rewrite IH. rewrite (IH _ [_]). rewrite <- app_assoc. reflexivity.
Qed.
Lemma digits_loop_canonical base : (2 <= base)%N -> forall fuel v, (v < 2 ^ N.of_nat fuel)%N -> canonical base v (digits_loop (S fuel) base v []).
Proof.
  intros HB. induction fuel as [|fuel IH]; intros v Hv.
  - assert (v = 0%N) by (cbn in Hv; lia). subst. cbn [digits_loop]. rewrite N.mod_0_l, N.div_0_l by lia. cbn [N.eqb].
    split; [reflexivity|]. split; [constructor; [lia|constructor]|]. split; [discriminate|reflexivity].
  - remember (S fuel) as k. cbn [digits_loop]. destruct (N.eqb_spec (v / base) 0) as [C|C].
    + assert (v < base)%N by (apply N.div_small_iff; [lia|exact C]). rewrite N.mod_small by assumption.
      split; [unfold number; cbn [fold_left]; lia|]. split; [constructor; [assumption|constructor]|]. split; [discriminate|]. cbn [hd]. intros ->. reflexivity.
    + rewrite digits_loop_acc. subst k.
      assert (Hq : (v / base < 2 ^ N.of_nat fuel)%N).
      { apply N.div_lt_upper_bound; [lia|]. replace (N.of_nat (S fuel)) with (N.succ (N.of_nat fuel)) in Hv by lia. rewrite N.pow_succ_r' in Hv. nia. }
      destruct (IH _ Hq) as [E [F [ND HZ]]]. split; [|split; [|split]].
      * unfold number in *. rewrite fold_left_app. cbn [fold_left]. rewrite E. rewrite (N.div_mod v base) at 3 by lia. lia.
      * apply Forall_app. split; [exact F|]. constructor; [apply N.mod_lt; lia|constructor].
      * intros C2. apply app_eq_nil in C2. destruct C2; discriminate.
      * intros C2. exfalso. destruct (digits_loop (S fuel) base (v / base) []) as [|a l] eqn:El; [congruence|]. cbn [hd app] in *. rewrite HZ in E by exact C2. cbn in E. congruence.
Qed.
Lemma canonical_unique b v d1 d2 : (2 <= b)%N -> canonical b v d1 -> canonical b v d2 -> d1 = d2.
Proof.
  intros HB. revert v d2. induction d1 as [|x d1 IH] using rev_ind; intros v d2 C1 C2; [destruct C1 as [_ [_ [C _]]]; congruence|].
  destruct (@exists_last _ d2) as [d2' [y E2]]; [apply C2|]. subst d2. rename d2' into d2.
  destruct C1 as [E1 [F1 [_ Z1]]], C2 as [E2 [F2 [_ Z2]]]. unfold number in *. rewrite fold_left_app in *. cbn [fold_left] in *.
  apply Forall_app in F1. apply Forall_app in F2. destruct F1 as [F1 X1], F2 as [F2 X2]. inversion X1; subst. inversion X2; subst. clear X1 X2.
  set (n1 := fold_left (fun a d => (a * b + d)%N) d1 0%N) in *. set (n2 := fold_left (fun a d => (a * b + d)%N) d2 0%N) in *.
  assert (A : n1 = n2 /\ x = y). { apply (N.div_mod_unique b); [assumption|assumption|]. rewrite !(N.mul_comm b). congruence. }
  destruct A as [A ->]. f_equal.
  assert (POS : forall d, hd 1%N d <> 0%N -> d <> [] -> (fold_left (fun a d => (a * b + d)%N) d 0 <> 0)%N).
  { intros d. assert (MN : forall d a, (a <> 0)%N -> (fold_left (fun a d => (a * b + d)%N) d a <> 0)%N).
    { clear - HB. induction d as [|z d IHd]; intros a Ha; [exact Ha|]. cbn [fold_left]. apply IHd. nia. }
    destruct d as [|z d]; [congruence|]. cbn [hd fold_left]. intros Hz _. apply MN. lia. }
  assert (G1 : d1 = [] \/ (d1 <> [] /\ hd 1%N d1 <> 0%N)).
  { destruct d1 as [|a d1]; [left; reflexivity|]. right. split; [discriminate|]. cbn [hd app] in *. intros ->. specialize (Z1 eq_refl). destruct d1; discriminate. }
  assert (G2 : d2 = [] \/ (d2 <> [] /\ hd 1%N d2 <> 0%N)).
  { destruct d2 as [|a d2]; [left; reflexivity|]. right. split; [discriminate|]. cbn [hd app] in *. intros ->. specialize (Z2 eq_refl). destruct d2; discriminate. }
  destruct G1 as [-> | [N1 P1]], G2 as [-> | [N2 P2]]; [reflexivity| | |].
  - exfalso. apply (POS d2 P2 N2). fold n2. subst n2. rewrite <- A. reflexivity.
  - exfalso. apply (POS d1 P1 N1). fold n1. rewrite A. reflexivity.
  - apply (IH n1); unfold canonical, number; fold n1; [|fold n2]; repeat split; try assumption; try congruence.
Qed.
Lemma unsigned_text_shows v f : base_ok f -> exists ds, canonical (f_base f) v ds /\ unsigned_text v f = map (digit_char (f_lower f)) ds.
Proof.
  intros B. unfold unsigned_text.
  set (base := (if (f_base f =? 16)%N then 16 else if (f_base f =? 8)%N then 8 else 10)%N).
  assert (E : base = f_base f) by (subst base; destruct B as [B|[B|B]]; rewrite B; reflexivity).
  rewrite E. eexists. split.
  - apply digits_loop_canonical; [destruct B as [B|[B|B]]; rewrite B; lia|]. rewrite N2Nat.id. pose proof (N.size_gt v). exact H.
  - apply map_ext_in. intros d Hd. apply digit_spec.
    assert (C : canonical (f_base f) v (digits_loop (S (N.to_nat (N.size v))) (f_base f) v [])).
    { apply digits_loop_canonical; [destruct B as [B|[B|B]]; rewrite B; lia|]. rewrite N2Nat.id. apply N.size_gt. }
    destruct C as [_ [F _]]. rewrite Forall_forall in F. specialize (F d Hd). cbn beta in F. destruct B as [B|[B|B]]; rewrite B in F; lia.
Qed.
Lemma shows_number_text f z text : base_ok f -> shows_number f z text -> text = decorate f (z <? 0)%Z (unsigned_text (Z.to_N (Z.abs z)) f).
Proof.
  intros B [ds [C ->]]. destruct (unsigned_text_shows (Z.to_N (Z.abs z)) f B) as [ds' [C' ->]].
  rewrite (canonical_unique (f_base f) (Z.to_N (Z.abs z)) ds ds'); [reflexivity|destruct B as [B|[B|B]]; rewrite B; lia|exact C|exact C'].
Qed.
Lemma unsigned_text_nonempty v f : base_ok f -> unsigned_text v f <> [].
Proof. intros B. destruct (unsigned_text_shows v f B) as [ds [[_ [_ [C _]]] ->]]. destruct ds; [congruence|discriminate]. Qed.
