(** Strings: tmj_find_char_unescaped, tmj_is_valid_json_string, tmj_get_codepoint, tmj_utf8_encode
    against the grammar of JSON strings. *)
From Coq Require Import Arith NArith List Bool Lia ZifyBool ZifyNat ZifyN.
From Verif Require Import Base UniSpec JsonModel JsonSpec.
Import ListNotations.
Local Open Scope N_scope.

(** ** Counting backslashes backwards is the same as reading escapes forwards *)

Definition est_step (st : bool) (c : N) : bool := (c =? 92) && negb st.
Fixpoint est (st : bool) (s : list N) : bool :=
  match s with [] => st | c :: t => est (est_step st c) t end.

Lemma est_app st s t : est st (s ++ t) = est (est st s) t.
Proof. revert st. induction s as [|c s IH]; intro st; cbn [est app]; auto. Qed.

Lemma unescaped_est s : is_char_unescaped s = negb (est false s).
Proof.
  unfold is_char_unescaped. induction s as [|x s IH] using rev_ind; [reflexivity|].
  rewrite rev_app_distr, est_app. cbn [rev app leading_backslashes est]. unfold est_step.
  destruct (x =? 92); [|reflexivity].
  rewrite Nat.even_succ, <- Nat.negb_even, IH. destruct (est false s); reflexivity.
Qed.

(** No unescaped [q] inside of [s]. *)
Fixpoint noquote (q : N) (st : bool) (s : list N) : Prop :=
  match s with [] => True | c :: t => (c = q -> st = true) /\ noquote q (est_step st c) t end.

Lemma noquote_app q st s t : noquote q st (s ++ t) <-> noquote q st s /\ noquote q (est st s) t.
Proof. revert st. induction s as [|c s IH]; intro st; cbn [noquote est app]; [tauto|]. rewrite IH. tauto. Qed.

Lemma find_loop_sound q s : forall pre p a, find_unescaped_loop q pre s = Some (p, a) ->
  exists body z, p = pre ++ body /\ s = body ++ q :: z /\ a = q :: z
    /\ est false p = false /\ noquote q (est false pre) body.
Proof.
  induction s as [|x s IH]; intros pre p a E; [discriminate|].
  cbn [find_unescaped_loop] in E. rewrite unescaped_est in E.
  destruct ((x =? q) && negb (est false pre)) eqn:C.
  - injection E as <- <-. exists [], s. rewrite app_nil_r.
    apply andb_true_iff in C. destruct C as [C1 C2]. apply N.eqb_eq in C1. subst x.
    apply negb_true_iff in C2. repeat split; auto.
  - apply IH in E. destruct E as (body & z & -> & -> & -> & F & Q).
    exists (x :: body), z. split; [now rewrite <- app_assoc|]. split; [reflexivity|].
    split; [reflexivity|]. split; [exact F|]. split.
    + intros ->. rewrite N.eqb_refl in C. cbn in C. now apply negb_false_iff in C.
    + rewrite est_app in Q. exact Q.
Qed.

Lemma find_loop_complete q body z : forall pre, noquote q (est false pre) body ->
  est false (pre ++ body) = false ->
  find_unescaped_loop q pre (body ++ q :: z) = Some (pre ++ body, q :: z).
Proof.
  induction body as [|x body IH]; intros pre Q F; cbn [app find_unescaped_loop];
    rewrite unescaped_est.
  - rewrite app_nil_r in *. now rewrite N.eqb_refl, F.
  - cbn [noquote] in Q. destruct Q as [Q1 Q2].
    destruct ((x =? q) && negb (est false pre)) eqn:C.
    + apply andb_true_iff in C. destruct C as [C1 C2]. apply N.eqb_eq in C1.
      rewrite (Q1 C1) in C2. discriminate.
    + rewrite IH.
      * now rewrite <- app_assoc.
      * rewrite est_app. exact Q2.
      * rewrite <- app_assoc. exact F.
Qed.

Lemma find_sound s q body a : find_char_unescaped s q = Some (body, a) ->
  exists z, s = body ++ q :: z /\ a = q :: z /\ est false body = false /\ noquote q false body.
Proof.
  intro E. apply find_loop_sound in E. destruct E as (b & z & -> & -> & -> & F & Q).
  exists z. repeat split; auto.
Qed.

Lemma find_complete q body z : noquote q false body -> est false body = false ->
  find_char_unescaped (body ++ q :: z) q = Some (body, q :: z).
Proof. intros Q F. exact (find_loop_complete q body z [] Q F). Qed.

(** ** Hexadecimal digits *)

Lemma isxdigit_spec c : isxdigit c = true <-> exists v, hexdigit c v.
Proof.
  unfold isxdigit, isdigit. split.
  - intro H. destruct ((48 <=? c) && (c <=? 57)) eqn:A.
    { eexists. apply H_dec. lia. }
    destruct ((65 <=? c) && (c <=? 70)) eqn:B.
    { eexists. apply H_upper. lia. }
    eexists. apply H_lower. lia.
  - intros [v H]. inversion H; subst; lia.
Qed.

Lemma hexval_spec c : isxdigit c = true -> hexdigit c (hexval c).
Proof.
  unfold isxdigit, isdigit, hexval, isdigit. intro H.
  destruct ((48 <=? c) && (c <=? 57)) eqn:A.
  { apply H_dec. lia. }
  destruct ((65 <=? c) && (c <=? 70)) eqn:B.
  { replace (c <=? 70) with true by lia. replace (c - 55) with (c - 65 + 10) by lia.
    apply H_upper. lia. }
  replace (c <=? 70) with false by lia. replace (c - 87) with (c - 97 + 10) by lia.
  apply H_lower. lia.
Qed.

Lemma hexdigit_val c v : hexdigit c v -> isxdigit c = true /\ hexval c = v /\ v < 16 /\ c <> 92 /\ c <> 34.
Proof.
  intro H. split; [apply isxdigit_spec; eauto|].
  unfold hexval, isdigit. inversion H; subst.
  - replace ((48 <=? c) && (c <=? 57)) with true by lia. lia.
  - replace ((48 <=? c) && (c <=? 57)) with false by lia. replace (c <=? 70) with true by lia. lia.
  - replace ((48 <=? c) && (c <=? 57)) with false by lia. replace (c <=? 70) with false by lia. lia.
Qed.

Lemma hexval_lt c : isxdigit c = true -> hexval c < 16.
Proof. intro H. apply hexval_spec in H. apply hexdigit_val in H. tauto. Qed.

(** ** Code points *)

Lemma valid_codepoint_scalar cp : is_valid_codepoint cp = true <-> scalar cp.
Proof. unfold is_valid_codepoint, scalar. lia. Qed.

Lemma u_escapes_one a b c d : isxdigit a && isxdigit b && isxdigit c && isxdigit d = true ->
  forall us s, u_escapes us s -> u_escapes (hex4 a b c d :: us) (92 :: 117 :: a :: b :: c :: d :: s).
Proof.
  intros H us s U. apply andb_true_iff in H as [H D]. apply andb_true_iff in H as [H C].
  apply andb_true_iff in H as [A B]. unfold hex4.
  now apply UE_cons; try apply hexval_spec.
Qed.

Lemma hex4_lt a b c d : isxdigit a && isxdigit b && isxdigit c && isxdigit d = true ->
  hex4 a b c d < 65536.
Proof.
  intro H. apply andb_true_iff in H as [H D]. apply andb_true_iff in H as [H C].
  apply andb_true_iff in H as [A B]. unfold hex4.
  apply hexval_lt in A, B, C, D. lia.
Qed.

Lemma pair_value lead trail : 0xD800 <= lead <= 0xDBFF -> 0xDC00 <= trail <= 0xDFFF ->
  w32 (lead * 1024 + trail + (W32 + 0x10000 - 0xD800 * 1024 - 0xDC00))
  = 0x10000 + (lead - 0xD800) * 1024 + (trail - 0xDC00).
Proof.
  intros. unfold w32.
  replace (lead * 1024 + trail + (W32 + 0x10000 - 0xD800 * 1024 - 0xDC00))
    with (0x10000 + (lead - 0xD800) * 1024 + (trail - 0xDC00) + 1 * W32) by lia.
  rewrite N.mod_add by lia. apply N.mod_small. lia.
Qed.

Lemma utf16_pair lead trail : 0xD800 <= lead <= 0xDBFF -> 0xDC00 <= trail <= 0xDFFF ->
  utf16_seq (0x10000 + (lead - 0xD800) * 1024 + (trail - 0xDC00)) [lead; trail].
Proof.
  intros A B. set (v := 0x10000 + (lead - 0xD800) * 1024 + (trail - 0xDC00)).
  assert (E1 : (v - 0x10000) / 1024 = lead - 0xD800).
  { symmetry. apply N.div_unique with (trail - 0xDC00); unfold v; lia. }
  assert (E2 : (v - 0x10000) mod 1024 = trail - 0xDC00).
  { symmetry. apply N.mod_unique with (lead - 0xD800); unfold v; lia. }
  assert (U : utf16_seq v [0xD800 + (v - 0x10000) / 1024; 0xDC00 + (v - 0x10000) mod 1024])
    by (apply U16_2; unfold v; lia).
  rewrite E1, E2 in U.
  replace (0xD800 + (lead - 0xD800)) with lead in U by lia.
  replace (0xDC00 + (trail - 0xDC00)) with trail in U by lia. exact U.
Qed.

Lemma get_codepoint_sound u k cp : get_codepoint u = Some (k, cp) ->
  exists us t, 92 :: 117 :: u = t ++ skipn k u /\ u_escapes us t /\ utf16_seq cp us /\ scalar cp
    /\ (k <= length u)%nat /\ (4 <= k)%nat.
Proof.
  unfold get_codepoint.
  destruct u as [|a [|b [|c [|d u]]]]; try discriminate.
  destruct (isxdigit a && isxdigit b && isxdigit c && isxdigit d) eqn:H1; [|discriminate].
  pose proof (hex4_lt _ _ _ _ H1) as L1.
  destruct ((0xD800 <=? hex4 a b c d) && (hex4 a b c d <=? 0xDBFF)) eqn:S1.
  - destruct u as [|x [|y [|a' [|b' [|c' [|d' u]]]]]]; try discriminate.
    destruct ((x =? 92) && (y =? 117)) eqn:X; [|discriminate].
    assert (x = 92 /\ y = 117) as [-> ->] by lia.
    destruct (isxdigit a' && isxdigit b' && isxdigit c' && isxdigit d') eqn:H2; [|discriminate].
    destruct ((0xDC00 <=? hex4 a' b' c' d') && (hex4 a' b' c' d' <=? 0xDFFF)) eqn:S2; [|discriminate].
    assert (R1 : 0xD800 <= hex4 a b c d <= 0xDBFF) by (clear - S1; lia).
    assert (R2 : 0xDC00 <= hex4 a' b' c' d' <= 0xDFFF) by (clear - S2; lia).
    rewrite (pair_value _ _ R1 R2).
    destruct (is_valid_codepoint _) eqn:V; [|discriminate]. intro E.
    assert (k = 10%nat) by congruence. assert (cp = 65536 + (hex4 a b c d - 55296) * 1024 + (hex4 a' b' c' d' - 56320)) by congruence.
    clear E. subst k cp.
    exists [hex4 a b c d; hex4 a' b' c' d'], [92; 117; a; b; c; d; 92; 117; a'; b'; c'; d'].
    split; [reflexivity|]. split; [|split; [|split; [|clear; cbn [length]; lia]]].
    + apply u_escapes_one; auto. apply u_escapes_one; auto. constructor.
    + apply utf16_pair; assumption.
    + now apply valid_codepoint_scalar.
  - destruct (is_valid_codepoint (hex4 a b c d)) eqn:V; [|discriminate]. intro E.
    assert (k = 4%nat) by congruence. assert (cp = hex4 a b c d) by congruence. clear E. subst k cp.
    exists [hex4 a b c d], [92; 117; a; b; c; d].
    split; [reflexivity|]. apply valid_codepoint_scalar in V.
    split; [|split; [|split; [auto|clear; cbn [length]; lia]]].
    + apply u_escapes_one; auto. constructor.
    + apply U16_1; auto. clear - L1. lia.
Qed.

Lemma u_escapes_inv_one u t : u_escapes [u] t ->
  exists a b c d, t = [92; 117; a; b; c; d] /\ isxdigit a && isxdigit b && isxdigit c && isxdigit d = true
    /\ hex4 a b c d = u.
Proof.
  intro H. inversion H as [|a b c d a' b' c' d' us s Ha Hb Hc Hd Hs]; subst. inversion Hs; subst.
  apply hexdigit_val in Ha, Hb, Hc, Hd.
  exists a, b, c, d. split; [reflexivity|].
  destruct Ha as (-> & <- & _), Hb as (-> & <- & _), Hc as (-> & <- & _), Hd as (-> & <- & _).
  split; reflexivity.
Qed.
Lemma u_escapes_inv_two u v t : u_escapes [u; v] t ->
  exists a b c d t', t = 92 :: 117 :: a :: b :: c :: d :: t'
    /\ isxdigit a && isxdigit b && isxdigit c && isxdigit d = true
    /\ hex4 a b c d = u /\ u_escapes [v] t'.
Proof.
  intro H. inversion H as [|a b c d a' b' c' d' us s Ha Hb Hc Hd Hs]; subst.
  apply hexdigit_val in Ha, Hb, Hc, Hd.
  exists a, b, c, d, s. split; [reflexivity|].
  destruct Ha as (-> & <- & _), Hb as (-> & <- & _), Hc as (-> & <- & _), Hd as (-> & <- & _).
  repeat split; auto.
Qed.

Lemma split_pair cp : 0x10000 <= cp <= 0x10FFFF ->
  exists q m, (cp - 0x10000) / 1024 = q /\ (cp - 0x10000) mod 1024 = m /\ q < 1024 /\ m < 1024
    /\ cp = 0x10000 + q * 1024 + m.
Proof.
  intro H. exists ((cp - 0x10000) / 1024), ((cp - 0x10000) mod 1024).
  assert (B1 : (cp - 0x10000) / 1024 < 1024) by (apply N.div_lt_upper_bound; lia).
  assert (B2 : (cp - 0x10000) mod 1024 < 1024) by (apply N.mod_lt; lia).
  pose proof (N.div_mod (cp - 0x10000) 1024 ltac:(lia)) as DM.
  repeat split; auto. lia.
Qed.

Lemma get_codepoint_complete cp us t z : utf16_seq cp us -> u_escapes us t ->
  exists u k, t = 92 :: 117 :: u /\ k = length u /\ get_codepoint (u ++ z) = Some (k, cp)
    /\ noquote 34 false t /\ est false t = false.
Proof.
  intros U E. inversion U as [v L S|v L]; subst.
  - apply u_escapes_inv_one in E. destruct E as (a & b & c & d & -> & H & <-).
    exists [a; b; c; d], 4%nat. split; [reflexivity|]. split; [reflexivity|]. split.
    + unfold get_codepoint. cbn [app]. rewrite H.
      replace ((0xD800 <=? hex4 a b c d) && (hex4 a b c d <=? 0xDBFF)) with false
        by (unfold scalar in S; lia).
      apply valid_codepoint_scalar in S. now rewrite S.
    + apply andb_true_iff in H as [H D]. apply andb_true_iff in H as [H C].
      apply andb_true_iff in H as [A B].
      apply hexval_spec, hexdigit_val in A, B, C, D.
      destruct A as (_ & _ & _ & A1 & A2), B as (_ & _ & _ & B1 & B2), C as (_ & _ & _ & C1 & C2),
        D as (_ & _ & _ & D1 & D2).
      cbn [noquote est]. unfold est_step. rewrite <- N.eqb_neq in A1, B1, C1, D1.
      rewrite A1, B1, C1, D1. cbn. repeat split; try reflexivity; intro; exfalso; congruence.
  - apply u_escapes_inv_two in E. destruct E as (a & b & c & d & t' & -> & H & E1 & E).
    apply u_escapes_inv_one in E. destruct E as (a' & b' & c' & d' & -> & H' & E2).
    exists [a; b; c; d; 92; 117; a'; b'; c'; d'], 10%nat.
    split; [reflexivity|]. split; [reflexivity|]. split.
    + destruct (split_pair cp L) as (q & m & Eq & Em & Lq & Lm & Ec).
      rewrite Eq in E1. rewrite Em in E2. clear Eq Em L U.
      unfold get_codepoint. cbn [app]. rewrite H, H', E1, E2. clear H H' E1 E2 z.
      replace ((0xD800 <=? 0xD800 + q) && (0xD800 + q <=? 0xDBFF)) with true by lia.
      cbn [N.eqb Pos.eqb andb].
      replace ((0xDC00 <=? 0xDC00 + m) && (0xDC00 + m <=? 0xDFFF)) with true by lia.
      rewrite pair_value by lia.
      replace (0x10000 + (0xD800 + q - 0xD800) * 1024 + (0xDC00 + m - 0xDC00)) with cp by lia.
      replace (is_valid_codepoint cp) with true; [reflexivity|].
      symmetry. apply valid_codepoint_scalar. unfold scalar. lia.
    + apply andb_true_iff in H as [H D]. apply andb_true_iff in H as [H C].
      apply andb_true_iff in H as [A B].
      apply andb_true_iff in H' as [H' D']. apply andb_true_iff in H' as [H' C'].
      apply andb_true_iff in H' as [A' B'].
      apply hexval_spec, hexdigit_val in A, B, C, D, A', B', C', D'.
      destruct A as (_ & _ & _ & A1 & A2), B as (_ & _ & _ & B1 & B2), C as (_ & _ & _ & C1 & C2),
        D as (_ & _ & _ & D1 & D2), A' as (_ & _ & _ & A1' & A2'), B' as (_ & _ & _ & B1' & B2'),
        C' as (_ & _ & _ & C1' & C2'), D' as (_ & _ & _ & D1' & D2').
      cbn [noquote est]. unfold est_step. rewrite <- N.eqb_neq in A1, B1, C1, D1, A1', B1', C1', D1'.
      rewrite A1, B1, C1, D1, A1', B1', C1', D1'.
      cbn. repeat split; try reflexivity; intro; exfalso; congruence.
Qed.

Lemma lor_add a b n : a mod 2 ^ n = 0 -> b < 2 ^ n -> N.lor a b = a + b.
Proof.
  intros A B. rewrite <- N.lxor_lor, <- N.add_nocarry_lxor; auto.
  - apply N.bits_inj_0. intro k. rewrite N.land_spec.
    destruct (N.lt_ge_cases k n).
    + rewrite <- (N.mod_pow2_bits_low a n k) by auto. rewrite A. now rewrite N.bits_0.
    + rewrite <- (N.mod_small b (2 ^ n)) by auto.
      rewrite (N.mod_pow2_bits_high b n k) by auto. apply andb_false_r.
  - apply N.bits_inj_0. intro k. rewrite N.land_spec.
    destruct (N.lt_ge_cases k n).
    + rewrite <- (N.mod_pow2_bits_low a n k) by auto. rewrite A. now rewrite N.bits_0.
    + rewrite <- (N.mod_small b (2 ^ n)) by auto.
      rewrite (N.mod_pow2_bits_high b n k) by auto. apply andb_false_r.
Qed.

Lemma land_63 x : N.land x 63 = x mod 64.
Proof. exact (N.land_ones x 6). Qed.
Lemma lor_80 x : N.lor 0x80 (x mod 64) = 0x80 + x mod 64.
Proof.
  apply (lor_add 128 _ 6); [reflexivity|]. change (2 ^ 6) with 64. apply N.mod_lt. lia.
Qed.

Lemma utf8_encode_spec cp : scalar cp -> utf8_seq cp (utf8_encode cp).
Proof.
  intro S. unfold utf8_encode, scalar in *.
  destruct (cp <? 0x80) eqn:A; [apply U8_1; lia|].
  rewrite !N.shiftr_div_pow2. change (2 ^ 6) with 64. change (2 ^ 12) with 4096. change (2 ^ 18) with 262144.
  rewrite !land_63, !lor_80.
  destruct (cp <? 0x800) eqn:B.
  { rewrite (lor_add 0xC0 _ 6); [apply U8_2; lia|reflexivity|].
    change (2 ^ 6) with 64. apply N.div_lt_upper_bound; lia. }
  destruct (cp <? 0x10000) eqn:C.
  { rewrite (lor_add 0xE0 _ 5); [apply U8_3; [lia|auto]|reflexivity|].
    change (2 ^ 5) with 32. apply N.div_lt_upper_bound; lia. }
  change 0x7 with (N.ones 3). rewrite N.land_ones. change (2 ^ 3) with 8.
  assert (cp / 262144 < 8) by (apply N.div_lt_upper_bound; lia).
  rewrite (N.mod_small (cp / 262144) 8) by auto.
  rewrite (lor_add 0xF0 _ 3); [apply U8_4; lia|reflexivity|auto].
Qed.

Lemma utf8_seq_fun v a b : utf8_seq v a -> utf8_seq v b -> a = b.
Proof.
  intros A B. inversion A; inversion B; subst; try reflexivity; unfold scalar in *; lia.
Qed.

(** ** tmj_is_valid_json_string *)

Definition two_char (n : N) : bool :=
  (n =? 92) || (n =? 47) || (n =? 98) || (n =? 102) || (n =? 110) || (n =? 114) || (n =? 116).

Lemma two_char_spec n : two_char n = true \/ n = 34 <-> exists x, simple_escape n x.
Proof.
  unfold two_char. split.
  - intros [H| ->]; [|eauto using simple_escape].
    destruct (N.eqb_spec n 92); [subst; eauto using simple_escape|].
    destruct (N.eqb_spec n 47); [subst; eauto using simple_escape|].
    destruct (N.eqb_spec n 98); [subst; eauto using simple_escape|].
    destruct (N.eqb_spec n 102); [subst; eauto using simple_escape|].
    destruct (N.eqb_spec n 110); [subst; eauto using simple_escape|].
    destruct (N.eqb_spec n 114); [subst; eauto using simple_escape|].
    destruct (N.eqb_spec n 116); [subst; eauto using simple_escape|].
    discriminate.
  - intros [x H]. inversion H; subst; auto.
Qed.

Lemma valid_string_sound ex fuel : forall s, noquote 34 false s ->
  valid_string fuel s 34 false ex = Some true -> exists o, unescape s o.
Proof.
  induction fuel as [|fuel IH]; intros s Q E; [discriminate|].
  cbn [valid_string] in E.
  destruct s as [|c t]; [exists []; constructor|].
  destruct (c <? 32) eqn:L; [discriminate|].
  destruct (c =? 92) eqn:B.
  - apply N.eqb_eq in B. subst c. cbn [noquote] in Q. destruct Q as [_ Q].
    destruct t as [|n u]; [discriminate|]. cbn [noquote est_step N.eqb Pos.eqb negb andb] in Q.
    destruct Q as [_ Q]. change (est_step true n) with ((n =? 92) && false) in Q.
    rewrite andb_false_r in Q.
    fold (two_char n) in E.
    destruct (two_char n) eqn:T.
    + destruct (proj1 (two_char_spec n) (or_introl T)) as [x X].
      destruct (IH _ Q E) as [o O]. exists (x :: o). now apply J_escape.
    + destruct (N.eqb_spec n 117).
      * subst n. destruct (get_codepoint u) as [[k cp]|] eqn:G; [|discriminate].
        apply get_codepoint_sound in G. destruct G as (us & tt & Et & UE & U16 & Sc & K & _).
        destruct (get_codepoint_complete cp us tt [] U16 UE) as (u0 & k0 & E0 & K0 & _ & NQ & ES).
        subst tt. cbn [app] in Et. assert (Eu : u = u0 ++ skipn k u) by congruence.
        assert (Q' : noquote 34 false (skipn k u)).
        { rewrite Eu in Q. rewrite noquote_app in Q. destruct Q as [_ Q].
          cbn [est est_step N.eqb Pos.eqb negb andb] in ES. rewrite ES in Q. exact Q. }
        destruct (IH _ Q' E) as [o O]. exists (utf8_encode cp ++ o).
        rewrite Eu. change (92 :: 117 :: u0 ++ skipn k u) with ((92 :: 117 :: u0) ++ skipn k u).
        apply (J_unicode cp us); auto. now apply utf8_encode_spec.
      * destruct (N.eqb_spec n 34).
        { subst n. destruct (IH _ Q E) as [o O]. exists (34 :: o). apply J_escape; auto. constructor. }
        cbn [N.eqb Pos.eqb] in E.
        destruct (n =? 39); [discriminate|]. destruct (n =? 10); [discriminate|].
        destruct (n =? 13); discriminate.
  - cbn [noquote] in Q. destruct Q as [Q1 Q2]. unfold est_step in Q2. rewrite B in Q2.
    destruct (IH _ Q2 E) as [o O]. exists (c :: o). apply J_plain; auto; [lia| |lia].
    intro; subst. specialize (Q1 eq_refl). discriminate.
Qed.

Lemma est_nil_last s : est true s = false -> s <> [].
Proof. intros H ->. discriminate. Qed.

Lemma valid_string_total ex fuel : forall s, (length s < fuel)%nat -> est false s = false ->
  noquote 34 false s -> exists b, valid_string fuel s 34 false ex = Some b.
Proof.
  induction fuel as [|fuel IH]; intros s L F Q; [lia|].
  cbn [valid_string]. destruct s as [|c t]; [eauto|].
  destruct (c <? 32); [eauto|]. cbn [length] in L.
  cbn [est] in F. cbn [noquote] in Q. destruct Q as [_ Q]. unfold est_step in F, Q.
  destruct (c =? 92) eqn:B.
  - cbn [negb andb] in F, Q. destruct t as [|n u]; [discriminate|].
    cbn [est] in F. cbn [noquote] in Q. destruct Q as [_ Q]. unfold est_step in F, Q.
    rewrite andb_false_r in F, Q. cbn [length] in L.
    fold (two_char n). destruct (two_char n); [apply IH; auto; lia|].
    destruct (n =? 117) eqn:N1.
    + destruct (get_codepoint u) as [[k cp]|] eqn:G; [|eauto].
      apply get_codepoint_sound in G. destruct G as (us & tt & Et & UE & U16 & Sc & K & _).
      destruct (get_codepoint_complete cp us tt [] U16 UE) as (u0 & k0 & E0 & K0 & _ & NQ & ES).
      subst tt. cbn [app] in Et. assert (Eu : u = u0 ++ skipn k u) by congruence.
      cbn [est est_step N.eqb Pos.eqb negb andb] in ES.
      apply IH.
      * rewrite skipn_length. lia.
      * rewrite Eu, est_app, ES in F. exact F.
      * rewrite Eu, noquote_app, ES in Q. tauto.
    + destruct (n =? 34); [apply IH; auto; lia|]. cbn [N.eqb Pos.eqb].
      destruct (n =? 39); [eauto|]. destruct (n =? 10); [eauto|]. destruct (n =? 13); cbn [andb]; eauto.
  - apply IH; auto; lia.
Qed.

Lemma unescape_scan s o : unescape s o -> noquote 34 false s /\ est false s = false.
Proof.
  induction 1 as [|c s o L Q B U [IH1 IH2]|e x s o E U [IH1 IH2]|v us t bs s o U16 UE U8 U [IH1 IH2]].
  - split; [exact I|reflexivity].
  - cbn [noquote est]. unfold est_step. replace (c =? 92) with false by lia. cbn [andb].
    repeat split; auto; intro; subst; contradiction.
  - cbn [noquote est]. unfold est_step. cbn [N.eqb Pos.eqb negb andb].
    rewrite andb_false_r. repeat split; auto; try discriminate.
  - destruct (get_codepoint_complete v us t [] U16 UE) as (u0 & k & -> & _ & _ & NQ & ES).
    rewrite noquote_app, est_app, ES. auto.
Qed.

Lemma valid_string_complete ex s o : unescape s o -> forall fuel, (length s < fuel)%nat ->
  valid_string fuel s 34 false ex = Some true.
Proof.
  induction 1 as [|c s o L Q B U IH|e x s o E U IH|v us t bs s o U16 UE U8 U IH]; intros fuel F;
    (destruct fuel as [|fuel]; [lia|]).
  - reflexivity.
  - cbn [valid_string]. replace (c <? 32) with false by lia. replace (c =? 92) with false by lia.
    apply IH. cbn [length] in F. lia.
  - cbn [valid_string length] in *. cbn [N.ltb N.compare Pos.compare Pos.compare_cont N.eqb Pos.eqb].
    fold (two_char e).
    destruct (proj2 (two_char_spec e)) as [T| ->]; [eauto| |].
    + rewrite T. apply IH. lia.
    + change (two_char 34) with false. cbn [N.eqb Pos.eqb]. apply IH. lia.
  - destruct (get_codepoint_complete v us t s U16 UE) as (u0 & k & -> & K & G & NQ & ES).
    cbn [app valid_string length] in *.
    cbn [N.ltb N.compare Pos.compare Pos.compare_cont N.eqb Pos.eqb orb].
    rewrite G. rewrite K, skipn_app, skipn_all, Nat.sub_diag. cbn [app skipn].
    apply IH. rewrite app_length in F. lia.
Qed.
