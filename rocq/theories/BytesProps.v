(** C39, C82-C84: conversion of raw bytes to UTF-8. *)
From Coq Require Import Arith NArith ZArith List Bool Lia.
From Coq Require Import ZifyBool ZifyNat ZifyN.
From Verif Require Import Base CodecModel CodecProofs UniModel UniSpec UniProofs UniValid UniConv UniTop UniText BytesModel BytesSpec BytesProofs BytesDyn BytesTop BytesFixed BytesDynTop.
Import ListNotations.
Local Open Scope N_scope.

(** ** Valid texts *)
Lemma utf32_prefix : forall v v' ch ch' r r', utf32_seq v ch -> utf32_seq v' ch' -> ch ++ r = ch' ++ r' -> v = v' /\ ch = ch' /\ r = r'.
Proof. intros v v' ch ch' r r' [w S] [w' S'] E. cbn [app] in E. assert (w = w') by congruence. assert (r = r') by congruence. subst. auto. Qed.
Lemma form_prefix : forall f v v' ch ch' r r', seq_of f v ch -> seq_of f v' ch' -> ch ++ r = ch' ++ r' -> v = v' /\ ch = ch' /\ r = r'.
Proof. intros []; cbn [seq_of]; [exact utf8_prefix|exact utf16_prefix|exact utf16_prefix|exact utf32_prefix|exact utf32_prefix]. Qed.
Lemma form_ne : forall f v ch, seq_of f v ch -> ch <> [].
Proof. intros f v ch H ->. destruct f; cbn [seq_of] in H; [apply seq_ne in H|apply utf16_ne in H|apply utf16_ne in H|inversion H|inversion H]; cbn [length] in H; lia. Qed.
Lemma replaced_valid : forall f rep us bs, replaced (seq_of f) utf8_seq rep us bs -> forall vs, encodes (seq_of f) vs us -> encodes utf8_seq vs bs.
Proof.
  intros f rep us bs R. induction R as [|v ch us ch' out S S' R IH|c us out I R IH]; intros vs W.
  - inversion W as [|w ws ch us S W' E1 E2]; [constructor|]. apply app_eq_nil in E2 as [E2 _]. exfalso. apply (form_ne f w ch S E2).
  - remember (ch ++ us) as t eqn:Et. destruct W as [|w ws ch2 us2 S2 W']; [symmetry in Et; apply app_eq_nil in Et as [Et _]; exfalso; apply (form_ne f v ch S Et)|]. destruct (form_prefix f w v ch2 ch us2 us S2 S Et) as (-> & -> & ->). constructor; auto.
  - remember (c :: us) as t eqn:Et. destruct W as [|w ws ch2 us2 S2 W']; [discriminate|]. exfalso. apply I. exists w, ch2, us2. auto.
Qed.
Lemma form_units : forall f vs us, encodes (seq_of f) vs us -> Forall (fun u => u < unit_bound f) us.
Proof.
  intros f vs us W. apply (encodes_units (seq_of f) _ vs us); [|exact W]. intros v ch H. destruct f; cbn [seq_of unit_bound] in *; [apply (seq_octets v ch H)|apply (utf16_units v ch H)|apply (utf16_units v ch H)| |];
    (destruct H as [w S]; constructor; [unfold scalar in S; lia|constructor]).
Qed.
Lemma encodes_no_cut : forall f vs us, encodes (seq_of f) vs us -> no_cut f us.
Proof.
  assert (G : forall vs us, encodes utf16_seq vs us -> no_cut_pair us).
  { intros vs us W. induction W as [|v vs ch us S W IH]; [intros p c d r E; destruct p; discriminate|]. intros p c d r E Hc. destruct (seq16_cases v ch S) as [[-> Sv]|(a & b & -> & A & B)]; cbn [app] in E.
    - destruct p as [|x p]; cbn [app] in E; [assert (v = c) by congruence; subst; exfalso; apply (surrogate_bad c); auto|]. apply (IH p c d r); [congruence|exact Hc].
    - destruct p as [|x [|y p]]; cbn [app] in E.
      + assert (b = d) by congruence. subst. exact B.
      + assert (b = c) by congruence. subst. unfold lead_surrogate, trail_surrogate in *. lia.
      + apply (IH p c d r); [congruence|exact Hc]. }
  intros [] vs us W; cbn [seq_of no_cut] in *; auto; apply (G vs us W).
Qed.
(** Only a text that starts with U+FEFF starts with the byte order mark. *)
Lemma put_head : forall f a us t, a < unit_bound f -> Forall (fun u => u < unit_bound f) us -> serialise f us = put f a ++ t -> exists us', us = a :: us'.
Proof.
  intros f a us t A U E. destruct us as [|u us]; [destruct f; cbn in E; discriminate|]. exists us. f_equal. apply Forall_cons_iff in U as [U _]. unfold serialise in E. cbn [flat_map] in E. destruct f; cbn [put unit_bound] in *.
  - cbn [app] in E. congruence.
  - destruct (order_be16 u U) as (x & y & P & G). destruct (order_be16 a A) as (x' & y' & P' & G'). rewrite P, P' in E. cbn [app] in E. assert (x = x') by congruence. assert (y = y') by congruence. subst x' y'. congruence.
  - destruct (order_le16 u U) as (x & y & P & G). destruct (order_le16 a A) as (x' & y' & P' & G'). rewrite P, P' in E. cbn [app] in E. assert (x = x') by congruence. assert (y = y') by congruence. subst x' y'. congruence.
  - destruct (order_be32 u U) as (x & y & z & w & P & G). destruct (order_be32 a A) as (x' & y' & z' & w' & P' & G'). rewrite P, P' in E. cbn [app] in E. assert (x = x') by congruence. assert (y = y') by congruence. assert (z = z') by congruence. assert (w = w') by congruence. subst x' y' z' w'. congruence.
  - destruct (order_le32 u U) as (x & y & z & w & P & G). destruct (order_le32 a A) as (x' & y' & z' & w' & P' & G'). rewrite P, P' in E. cbn [app] in E. assert (x = x') by congruence. assert (y = y') by congruence. assert (z = z') by congruence. assert (w = w') by congruence. subst x' y' z' w'. congruence.
Qed.
Lemma serialise8 : forall us, serialise F8 us = us.
Proof. unfold serialise. cbn [put]. induction us as [|u us IH]; [reflexivity|]. cbn [flat_map app]. rewrite IH. reflexivity. Qed.
Lemma feff8 : utf8_seq 0xFEFF [0xEF; 0xBB; 0xBF].
Proof. apply (U8_3 0xFEFF); [lia|]. right. lia. Qed.
Lemma text_no_mark : forall f vs us, encodes (seq_of f) vs us -> hd_error vs <> Some 0xFEFF -> ~ exists t, serialise f us = mark f ++ t.
Proof.
  intros f vs us W H [t E]. pose proof (form_units f vs us W) as U. assert (Hf : f = F8 \/ f <> F8) by (destruct f; auto; right; discriminate). destruct Hf as [->|Hf].
  - rewrite serialise8 in E. cbn [mark seq_of] in *. destruct W as [|v vs ch us S W]; [discriminate|]. destruct (utf8_prefix v 0xFEFF ch [0xEF; 0xBB; 0xBF] us t S feff8 E) as (-> & _ & _). apply H. reflexivity.
  - assert (Em : mark f = put f 0xFEFF) by (destruct f; [congruence|reflexivity..]). rewrite Em in E. destruct (put_head f 0xFEFF us t ltac:(destruct f; cbn [unit_bound]; lia || congruence) U E) as [us' ->].
    assert (Sf : seq_of f 0xFEFF [0xFEFF]) by (destruct f; cbn [seq_of]; [congruence|apply U16_1; [lia|right; lia]|apply U16_1; [lia|right; lia]|constructor; right; lia|constructor; right; lia]).
    remember (0xFEFF :: us') as l eqn:El. destruct W as [|v vs ch us S W]; [discriminate|]. destruct (form_prefix f v 0xFEFF ch [0xFEFF] us us' S Sf El) as (-> & _ & _). apply H. reflexivity.
Qed.
Lemma utf8_heads : forall vs us, encodes utf8_seq vs us -> Forall (fun c => c < 0xFE) us.
Proof.
  intros vs us W. apply (encodes_units utf8_seq _ vs us); [|exact W]. intros v ch H. apply seq_table in H. destruct H as [? ?|? ? ? ?|? ? ? ?|? ? ? ? ? ?|? ? ? ?|? ? ? ? ? ?|? ? ? ? ? ?|? ? ? ? ? ? ? ?|? ? ? ? ? ?]; unfold trail_octet in *; repeat constructor; lia.
Qed.
Lemma text8_no_mark : forall vs us, encodes utf8_seq vs us -> hd_error vs <> Some 0xFEFF -> forall g t, us <> mark g ++ t.
Proof.
  intros vs us W H g t E. pose proof (utf8_heads vs us W) as U. destruct g.
  - apply (text_no_mark F8 vs us W H). exists t. rewrite serialise8. exact E.
  - rewrite E in U. cbn [mark put be16 app] in U. apply Forall_cons_iff in U as [U _]. vm_compute in U. discriminate.
  - rewrite E in U. cbn [mark put le16 app] in U. apply Forall_cons_iff in U as [U _]. vm_compute in U. discriminate.
  - rewrite E in U. cbn [mark put be32 app] in U. do 2 (apply Forall_cons_iff in U as [_ U]). apply Forall_cons_iff in U as [U _]. vm_compute in U. discriminate.
  - rewrite E in U. cbn [mark put le32 app] in U. apply Forall_cons_iff in U as [U _]. vm_compute in U. discriminate.
Qed.
Lemma put_width : forall f u, length (put f u) = width f. Proof. intros [] u; reflexivity. Qed.
Lemma width_pos : forall f, (0 < width f)%nat. Proof. intros []; cbn; lia. Qed.
Lemma outcome_valid : forall f us vs v rep nt out e c buf, encodes (seq_of f) vs us -> outcome f us [] v rep nt out e c buf ->
  v_enc c = e /\ v_inv c = false /\ exists bs, encodes utf8_seq vs bs /\ delivered bs nt out (v_size c) (v_ec c) buf.
Proof.
  intros f us vs v rep nt out e c buf W (H1 & H2 & _ & _ & H). assert (Wf : well_formed (seq_of f) us) by (exists vs; exact W). split; [exact H1|]. split; [apply H2; exact Wf|]. destruct (H (or_intror Wf)) as (bs & R & D & _). exists bs. split; [apply (replaced_valid f _ us bs R vs W)|]. apply D. left. reflexivity.
Qed.

(** C39: a byte order mark in front of a text is dropped and named in the report. Refuted for a mark with nothing behind it
    (it is kept as text) and for a detected UTF-16LE text that starts with U+0000. *)
Theorem C39_refuted :
  (exists f enc c buf, (enc = plain f \/ enc = E_unknown) /\ tmu_utf8_convert_from_bytes (fun _ _ => None) (mark f) enc V_error [] false (repeat 0 8) = Some (c, buf) /\ v_ec c = OK /\ v_size c <> 0%nat) /\
  (exists vs bytes c buf, text F16le vs bytes /\ vs <> [] /\ tmu_utf8_convert_from_bytes (fun _ _ => None) (mark F16le ++ bytes) E_unknown V_error [] false (repeat 0 8) = Some (c, buf) /\ v_ec c <> OK).
Proof.
  split.
  - exists F16be, E_utf16be. eexists _, _. split; [left; reflexivity|]. split; [vm_compute; reflexivity|]. cbn. split; [reflexivity|discriminate].
  - exists [0; 0x41], [0; 0; 0x41; 0]. eexists _, _. split; [exists [0; 0x41]; split; [|reflexivity]; apply (E_cons utf16_seq 0 [0x41] [0] [0x41]); [constructor; [lia|left; lia]|apply (E_cons utf16_seq 0x41 [] [0x41] []); [constructor; [lia|left; lia]|constructor]]|].
    split; [discriminate|]. split; [vm_compute; reflexivity|]. cbn. discriminate.
Qed.
Theorem C39_partial : forall fresh f vs bytes enc v rep nt out, text f vs bytes -> vs <> [] -> valid_rep v rep ->
  enc = plain f \/ enc = marked f \/ (enc = E_unknown /\ ~ (f = F16le /\ hd_error vs = Some 0)) ->
  exists c buf, tmu_utf8_convert_from_bytes fresh (mark f ++ bytes) enc v rep nt out = Some (c, buf) /\ v_enc c = marked f /\ v_inv c = false /\
    exists bs, encodes utf8_seq vs bs /\ delivered bs nt out (v_size c) (v_ec c) buf.
Proof.
  intros fresh f vs bytes enc v rep nt out (us & W & ->) Hv Hr He.
  destruct (convert_units fresh f us [] v rep nt out enc (mark f ++ serialise f us) (marked f) (form_units f vs us W) (width_pos f) (encodes_no_cut f vs us W) Hr) as (c & buf & E & O).
  - rewrite app_nil_r. destruct W as [|w ws ch us S W]; [congruence|]. pose proof (form_ne f w ch S) as Ne. destruct ch as [|a ch]; [congruence|]. unfold serialise. cbn [app flat_map]. intros Q. apply app_eq_nil in Q as [Q _]. apply (f_equal (@length N)) in Q. rewrite put_width in Q. pose proof (width_pos f). cbn [length] in Q. lia.
  - rewrite app_nil_r. apply H_mark. destruct He as [He|[He|[He Hn]]]; [auto|auto|]. right. right. split; [exact He|]. intros [-> [t Et]]. apply Hn. split; [reflexivity|].
    destruct (put_head F16le 0 us t ltac:(cbn; lia) (form_units F16le vs us W) Et) as [us' ->]. remember (0 :: us') as l eqn:El. destruct W as [|w ws ch us S W]; [congruence|]. destruct (form_prefix F16le w 0 ch [0] us us' S zero16 El) as (-> & _ & _). reflexivity.
  - exists c, buf. split; [exact E|]. apply (outcome_valid f us vs v rep nt out (marked f) c buf W O).
Qed.
Example C39_example : text F16le [0x20AC; 0x1F600] [0xAC; 0x20; 0x3D; 0xD8; 0x00; 0xDE] /\
  tmu_utf8_convert_from_bytes (fun _ _ => None) ([0xFF; 0xFE] ++ [0xAC; 0x20; 0x3D; 0xD8; 0x00; 0xDE]) E_unknown V_error [] true (repeat 9 9) =
    Some (Conversion 7 OK E_utf16le_bom false, [0xE2; 0x82; 0xAC; 0xF0; 0x9F; 0x98; 0x80; 0; 9]) /\
  tmu_utf8_convert_from_bytes (fun _ _ => None) ([0xFF; 0xFE] ++ [0xAC; 0x20; 0x3D; 0xD8; 0x00; 0xDE]) E_unknown V_error [] true (repeat 9 7) = Some (Conversion 8 ERANGE E_utf16le_bom false, [0xE2; 0x82; 0xAC; 0xF0; 0x9F; 0x98; 0x80]).
Proof.
  split; [|split; vm_compute; reflexivity]. exists [0x20AC; 0xD83D; 0xDE00]. split; [|reflexivity]. apply (E_cons utf16_seq 0x20AC _ [0x20AC]); [constructor; [lia|left; lia]|]. apply (E_cons utf16_seq 0x1F600 [] [0xD83D; 0xDE00] []); [|constructor]. apply (U16_2 0x1F600). lia.
Qed.

(** C82: a valid text in any form and byte order, without a mark, is converted to the UTF-8 of its codepoints. *)
Theorem C82_valid_text : forall fresh f vs bytes enc v rep nt out, text f vs bytes -> hd_error vs <> Some 0xFEFF -> valid_rep v rep -> enc = plain f \/ (f = F8 /\ enc = E_unknown) ->
  exists c buf, tmu_utf8_convert_from_bytes fresh bytes enc v rep nt out = Some (c, buf) /\ v_inv c = false /\ (vs <> [] -> v_enc c = plain f) /\
    exists bs, encodes utf8_seq vs bs /\ delivered bs nt out (v_size c) (v_ec c) buf.
Proof.
  intros fresh f vs bytes enc v rep nt out (us & W & ->) Hh Hr He. destruct us as [|u us].
  - assert (vs = []) as -> by (inversion W as [|w ws ch us S W' E1 E2]; [reflexivity|]; apply app_eq_nil in E2 as [E2 _]; exfalso; apply (form_ne f w ch S E2)). unfold serialise. cbn [flat_map].
    unfold tmu_utf8_convert_from_bytes, tmu_convert_bytes_to_utf8_internal, assert_. rewrite (rep_guard v rep Hr). pose proof (fixed_start out) as F0. set (o0 := make_stream (Block false out) (length out) false) in *. clearbody o0.
    destruct nt.
    + destruct (fixed_terminate fresh out _ o0 [] false F0) as (o' & E & T1 & T2 & T3). rewrite E. rewrite no_copy by auto. eexists _, _. split; [reflexivity|]. unfold report. cbn [v_inv v_enc v_size v_ec]. split; [exact T2|]. split; [congruence|]. exists []. split; [constructor|exact T3].
    + rewrite no_copy by auto. destruct (fixed_told _ _ _ _ _ F0) as (T1 & T2 & T3). eexists _, _. split; [reflexivity|]. unfold report. cbn [v_inv v_enc v_size v_ec]. split; [exact T2|]. split; [congruence|]. exists []. split; [constructor|exact T3].
  - destruct (convert_units fresh f (u :: us) [] v rep nt out enc (serialise f (u :: us)) (plain f) (form_units f vs _ W) (width_pos f) (encodes_no_cut f vs _ W) Hr) as (c & buf & E & O).
    + rewrite app_nil_r. unfold serialise. cbn [flat_map]. intros Q. apply app_eq_nil in Q as [Q _]. apply (f_equal (@length N)) in Q. rewrite put_width in Q. pose proof (width_pos f). cbn [length] in Q. lia.
    + rewrite app_nil_r. destruct He as [->|[-> ->]]; [apply H_plain; apply (text_no_mark f vs _ W Hh)|]. rewrite serialise8. apply (H_none F8); [reflexivity|]. apply (text8_no_mark vs _ W Hh).
    + exists c, buf. split; [exact E|]. destruct (outcome_valid f _ vs v rep nt out (plain f) c buf W O) as (P1 & P2 & P3). auto.
Qed.
Example C82_example : text F32be [0x41; 0x10FFFF] [0; 0; 0; 0x41; 0; 0x10; 0xFF; 0xFF] /\
  tmu_utf8_convert_from_bytes (fun _ _ => None) [0; 0; 0; 0x41; 0; 0x10; 0xFF; 0xFF] E_utf32be V_error [] true (repeat 9 7) = Some (Conversion 5 OK E_utf32be false, [0x41; 0xF4; 0x8F; 0xBF; 0xBF; 0; 9]).
Proof.
  split; [|vm_compute; reflexivity]. exists [0x41; 0x10FFFF]. split; [|reflexivity]. apply (E_cons utf32_seq 0x41 _ [0x41]); [constructor; left; lia|]. apply (E_cons utf32_seq 0x10FFFF [] [0x10FFFF] []); [|constructor]. constructor. right. lia.
Qed.

(** C83: of any bytes exactly the units at which no codepoint starts are dropped, replaced or rejected. Refuted for UTF-16:
    the unit behind an unpaired lead surrogate goes with it. Refuted for the in-place UTF-8 conversion: skipping loses valid
    text, replacing reports a wrong size or moves memory out of bounds. *)
Theorem C83_refuted :
  (exists us bs c buf, replaced utf16_seq utf8_seq [] us bs /\ tmu_utf8_convert_from_bytes (fun _ _ => None) (serialise F16be us) E_utf16be V_skip [] false (repeat 0 8) = Some (c, buf) /\ v_ec c = OK /\ v_size c <> length bs) /\
  (exists us bs c data cap after, replaced utf8_seq utf8_seq [] us bs /\ tmu_utf8_convert_from_bytes_dynamic (fun _ n => Some (repeat 0 n)) us (length us) E_utf8 V_skip [] false = Some (c, data, cap, after) /\ v_ec c = OK /\ v_size c <> length bs) /\
  (exists us rep bs c data cap after, replaced utf8_seq utf8_seq rep us bs /\ tmu_utf8_convert_from_bytes_dynamic (fun _ n => Some (repeat 0 n)) us (length us) E_utf8 V_replace rep false = Some (c, data, cap, after) /\ v_ec c = OK /\ v_size c <> length bs) /\
  (exists us rep, rep <> [] /\ octets us /\ tmu_utf8_convert_from_bytes_dynamic (fun _ n => Some (repeat 0 n)) us (length us) E_utf8 V_replace rep false = None).
Proof.
  assert (A16 : utf16_seq 0x41 [0x41]) by (constructor; [lia|left; lia]). assert (A8 : utf8_seq 0x41 [0x41]) by (constructor; lia).
  assert (I8 : forall t, ill_formed_at utf8_seq (0xFF :: t)).
  { intros t (v & ch & rest & S & E). pose proof (seq_table v ch S) as T. pose proof (seq_ne v ch S) as Ne. destruct ch as [|a ch]; [cbn [length] in Ne; lia|]. assert (Ea : a = 0xFF) by (cbn [app] in E; congruence). subst a. clear E S Ne. remember (0xFF :: ch) as l eqn:El.
    destruct T as [a A|a b A B|b c B C|a b c A B C|b c B C|a b c A B C|b c d B C D|a b c d A B C D|b c d B C D]; apply (f_equal (hd 0)) in El; cbn [hd] in El; subst; lia || discriminate. }
  split; [|split; [|split]].
  - exists [0xD800; 0x41], [0x41]. eexists _, _. split; [|split; [vm_compute; reflexivity|cbn; split; [reflexivity|discriminate]]].
    apply (R_rep utf16_seq utf8_seq [] 0xD800 [0x41] [0x41]); [|apply (R_seq utf16_seq utf8_seq [] 0x41 [0x41] [] [0x41] []); [exact A16|exact A8|constructor]].
    intros (v & ch & rest & S & E). destruct (seq16_cases v ch S) as [[-> Sw]|(a & b & -> & A & B)]; cbn [app] in E; [assert (v = 0xD800) by congruence; subst; unfold scalar in Sw; lia|]. assert (b = 0x41) by congruence. subst. unfold trail_surrogate in B. lia.
  - exists [0xFF; 0x41], [0x41]. eexists _, _, _, _. split; [|split; [vm_compute; reflexivity|cbn; split; [reflexivity|discriminate]]].
    apply (R_rep utf8_seq utf8_seq [] 0xFF [0x41] [0x41]); [apply I8|]. apply (R_seq utf8_seq utf8_seq [] 0x41 [0x41] [] [0x41] []); [exact A8|exact A8|constructor].
  - exists [0x41; 0xFF], [0x3F], [0x41; 0x3F]. eexists _, _, _, _. split; [|split; [vm_compute; reflexivity|cbn; split; [reflexivity|discriminate]]].
    apply (R_seq utf8_seq utf8_seq [0x3F] 0x41 [0x41] [0xFF] [0x41] [0x3F]); [exact A8|exact A8|]. apply (R_rep utf8_seq utf8_seq [0x3F] 0xFF [] []); [apply I8|constructor].
  - exists [0xFF; 0x41], [0x3F]. split; [discriminate|]. split; [repeat constructor|]. vm_compute. reflexivity.
Qed.
(** Into the caller's buffer: exact for UTF-8 and UTF-32, and for UTF-16 without an unpaired lead surrogate in front of another unit. *)
Theorem C83_buffer_partial : forall fresh f us rest v rep nt out enc bytes e, Forall (fun u => u < unit_bound f) us -> (length rest < width f)%nat -> no_cut f us -> valid_rep v rep -> serialise f us ++ rest <> [] ->
  handed f (serialise f us ++ rest) enc bytes e -> exists c buf, tmu_utf8_convert_from_bytes fresh bytes enc v rep nt out = Some (c, buf) /\
  v_enc c = e /\ (v_inv c = false <-> well_formed (seq_of f) us) /\ length buf = length out /\
  (v = V_error -> ~ well_formed (seq_of f) us -> v_ec c = EINVAL) /\
  (v <> V_error \/ well_formed (seq_of f) us -> exists bs, replaced (seq_of f) utf8_seq (replacement v rep) us bs /\
    (rest = [] \/ (length out < length bs)%nat -> delivered bs nt out (v_size c) (v_ec c) buf) /\
    (rest <> [] -> (length bs <= length out)%nat -> v_ec c = EINVAL /\ v_size c = 0%nat)).
Proof. exact convert_units. Qed.
(** Any UTF-16 at all: every unpaired lead surrogate takes the next unit with it. *)
Theorem C83_utf16_partial : forall fresh f us v rep nt out, f = F16be \/ f = F16le -> Forall (fun u => u < 65536) us -> us <> [] -> valid_rep v rep -> v <> V_error -> ~ (exists t, serialise f us = mark f ++ t) ->
  exists c buf cps bs, tmu_utf8_convert_from_bytes fresh (serialise f us) (plain f) v rep nt out = Some (c, buf) /\ values16 us cps /\ rendered (replacement v rep) cps bs /\
  v_enc c = plain f /\ (v_inv c = false <-> well_formed utf16_seq us) /\ delivered bs nt out (v_size c) (v_ec c) buf.
Proof.
  intros fresh f us v rep nt out Hf U Hu Hr Hv Hm. assert (Hf8 : f <> F8) by (destruct Hf; subst; discriminate). assert (Eu : unit_bound f = 65536) by (destruct Hf; subst; reflexivity). assert (U' : Forall (fun u => u < unit_bound f) us) by (rewrite Eu; exact U).
  destruct (cuts_exists f us Hf8 U') as [cps C]. assert (V : values16 us cps) by (destruct Hf; subst; exact C). pose proof (loop_fold fresh f us cps [] C U' (width_pos f)) as Lf.
  assert (Hb : serialise f us ++ [] <> []) by (rewrite app_nil_r; destruct us as [|u us]; [congruence|]; destruct Hf; subst; discriminate).
  unfold tmu_utf8_convert_from_bytes. pose proof (fixed_start out) as F0. set (o0 := make_stream (Block false out) (length out) false) in *. clearbody o0.
  assert (G : forall o, converted out (plain f) v rep nt cps [] o -> exists bs, rendered (replacement v rep) cps bs /\ b_enc o = plain f /\ (b_inv o = false <-> well_formed utf16_seq us) /\ delivered bs nt out (size_of o) (b_ec o) (buf_of o)).
  { intros o [(Q & _)|(_ & bs & R & T1 & T2 & T3)]; [congruence|]. exists bs. split; [exact R|]. split; [exact T1|]. split; [|exact T3]. rewrite T2, no_bad. pose proof (cuts_well_formed f us cps C) as W. destruct Hf; subst; exact W. }
  pose proof (internal_handed fresh f (serialise f us ++ []) (plain f) (serialise f us) (plain f) v rep nt o0 Hf8 Hb Hr) as I. rewrite app_nil_r in *. specialize (I (H_plain f _ Hm)). destruct I as [Ei|Ei]; rewrite Ei.
  - destruct (convert_fixed fresh _ cps [] _ Lf v rep nt out (plain f) (set_enc o0 (plain f)) Hr (fixed_enc _ _ _ _ _ _ F0)) as (o' & E & P). rewrite E. rewrite no_copy by auto. destruct (G o' P) as (bs & G1 & G2 & G3 & G4). exists (report o'), (buf_of o'), cps, bs. auto 10.
  - destruct (convert_fixed fresh _ cps [] _ Lf v rep nt out _ o0 Hr F0) as (o' & E & P). rewrite E. rewrite no_copy by (cbn [b_ec set_enc]; intros ->; reflexivity). destruct (G (set_enc o' (plain f)) (converted_enc _ _ _ _ _ _ _ _ _ P)) as (bs & G1 & G2 & G3 & G4). eexists _, _, cps, bs. split; [reflexivity|]. auto 10.
Qed.
(** The in-place UTF-8 conversion: skipping keeps the longest well-formed prefix, the error mode hands out nothing. *)
Theorem C83_inplace_partial : forall fresh us rep nt enc e input size, (forall k n c, fresh k n = Some c -> length c = n) -> octets us -> us <> [] -> (size <= length input)%nat -> handed F8 us enc (firstn size input) e ->
  (exists r c data cap after, longest_prefix (well_formed utf8_seq) us r /\ tmu_utf8_convert_from_bytes_dynamic fresh input size enc V_skip rep nt = Some (c, data, cap, after) /\ v_enc c = e /\
   ((v_ec c = OK /\ (v_inv c = false <-> well_formed utf8_seq us) /\ v_size c = r /\ holds data cap (firstn r us) nt /\ after = Zeroed) \/ (v_ec c = ENOMEM /\ nothing c data cap /\ nt = true /\ exists k n, fresh k n = None))) /\
  (~ well_formed utf8_seq us -> exists c after, tmu_utf8_convert_from_bytes_dynamic fresh input size enc V_error rep nt = Some (c, Null, 0%nat, Kept after) /\ v_enc c = e /\ v_ec c = EINVAL /\ v_inv c = true /\ v_size c = 0%nat /\ length after = length input /\ firstn (length us) after = us).
Proof.
  intros fresh us rep nt enc e input size Hl U Hb Hs H. split; [apply (dynamic_utf8_skip fresh Hl us rep nt enc e input size U Hb Hs H)|]. intros Nw. apply (dynamic_utf8_error fresh Hl us rep nt enc e input size U Hb Hs Nw H).
Qed.
Example C83_example : Forall (fun u => u < unit_bound F16be) [0x41; 0xDC00; 0x42; 0xD83D] /\ no_cut F16be [0x41; 0xDC00; 0x42; 0xD83D] /\
  tmu_utf8_convert_from_bytes (fun _ _ => None) (serialise F16be [0x41; 0xDC00; 0x42; 0xD83D]) E_utf16be V_replace [0x3F] false (repeat 9 6) = Some (Conversion 4 OK E_utf16be true, [0x41; 0x3F; 0x42; 0x3F; 9; 9]) /\
  tmu_utf8_convert_from_bytes (fun _ _ => None) (serialise F16be [0x41; 0xDC00; 0x42; 0xD83D] ++ [0]) E_utf16be V_replace [0x3F] false (repeat 9 6) = Some (Conversion 0 EINVAL E_utf16be true, [0x41; 0x3F; 0x42; 0x3F; 9; 9]) /\
  tmu_utf8_convert_from_bytes (fun _ _ => None) [0x41; 0xFF; 0xC3; 0x42] E_utf8 V_replace [0x3F; 0x3F] false (repeat 9 6) = Some (Conversion 6 OK E_utf8 true, [0x41; 0x3F; 0x3F; 0x3F; 0x3F; 0x42]).
Proof.
  split; [repeat constructor|]. split; [|split; [|split]; vm_compute; reflexivity]. intros p c d r E Hc. unfold lead_surrogate in Hc. destruct p as [|x [|y [|z p]]]; cbn [app] in E.
  - assert (c = 0x41) by congruence. lia.
  - assert (c = 0xDC00) by congruence. lia.
  - assert (c = 0x42) by congruence. lia.
  - exfalso. apply (f_equal (@length N)) in E. cbn [length] in E. rewrite app_length in E. cbn [length] in E. lia.
Qed.

(** C84: the allocating conversion hands out a string it owns, or nothing together with an error, and leaves the input
    alone unless it reports to have taken it. Refuted: when the terminator needs memory that is not granted, the input block
    is freed but still referred to; an invalid text behind a byte order mark is shifted in the input. *)
Theorem C84_refuted :
  (exists input c, well_formed utf8_seq input /\ tmu_utf8_convert_from_bytes_dynamic (fun _ _ => None) input (length input) E_utf8 V_error [] true = Some (c, Null, 0%nat, Dangling) /\ v_ec c = ENOMEM) /\
  (exists input c after, tmu_utf8_convert_from_bytes_dynamic (fun _ _ => None) input (length input) E_utf8 V_error [] true = Some (c, Null, 0%nat, Kept after) /\ v_ec c = EINVAL /\ after <> input).
Proof.
  split.
  - exists [0x41]. eexists. split; [exists [0x41]; apply (E_cons utf8_seq 0x41 [] [0x41] []); [constructor; lia|constructor]|]. split; [vm_compute; reflexivity|reflexivity].
  - exists [0xEF; 0xBB; 0xBF; 0xFF; 0x41]. eexists _, _. split; [vm_compute; reflexivity|]. split; [reflexivity|discriminate].
Qed.
(** UTF-16 and UTF-32: the input is untouched, and the string is the one of C83 or nothing is handed out. *)
Theorem C84_other_forms_partial : forall fresh f us rest v rep nt enc e input size, (forall k n c, fresh k n = Some c -> length c = n) -> f <> F8 -> Forall (fun u => u < unit_bound f) us -> (length rest < width f)%nat -> no_cut f us -> valid_rep v rep -> serialise f us ++ rest <> [] ->
  (size <= length input)%nat -> handed f (serialise f us ++ rest) enc (firstn size input) e ->
  exists c data cap, tmu_utf8_convert_from_bytes_dynamic fresh input size enc v rep nt = Some (c, data, cap, Kept input) /\ v_enc c = e /\
  ((v_ec c = ENOMEM /\ nothing c data cap /\ exists k n, fresh k n = None) \/
   ((v_inv c = false <-> well_formed (seq_of f) us) /\
    ((v = V_error -> well_formed (seq_of f) us) /\ rest = [] /\ v_ec c = OK /\ (exists bs, replaced (seq_of f) utf8_seq (replacement v rep) us bs /\ v_size c = length bs /\ holds data cap bs nt) \/
     (v = V_error /\ ~ well_formed (seq_of f) us \/ rest <> []) /\ v_ec c = EINVAL /\ nothing c data cap))).
Proof. intros fresh f us rest v rep nt enc e input size Hl. exact (dynamic_units fresh Hl f us rest v rep nt enc e input size). Qed.
(** Valid UTF-8: the block of the input is handed out, possibly reallocated for the terminator. *)
Theorem C84_utf8_partial : forall fresh us vs v rep nt enc e input size, (forall k n c, fresh k n = Some c -> length c = n) -> encodes utf8_seq vs us -> us <> [] -> valid_rep v rep -> (size <= length input)%nat ->
  handed F8 us enc (firstn size input) e ->
  exists c data cap after, tmu_utf8_convert_from_bytes_dynamic fresh input size enc v rep nt = Some (c, data, cap, after) /\ v_enc c = e /\
  ((v_ec c = OK /\ v_inv c = false /\ v_size c = length us /\ holds data cap us nt /\ after = Zeroed) \/ (v_ec c = ENOMEM /\ nothing c data cap /\ nt = true /\ exists k n, fresh k n = None)).
Proof. intros fresh us vs v rep nt enc e input size Hl. exact (dynamic_utf8_valid fresh Hl us vs v rep nt enc e input size). Qed.
Example C84_example :
  tmu_utf8_convert_from_bytes_dynamic (fun _ n => Some (repeat 0 n)) [0xFF; 0xFE; 0xAC; 0x20; 7] 4 E_unknown V_error [] true = Some (Conversion 3 OK E_utf16le_bom false, Block false [0xE2; 0x82; 0xAC; 0], 4%nat, Kept [0xFF; 0xFE; 0xAC; 0x20; 7]) /\
  tmu_utf8_convert_from_bytes_dynamic (fun _ n => Some (repeat 0 n)) [0xEF; 0xBB; 0xBF; 0x41] 4 E_unknown V_error [] true = Some (Conversion 1 OK E_utf8_bom false, Block true [0x41; 0; 0xBF; 0x41], 4%nat, Zeroed).
Proof. split; vm_compute; reflexivity. Qed.

Print Assumptions C39_refuted.
Print Assumptions C39_partial.
Print Assumptions C82_valid_text.
Print Assumptions C83_refuted.
Print Assumptions C83_buffer_partial.
Print Assumptions C83_utf16_partial.
Print Assumptions C83_inplace_partial.
Print Assumptions C84_refuted.
Print Assumptions C84_other_forms_partial.
Print Assumptions C84_utf8_partial.
