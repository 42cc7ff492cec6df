(** Conversion of bytes: code values against the encoding forms, the UTF-8 path, the entry points. *)
From Coq Require Import Arith NArith ZArith List Bool Lia.
From Coq Require Import ZifyBool ZifyNat ZifyN.
From Verif Require Import Base CodecModel CodecProofs UniModel UniSpec UniProofs UniValid UniConv UniTop UniText BytesModel BytesSpec BytesProofs.
Import ListNotations.
Local Open Scope N_scope.

(** ** Code values and what is kept or replaced *)
Lemma bad_spec : forall c, bad c = false <-> scalar c.
Proof. intros c. unfold bad. rewrite negb_false_iff. apply valid_scalar. Qed.
Lemma no_bad : forall cps, existsb bad cps = false <-> Forall scalar cps.
Proof. induction cps as [|c cps IH]; cbn [existsb]; [split; [constructor|reflexivity]|]. rewrite orb_false_iff, Forall_cons_iff, bad_spec, IH. reflexivity. Qed.
Lemma values16_scalars : forall us cps, values16 us cps -> Forall scalar cps -> encodes utf16_seq cps us.
Proof.
  intros us cps V. induction V as [|v ch us vs S V IH|c us vs S V IH|c d us vs Sc Sd V IH|c S]; intros F; [constructor| | | |].
  - apply Forall_cons_iff in F as [_ F]. constructor; auto.
  - exfalso. apply Forall_cons_iff in F as [F _]. apply (surrogate_bad c); auto.
  - exfalso. apply Forall_cons_iff in F as [F _]. apply (surrogate_bad c); auto.
  - exfalso. apply Forall_cons_iff in F as [F _]. apply (surrogate_bad c); auto.
Qed.
Lemma seq16_cases : forall v ch, utf16_seq v ch -> (ch = [v] /\ scalar v) \/ exists a b, ch = [a; b] /\ lead_surrogate a /\ trail_surrogate b.
Proof.
  intros v ch [w H S|w H]; [left; auto|right]. eexists _, _. split; [reflexivity|]. unfold lead_surrogate, trail_surrogate. pose proof (N.mod_lt (w - 0x10000) 1024 ltac:(discriminate)).
  assert ((w - 0x10000) / 1024 < 1024) by (apply N.div_lt_upper_bound; lia). set (q := (w - 0x10000) / 1024) in *. set (r := (w - 0x10000) mod 1024) in *. clearbody q r. lia.
Qed.
Lemma values16_encodes : forall us cps, values16 us cps -> forall vs, encodes utf16_seq vs us -> vs = cps.
Proof.
  intros us cps V. induction V as [|v ch us vs S V IH|c us vs S V IH|c d us vs Sc Sd V IH|c S]; intros ws W.
  - inversion W as [|w ws' ch us' S' W' E1 E2]; [reflexivity|]. pose proof (utf16_ne _ _ S') as L. destruct ch; [cbn [length] in L; lia|discriminate].
  - remember (ch ++ us) as t eqn:Et. destruct W as [|w ws' ch' us' S' W']; [pose proof (utf16_ne _ _ S) as L; destruct ch; [cbn [length] in L; lia|discriminate]|].
    destruct (utf16_prefix w v ch' ch us' us S' S Et) as (-> & -> & ->). rewrite (IH ws' W'). reflexivity.
  - exfalso. remember (c :: us) as t eqn:Et. destruct W as [|w ws' ch' us' S' W']; [discriminate|]. destruct (seq16_cases w ch' S') as [[-> Sw]|(a & b & -> & A & B)]; cbn [app] in Et.
    + assert (w = c) by congruence. subst w. apply (surrogate_bad c); auto.
    + assert (a = c) by congruence. subst a. unfold lead_surrogate, trail_surrogate in *. lia.
  - exfalso. remember (c :: d :: us) as t eqn:Et. destruct W as [|w ws' ch' us' S' W']; [discriminate|]. destruct (seq16_cases w ch' S') as [[-> Sw]|(a & b & -> & A & B)]; cbn [app] in Et.
    + assert (w = c) by congruence. subst w. apply (surrogate_bad c); auto.
    + assert (b = d) by congruence. subst b. contradiction.
  - exfalso. remember [c] as t eqn:Et. destruct W as [|w ws' ch' us' S' W']; [discriminate|]. destruct (seq16_cases w ch' S') as [[-> Sw]|(a & b & -> & A & B)]; cbn [app] in Et; [|discriminate].
    assert (w = c) by congruence. subst w. apply (surrogate_bad c); auto.
Qed.
Lemma ill_trail : forall c us, trail_surrogate c -> ill_formed_at utf16_seq (c :: us).
Proof.
  intros c us T (v & ch & rest & S & E). destruct (seq16_cases v ch S) as [[-> Sw]|(a & b & -> & A & B)]; cbn [app] in E.
  - assert (v = c) by congruence. subst v. apply (surrogate_bad c); auto.
  - assert (a = c) by congruence. subst a. unfold lead_surrogate, trail_surrogate in *. lia.
Qed.
Lemma ill_lead_end : forall c, lead_surrogate c -> ill_formed_at utf16_seq [c].
Proof.
  intros c T (v & ch & rest & S & E). destruct (seq16_cases v ch S) as [[-> Sw]|(a & b & -> & A & B)]; cbn [app] in E; [|discriminate].
  assert (v = c) by congruence. subst v. apply (surrogate_bad c); auto.
Qed.
Lemma no_cut_app : forall p us, no_cut_pair (p ++ us) -> no_cut_pair us.
Proof. intros p us H q c d r E. apply (H (p ++ q) c d r). rewrite E, app_assoc. reflexivity. Qed.
Lemma values16_replaced : forall us cps, values16 us cps -> no_cut_pair us -> forall rep bs, rendered rep cps bs -> replaced utf16_seq utf8_seq rep us bs.
Proof.
  intros us cps V. induction V as [|v ch us vs S V IH|c us vs S V IH|c d us vs Sc Sd V IH|c S]; intros Nc rep bs R.
  - inversion R; subst. constructor.
  - pose proof (no_cut_app _ _ Nc) as Nc'. inversion R as [|v' c8 vs' out S8 R' E1 E2|v' vs' out B R' E1 E2]; subst; [apply (R_seq _ _ _ v); auto|]. exfalso. apply B. apply (utf16_scalar v ch S).
  - pose proof (no_cut_app [c] _ Nc) as Nc'. inversion R as [|v' c8 vs' out S8 R' E1 E2|v' vs' out B R' E1 E2]; subst; [|apply R_rep; [apply ill_trail; exact S|auto]]. exfalso. apply (surrogate_bad c); [auto|]. apply (seq_scalar c c8 S8).
  - exfalso. apply Sd. apply (Nc [] c d us); [reflexivity|exact Sc].
  - inversion R as [|v' c8 vs' out S8 R' E1 E2|v' vs' out B R' E1 E2]; subst; [exfalso; apply (surrogate_bad c); [auto|apply (seq_scalar c c8 S8)]|]. inversion R'; subst. apply R_rep; [apply ill_lead_end; exact S|constructor].
Qed.
Lemma utf32_encodes : forall vs us, encodes utf32_seq vs us <-> us = vs /\ Forall scalar vs.
Proof.
  intros vs us. split.
  - intros W. induction W as [|v vs ch us [w S] W [-> F]]; [auto|]. cbn [app]. auto.
  - intros [-> F]. induction F as [|v vs S F IH]; [constructor|]. apply (E_cons utf32_seq v vs [v] vs); [constructor; exact S|exact IH].
Qed.
Lemma utf32_replaced : forall us rep bs, rendered rep us bs -> replaced utf32_seq utf8_seq rep us bs.
Proof.
  intros us rep bs R. induction R as [|v ch vs out S R IH|v vs out B R IH]; [constructor| |].
  - apply (R_seq utf32_seq utf8_seq rep v [v] vs ch out); [constructor; apply (seq_scalar v ch S)|exact S|exact IH].
  - apply R_rep; [|exact IH]. intros (w & ch & rest & [x S] & E). cbn [app] in E. assert (x = v) by congruence. subst. contradiction.
Qed.
Definition cuts (f : form) (us cps : list N) : Prop := match f with F8 => False | F16be | F16le => values16 us cps | F32be | F32le => cps = us end.
Definition no_cut (f : form) (us : list N) : Prop := match f with F16be | F16le => no_cut_pair us | _ => True end.
Lemma cuts_exists : forall f us, f <> F8 -> Forall (fun u => u < unit_bound f) us -> exists cps, cuts f us cps.
Proof. intros f us Hf U. destruct f; [congruence| | | |]; cbn [cuts]; try (exists us; reflexivity); apply values16_exists; exact U. Qed.
Lemma cuts_well_formed : forall f us cps, cuts f us cps -> Forall scalar cps <-> well_formed (seq_of f) us.
Proof.
  intros f us cps C. assert (G16 : values16 us cps -> Forall scalar cps <-> well_formed utf16_seq us).
  { intros V. split; [intros F; exists cps; apply values16_scalars; assumption|]. intros [vs W]. rewrite <- (values16_encodes us cps V vs W). clear - W. induction W as [|v vs ch us S W IH]; constructor; [apply (utf16_scalar v ch S)|exact IH]. }
  assert (G32 : cps = us -> Forall scalar cps <-> well_formed utf32_seq us).
  { intros ->. split; [intros F; exists us; apply utf32_encodes; auto|]. intros [vs W]. apply utf32_encodes in W as [-> F]. exact F. }
  destruct f; cbn [cuts seq_of] in *; [contradiction| | | |]; auto.
Qed.
Lemma cuts_replaced : forall f us cps rep bs, cuts f us cps -> no_cut f us -> rendered rep cps bs -> replaced (seq_of f) utf8_seq rep us bs.
Proof.
  intros f us cps rep bs C Nc R. destruct f; cbn [cuts seq_of no_cut] in *; [contradiction| | | |]; try (apply (values16_replaced us cps); assumption); subst; apply utf32_replaced; exact R.
Qed.
Definition loop_of (fresh : nat -> nat -> option (list N)) (f : form) : validate -> list N -> list N -> bstream -> option (list N * step) :=
  match f with F8 => fun _ _ _ _ => None | F16be => utf16_loop fresh u16_be | F16le => utf16_loop fresh u16_le | F32be => utf32_loop fresh u32_be | F32le => utf32_loop fresh u32_le end.
Lemma loop_fold : forall fresh f us cps rest, cuts f us cps -> Forall (fun u => u < unit_bound f) us -> (length rest < width f)%nat -> forall v rep o,
  exists left, loop_of fresh f v rep (serialise f us ++ rest) o = match handles fresh v rep cps o with None => None | Some (Go o') => Some (rest, Go o') | Some (Stop o') => Some (left o', Stop o') end.
Proof.
  intros fresh f us cps rest C U L v rep o. destruct f; cbn [cuts unit_bound width loop_of] in *; unfold serialise; cbn [put]; [contradiction| | | |].
  - apply utf16_fold; [exact order_be16|exact C|exact U|exact L].
  - apply utf16_fold; [exact order_le16|exact C|exact U|exact L].
  - subst. apply utf32_fold; [exact order_be32|exact U|exact L].
  - subst. apply utf32_fold; [exact order_le32|exact U|exact L].
Qed.

(** ** The encoding named or detected *)
Definition plain (f : form) : encoding := match f with F8 => E_utf8 | F16be => E_utf16be | F16le => E_utf16le | F32be => E_utf32be | F32le => E_utf32le end.
Definition marked (f : form) : encoding := match f with F8 => E_utf8_bom | F16be => E_utf16be_bom | F16le => E_utf16le_bom | F32be => E_utf32be_bom | F32le => E_utf32le_bom end.
Definition bom_of (f : form) : list N := match f with F8 => utf8_bom | F16be => utf16_be_bom | F16le => utf16_le_bom | F32be => utf32_be_bom | F32le => utf32_le_bom end.
Lemma bom_mark : forall f, bom_of f = mark f. Proof. intros []; reflexivity. Qed.
Lemma same_spec : forall a b, same a b = true <-> a = b.
Proof. induction a as [|x a IH]; intros [|y b]; cbn [same]; try (split; [discriminate|congruence]); [tauto|]. rewrite andb_true_iff, N.eqb_eq, IH. split; [intros [-> ->]; reflexivity|intros E; split; congruence]. Qed.
Lemma starts_spec : forall b bytes, starts b bytes = true <-> exists t, t <> [] /\ bytes = b ++ t.
Proof.
  intros b bytes. unfold starts. rewrite andb_true_iff, Nat.ltb_lt, same_spec. split.
  - intros [L E]. exists (skipn (length b) bytes). split; [intros Q; apply (f_equal (@length N)) in Q; rewrite skipn_length in Q; cbn [length] in Q; lia|]. rewrite <- E at 1. symmetry. apply firstn_skipn.
  - intros (t & T & ->). rewrite app_length. split; [destruct t; [congruence|cbn [length]; lia]|]. rewrite firstn_app, Nat.sub_diag, firstn_all, firstn_O, app_nil_r. reflexivity.
Qed.
(** How bytes that carry [body] in form [f] can be handed over, and the encoding reported for them. *)
Inductive handed (f : form) (body : list N) : encoding -> list N -> encoding -> Prop :=
| H_plain : ~ (exists t, body = mark f ++ t) -> handed f body (plain f) body (plain f)
| H_mark enc : enc = plain f \/ enc = marked f \/ (enc = E_unknown /\ ~ (f = F16le /\ exists t, body = 0 :: 0 :: t)) -> handed f body enc (mark f ++ body) (marked f)
| H_none : f = F8 -> (forall g t, body <> mark g ++ t) -> handed f body E_unknown body E_utf8.
Lemma starts_no : forall f body, ~ (exists t, body = mark f ++ t) -> starts (bom_of f) body = false.
Proof. intros f body H. destruct (starts (bom_of f) body) eqn:E; [|reflexivity]. apply starts_spec in E as (t & _ & E). rewrite bom_mark in E. exfalso. eauto. Qed.
Lemma starts_yes : forall f body, body <> [] -> starts (bom_of f) (mark f ++ body) = true.
Proof. intros f body H. apply starts_spec. exists body. rewrite bom_mark. auto. Qed.
Lemma starts_false : forall b bytes, (forall t, bytes <> b ++ t) -> starts b bytes = false.
Proof. intros b bytes H. destruct (starts b bytes) eqn:E; [|reflexivity]. apply starts_spec in E as (t & _ & E). exfalso. apply (H t E). Qed.
Lemma skip_mark : forall f body, skipn (length (bom_of f)) (mark f ++ body) = body.
Proof. intros f body. rewrite bom_mark. rewrite skipn_app, skipn_all, Nat.sub_diag. reflexivity. Qed.
Definition report (o : bstream) : conversion := Conversion (size_of o) (b_ec o) (b_enc o) (b_inv o).
Definition valid_rep (v : validate) (rep : list N) : Prop := v = V_replace -> rep <> [].
Lemma rep_guard : forall v rep, valid_rep v rep -> match v, rep with V_replace, [] => false | _, _ => true end = true.
Proof. intros v rep H. destruct v, rep; try reflexivity. exfalso. apply H; reflexivity. Qed.

(** What the entry points have in common, for any stream. *)
Section Internal.
Variable fresh : nat -> nat -> option (list N).
Lemma internal_handed : forall f body enc bytes e v rep nt o, f <> F8 -> body <> [] -> valid_rep v rep -> handed f body enc bytes e ->
  tmu_convert_bytes_to_utf8_internal fresh bytes enc v rep nt o =
   (o' <- convert_bytes fresh (loop_of fresh f) v rep nt body (set_enc o e) ;; Some (true, o')) \/
   tmu_convert_bytes_to_utf8_internal fresh bytes enc v rep nt o =
   (o' <- convert_bytes fresh (loop_of fresh f) v rep nt body o ;; Some (errc_eqb (b_ec o') OK, set_enc o' e)).
Proof using Type.
  intros f body enc bytes e v rep nt o Hf Hb Hr H. unfold tmu_convert_bytes_to_utf8_internal, assert_. rewrite (rep_guard v rep Hr).
  destruct H as [Hn|enc Hm|Q _]; [| |congruence].
  - right. pose proof (starts_no f body Hn) as Es. destruct body as [|x body]; [congruence|]. destruct f; cbn [plain bom_of] in *; [congruence| | | |]; rewrite Es; cbn [skipn loop_of].
    + destruct (convert_bytes fresh (utf16_loop fresh u16_be) v rep nt (x :: body) o); reflexivity.
    + destruct (convert_bytes fresh (utf16_loop fresh u16_le) v rep nt (x :: body) o); reflexivity.
    + destruct (convert_bytes fresh (utf32_loop fresh u32_be) v rep nt (x :: body) o); reflexivity.
    + destruct (convert_bytes fresh (utf32_loop fresh u32_le) v rep nt (x :: body) o); reflexivity.
  - pose proof (starts_yes f body Hb) as Es. pose proof (skip_mark f body) as Ek. remember (mark f ++ body) as bytes eqn:Eb. destruct bytes as [|x bytes]; [destruct f; cbn in Eb; discriminate|].
    destruct Hm as [->|[->|[-> Hu]]].
    + right. destruct f; cbn [plain marked bom_of] in *; [congruence| | | |]; rewrite Es, Ek; cbn [loop_of].
      * destruct (convert_bytes fresh (utf16_loop fresh u16_be) v rep nt body o); reflexivity.
      * destruct (convert_bytes fresh (utf16_loop fresh u16_le) v rep nt body o); reflexivity.
      * destruct (convert_bytes fresh (utf32_loop fresh u32_be) v rep nt body o); reflexivity.
      * destruct (convert_bytes fresh (utf32_loop fresh u32_le) v rep nt body o); reflexivity.
    + right. destruct f; cbn [plain marked bom_of] in *; [congruence| | | |]; rewrite Es, Ek; cbn [loop_of].
      * destruct (convert_bytes fresh (utf16_loop fresh u16_be) v rep nt body o); reflexivity.
      * destruct (convert_bytes fresh (utf16_loop fresh u16_le) v rep nt body o); reflexivity.
      * destruct (convert_bytes fresh (utf32_loop fresh u32_be) v rep nt body o); reflexivity.
      * destruct (convert_bytes fresh (utf32_loop fresh u32_le) v rep nt body o); reflexivity.
    + left. destruct f; cbn [plain marked bom_of mark put be16 le16 be32 le32 app] in *; [congruence| | | |].
      * rewrite (starts_false utf8_bom) by (intros t Q; rewrite Eb in Q; vm_compute in Q; discriminate). rewrite (starts_false utf32_be_bom) by (intros t Q; rewrite Eb in Q; vm_compute in Q; discriminate). rewrite (starts_false utf32_le_bom) by (intros t Q; rewrite Eb in Q; vm_compute in Q; discriminate).
        rewrite Es. cbn [length utf16_be_bom] in Ek. rewrite Ek. reflexivity.
      * rewrite (starts_false utf8_bom) by (intros t Q; rewrite Eb in Q; vm_compute in Q; discriminate). rewrite (starts_false utf32_be_bom) by (intros t Q; rewrite Eb in Q; vm_compute in Q; discriminate).
        rewrite (starts_false utf32_le_bom) by (intros t Q; rewrite Eb in Q; apply Hu; split; [reflexivity|]; exists t; apply (f_equal (skipn 2)) in Q; exact Q). rewrite (starts_false utf16_be_bom) by (intros t Q; rewrite Eb in Q; vm_compute in Q; discriminate).
        rewrite Es. cbn [length utf16_le_bom] in Ek. rewrite Ek. reflexivity.
      * rewrite (starts_false utf8_bom) by (intros t Q; rewrite Eb in Q; vm_compute in Q; discriminate). rewrite Es. cbn [length utf32_be_bom] in Ek. rewrite Ek. reflexivity.
      * rewrite (starts_false utf8_bom) by (intros t Q; rewrite Eb in Q; vm_compute in Q; discriminate). rewrite (starts_false utf32_be_bom) by (intros t Q; rewrite Eb in Q; vm_compute in Q; discriminate). rewrite Es. cbn [length utf32_le_bom] in Ek. rewrite Ek. reflexivity.
Qed.
Lemma internal_utf8 : forall body enc bytes e v rep nt o, body <> [] -> valid_rep v rep -> handed F8 body enc bytes e ->
  tmu_convert_bytes_to_utf8_internal fresh bytes enc v rep nt o = Some (false, set_enc o e) /\ (if starts utf8_bom bytes then skipn 3 bytes else bytes) = body.
Proof using Type.
  intros body enc bytes e v rep nt o Hb Hr H. unfold tmu_convert_bytes_to_utf8_internal, assert_. rewrite (rep_guard v rep Hr). destruct H as [Hn|enc' Hm|_ Hn].
  - pose proof (starts_no F8 body Hn) as Es. cbn [bom_of] in Es. rewrite Es. destruct body as [|x body]; [congruence|]. cbn [plain]. auto.
  - pose proof (starts_yes F8 body Hb) as Es. pose proof (skip_mark F8 body) as Ek. cbn [bom_of] in Es, Ek. rewrite Es. cbn [mark] in *. cbn [length utf8_bom] in Ek. rewrite Ek. cbn [app plain marked] in *. destruct Hm as [->|[->|[-> _]]]; rewrite ?Es; auto.
  - assert (Q : forall f, starts (bom_of f) body = false) by (intros f; apply starts_no; intros [t E]; apply (Hn f t E)). pose proof (Q F8) as Q1. pose proof (Q F16be) as Q2. pose proof (Q F16le) as Q3. pose proof (Q F32be) as Q4. pose proof (Q F32le) as Q5. cbn [bom_of] in *. rewrite Q1, Q2, Q3, Q4, Q5. destruct body; [congruence|]. auto.
Qed.
End Internal.
