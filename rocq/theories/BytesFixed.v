(** Conversion of bytes into the caller's buffer: the whole function. *)
From Coq Require Import Arith NArith ZArith List Bool Lia.
From Coq Require Import ZifyBool ZifyNat ZifyN.
From Verif Require Import Base CodecModel CodecProofs UniModel UniSpec UniProofs UniValid UniConv UniTop UniText BytesModel BytesSpec BytesProofs BytesTop.
Import ListNotations.
Local Open Scope N_scope.

Lemma encodes_replaced : forall vs us rep rest out, encodes utf8_seq vs us -> replaced utf8_seq utf8_seq rep rest out -> replaced utf8_seq utf8_seq rep (us ++ rest) (us ++ out).
Proof. intros vs us rep rest out W R. induction W as [|v vs ch us S W IH]; [exact R|]. rewrite <- !app_assoc. apply (R_seq _ _ _ v); assumption. Qed.
Lemma longest_whole : forall P s r, longest_prefix P s r -> P s -> r = length s.
Proof. intros P s r (L & _ & M) H. specialize (M (length s) (Nat.le_refl _)). rewrite firstn_all in M. specialize (M H). lia. Qed.
Lemma copy_spec : forall fresh out e v rep fuel bytes, v <> V_error -> valid_rep v rep -> octets bytes -> (length bytes <= fuel)%nat -> forall o bs i, fixed out e o bs i ->
  exists o' t i', copy_loop fresh fuel v rep bytes o = Some o' /\ replaced utf8_seq utf8_seq (replacement v rep) bytes t /\ fixed out e o' (bs ++ t) i' /\ (i' = false <-> i = false /\ well_formed utf8_seq bytes).
Proof.
  intros fresh out e v rep fuel. induction fuel as [|fuel IH]; intros bytes Hv Hr U L o bs i H.
  - destruct bytes; [|cbn [length] in L; lia]. exists o, [], i. split; [reflexivity|]. split; [constructor|]. rewrite app_nil_r. split; [exact H|]. split; [intros ->; split; [reflexivity|exists []; constructor]|tauto].
  - destruct bytes as [|b bytes]; [exists o, [], i; split; [reflexivity|]; split; [constructor|]; rewrite app_nil_r; split; [exact H|]; split; [intros ->; split; [reflexivity|exists []; constructor]|tauto]|].
    remember (b :: bytes) as s eqn:Es. destruct (utf8_valid_range_spec s U) as (r & Er & Lp). destruct (split_longest utf8_seq utf8_ne s r Lp) as (vs & us & rest & W & Eu & Lu & I).
    assert (Ef : firstn r s = us) by (rewrite Eu, <- Lu, firstn_app, firstn_all, Nat.sub_diag, firstn_O, app_nil_r; reflexivity).
    assert (Ek : skipn r s = rest) by (rewrite Eu, <- Lu, skipn_app, skipn_all, Nat.sub_diag; reflexivity).
    assert (Ap : exists o1, (match r with O => Some o | S _ => match tmu_output_append_str fresh o (firstn r s) with Some (_, o') => Some o' | None => None end end) = Some o1 /\ fixed out e o1 (bs ++ us) i).
    { destruct r as [|r']; [exists o; destruct us; [rewrite app_nil_r; auto|cbn [length] in Lu; lia]|]. rewrite Ef. destruct (fixed_str fresh out e o bs i us H) as (ok & o1 & E1 & P1); [destruct us; [cbn [length] in Lu; lia|discriminate]|]. rewrite E1. destruct ok; [|contradiction]. exists o1. auto. }
    destruct Ap as (o1 & Ea & H1). assert (Ecl : copy_loop fresh (S fuel) v rep s o = match rest with [] => Some o1 | _ :: rest => let o := set_inv o1 true in match v with V_skip => copy_loop fresh fuel v rep rest o | V_replace => ' (_, o) <- tmu_output_append_str fresh o rep ;; copy_loop fresh fuel v rep rest o | V_error => Some (set_ec o EINVAL) end end).
    { rewrite Es. cbn [copy_loop]. rewrite <- Es. rewrite Er. rewrite Ea. rewrite Ek. reflexivity. }
    rewrite Ecl. clear Ecl Ea. destruct rest as [|c rest].
    + exists o1, us, i. split; [reflexivity|]. rewrite app_nil_r in Eu. rewrite Eu. split; [rewrite <- (app_nil_r us) at 1 2; apply (encodes_replaced vs); [exact W|constructor]|]. split; [exact H1|]. split; [intros ->; split; [reflexivity|exists vs; exact W]|tauto].
    + assert (Nw : ~ well_formed utf8_seq s) by (intros Q; pose proof (longest_whole _ _ _ Lp Q) as Q2; rewrite Eu, app_length in Q2; cbn [length] in Q2; lia).
      assert (Ur : octets rest) by (rewrite Eu in U; apply Forall_app in U as [_ U]; apply Forall_cons_iff in U; apply U).
      assert (Lr : (length rest <= fuel)%nat) by (rewrite Eu, app_length in L; cbn [length] in L; lia). pose proof (fixed_inv out e o1 (bs ++ us) i H1) as H2. cbv zeta. destruct v; [| |congruence].
      * destruct (IH rest Hv Hr Ur Lr (set_inv o1 true) (bs ++ us) true H2) as (o' & t & i' & E & R & F & Q). exists o', (us ++ t), i'. split; [exact E|]. split; [rewrite Eu; apply (encodes_replaced vs); [exact W|]; apply (R_rep utf8_seq utf8_seq [] c rest t); assumption|].
        rewrite app_assoc. split; [exact F|]. split; [intros Q2; apply Q in Q2 as [Q2 _]; discriminate|intros [_ Q2]; contradiction].
      * destruct (fixed_str fresh out e (set_inv o1 true) (bs ++ us) true rep H2 (Hr eq_refl)) as (ok & o2 & E2 & P2). rewrite E2. destruct ok; [|contradiction].
        destruct (IH rest Hv Hr Ur Lr o2 _ true P2) as (o' & t & i' & E & R & F & Q). exists o', (us ++ rep ++ t), i'. split; [exact E|]. split; [rewrite Eu; apply (encodes_replaced vs); [exact W|]; apply (R_rep utf8_seq utf8_seq rep c rest t); assumption|].
        rewrite !app_assoc in *. split; [exact F|]. split; [intros Q2; apply Q in Q2 as [Q2 _]; discriminate|intros [_ Q2]; contradiction].
Qed.
Lemma copy_error : forall fresh out e rep fuel bytes, octets bytes -> bytes <> [] -> (length bytes <= fuel)%nat -> forall o bs i, fixed out e o bs i ->
  exists o', copy_loop fresh fuel V_error rep bytes o = Some o' /\
  ((well_formed utf8_seq bytes /\ fixed out e o' (bs ++ bytes) i) \/ (~ well_formed utf8_seq bytes /\ b_enc o' = e /\ b_ec o' = EINVAL /\ b_inv o' = true /\ length (buf_of o') = length out)).
Proof.
  intros fresh out e rep fuel bytes U Hb L o bs i H. destruct bytes as [|b bytes]; [congruence|]. destruct fuel as [|fuel]; [cbn [length] in L; lia|]. remember (b :: bytes) as s eqn:Es.
  destruct (utf8_valid_range_spec s U) as (r & Er & Lp). destruct (split_longest utf8_seq utf8_ne s r Lp) as (vs & us & rest & W & Eu & Lu & I).
  assert (Ef : firstn r s = us) by (rewrite Eu, <- Lu, firstn_app, firstn_all, Nat.sub_diag, firstn_O, app_nil_r; reflexivity).
  assert (Ek : skipn r s = rest) by (rewrite Eu, <- Lu, skipn_app, skipn_all, Nat.sub_diag; reflexivity).
  assert (Ap : exists o1, (match r with O => Some o | S _ => match tmu_output_append_str fresh o (firstn r s) with Some (_, o') => Some o' | None => None end end) = Some o1 /\ fixed out e o1 (bs ++ us) i).
  { destruct r as [|r']; [exists o; destruct us; [rewrite app_nil_r; auto|cbn [length] in Lu; lia]|]. rewrite Ef. destruct (fixed_str fresh out e o bs i us H) as (ok & o1 & E1 & P1); [destruct us; [cbn [length] in Lu; lia|discriminate]|]. rewrite E1. destruct ok; [|contradiction]. exists o1. auto. }
  destruct Ap as (o1 & Ea & H1). assert (Ecl : copy_loop fresh (S fuel) V_error rep s o = match rest with [] => Some o1 | _ :: rest => Some (set_ec (set_inv o1 true) EINVAL) end).
  { rewrite Es. cbn [copy_loop]. rewrite <- Es. rewrite Er. rewrite Ea. rewrite Ek. reflexivity. }
  rewrite Ecl. destruct rest as [|c rest].
  - exists o1. split; [reflexivity|]. left. rewrite app_nil_r in Eu. rewrite Eu. split; [exists vs; exact W|exact H1].
  - eexists. split; [reflexivity|]. right. split; [intros Q; pose proof (longest_whole _ _ _ Lp Q) as Q2; rewrite Eu, app_length in Q2; cbn [length] in Q2; lia|]. destruct H1 as (He & P1 & P2 & P3 & P4 & P5 & P6 & cc & Q & Lc & D).
    unfold buf_of. cbn [b_enc b_ec b_inv b_data set_ec set_inv]. rewrite Q. auto.
Qed.

(** What the function answers for the units [us] in form [f], followed by a [rest] too short for a unit. *)
Definition outcome (f : form) (us rest : list N) (v : validate) (rep : list N) (nt : bool) (out : list N) (e : encoding) (c : conversion) (buf : list N) : Prop :=
  v_enc c = e /\ (v_inv c = false <-> well_formed (seq_of f) us) /\ length buf = length out /\
  (v = V_error -> ~ well_formed (seq_of f) us -> v_ec c = EINVAL) /\
  (v <> V_error \/ well_formed (seq_of f) us -> exists bs, replaced (seq_of f) utf8_seq (replacement v rep) us bs /\
    (rest = [] \/ (length out < length bs)%nat -> delivered bs nt out (v_size c) (v_ec c) buf) /\
    (rest <> [] -> (length bs <= length out)%nat -> v_ec c = EINVAL /\ v_size c = 0%nat)).
Lemma delivered_length : forall bs nt out size ec buf, delivered bs nt out size ec buf -> length buf = length out.
Proof.
  intros bs nt out size ec buf. unfold delivered. cbv zeta. destruct (Nat.leb_spec (length (bs ++ (if nt then [0] else []))) (length out)) as [L|L]; [intros (_ & _ & ->); rewrite app_length, skipn_length; lia|tauto].
Qed.
Lemma converted_outcome : forall f us cps rest v rep nt out e o, cuts f us cps -> no_cut f us -> converted out e v rep nt cps rest o -> outcome f us rest v rep nt out e (report o) (buf_of o).
Proof.
  intros f us cps rest v rep nt out e o C Nc H. pose proof (cuts_well_formed f us cps C) as Wf. unfold outcome, report. cbn [v_enc v_inv v_ec v_size]. destruct H as [(-> & Sc & H)|(Sc & bs & R & H)].
  - destruct H as (H1 & H2 & H3 & H4 & H5 & H6). split; [exact H1|]. rewrite H4. split; [split; [discriminate|intros Q; apply Wf in Q; contradiction]|]. split; [unfold buf_of; rewrite H5; exact H6|]. split; [auto|]. intros [Q|Q]; [congruence|apply Wf in Q; contradiction].
  - pose proof (cuts_replaced f us cps _ bs C Nc R) as R'. assert (Hi : existsb bad cps = false <-> well_formed (seq_of f) us) by (rewrite no_bad; exact Wf). destruct rest as [|x rest]; cbn [andb] in H.
    + destruct H as (H1 & H2 & H3). split; [exact H1|]. rewrite H2. split; [exact Hi|]. split; [apply (delivered_length _ _ _ _ _ _ H3)|]. split; [intros Q1 Q2; exfalso; apply Q2; apply Wf; auto|]. intros _. exists bs. split; [exact R'|]. split; [auto|congruence].
    + destruct (Nat.leb_spec (length bs) (length out)) as [L|L].
      * destruct H as (H1 & H2 & H3 & H4 & H5 & H6). split; [exact H1|]. rewrite H4. split; [exact Hi|]. split; [unfold buf_of; rewrite H5; exact H6|]. split; [auto|]. intros _. exists bs. split; [exact R'|]. split; [intros [Q|Q]; [discriminate|lia]|]. intros _ _. unfold size_of. rewrite H2. auto.
      * destruct H as (H1 & H2 & H3). split; [exact H1|]. rewrite H2. split; [exact Hi|]. split; [apply (delivered_length _ _ _ _ _ _ H3)|]. split; [intros Q1 Q2; exfalso; apply Q2; apply Wf; auto|]. intros _. exists bs. split; [exact R'|]. split; [auto|lia].
Qed.
Lemma converted_enc : forall out e v rep nt cps rest o e', converted out e v rep nt cps rest o -> converted out e' v rep nt cps rest (set_enc o e').
Proof.
  intros out e v rep nt cps rest o e' [(H1 & H2 & H3)|(H1 & bs & R & H)]; [left; split; [exact H1|]; split; [exact H2|]; apply (fixed_error_enc _ _ _ _ _ H3)|right].
  split; [exact H1|]. exists bs. split; [exact R|]. destruct (match rest with [] => false | _ => true end && (length bs <=? length out)%nat); [apply (fixed_error_enc _ _ _ _ _ H)|apply (told_enc _ _ _ _ _ _ _ H)].
Qed.
Lemma set_enc_ec : forall o e, b_ec (set_enc o e) = b_ec o. Proof. reflexivity. Qed.
Lemma no_copy : forall fresh o bytes conv v rep (nt : bool), (b_ec o = OK -> conv = true) ->
  (o0 <- (if errc_eqb (b_ec o) OK && negb conv && (0 <? length bytes)%nat then
          let input := if starts utf8_bom bytes then skipn 3 bytes else bytes in
          o <- copy_loop fresh (length input) v rep input o ;;
          if nt && ok_or_range (b_ec o) then ' (_, o) <- terminate fresh o ;; Some o else Some o
        else Some o) ;;
  Some (Conversion (match b_ec o0 with ERANGE => b_necessary o0 | _ => b_size o0 end) (b_ec o0) (b_enc o0) (b_inv o0), match b_data o0 with Block _ c => c | Null => b_left o0 end)) = Some (report o, buf_of o).
Proof.
  intros fresh o bytes conv v rep nt H. destruct (b_ec o) eqn:E; cbn [errc_eqb andb]; [rewrite (H eq_refl); cbn [negb andb]|..]; unfold report, size_of, buf_of; rewrite ?E; reflexivity.
Qed.
Theorem convert_units : forall fresh f us rest v rep nt out enc bytes e, Forall (fun u => u < unit_bound f) us -> (length rest < width f)%nat -> no_cut f us -> valid_rep v rep -> serialise f us ++ rest <> [] ->
  handed f (serialise f us ++ rest) enc bytes e -> exists c buf, tmu_utf8_convert_from_bytes fresh bytes enc v rep nt out = Some (c, buf) /\ outcome f us rest v rep nt out e c buf.
Proof.
  intros fresh f us rest v rep nt out enc bytes e U L Nc Hr Hb H. pose proof (fixed_start out) as F0. unfold tmu_utf8_convert_from_bytes. set (o0 := make_stream (Block false out) (length out) false) in *. clearbody o0.
  assert (Hf : f = F8 \/ f <> F8) by (destruct f; auto; right; discriminate). destruct Hf as [->|Hf].
  - assert (rest = []) by (destruct rest; [reflexivity|cbn [width length] in L; lia]). subst rest. rewrite app_nil_r in *. assert (Es : serialise F8 us = us) by (clear; unfold serialise; cbn [put]; induction us as [|u us IH]; [reflexivity|cbn [flat_map app]; rewrite IH; reflexivity]). rewrite Es in *. cbn [unit_bound] in U.
    destruct (internal_utf8 fresh us enc bytes e v rep nt o0 Hb Hr H) as [Ei Eb]. rewrite Ei. assert (Lb : (0 <? length bytes)%nat = true) by (apply Nat.ltb_lt; destruct bytes; [|cbn [length]; lia]; exfalso; apply Hb; rewrite <- Eb; reflexivity).
    pose proof (fixed_enc out _ _ _ _ e F0) as F1. rewrite (fixed_ec _ _ _ _ _ F1). cbn [length Nat.leb errc_eqb negb andb]. rewrite Lb. cbv zeta. rewrite Eb.
    assert (Fin : forall o bs i (w : Prop), fixed out e o bs i -> (i = false <-> well_formed utf8_seq us) -> (v = V_error -> well_formed utf8_seq us) -> replaced utf8_seq utf8_seq (replacement v rep) us bs ->
       exists c buf, (o1 <- (if nt && ok_or_range (b_ec o) then ' (_, o) <- terminate fresh o ;; Some o else Some o) ;; Some (Conversion (match b_ec o1 with ERANGE => b_necessary o1 | _ => b_size o1 end) (b_ec o1) (b_enc o1) (b_inv o1), match b_data o1 with Block _ c => c | Null => b_left o1 end)) = Some (c, buf) /\ outcome F8 us [] v rep nt out e c buf).
    { intros o bs i _ F Hi He R. assert (T : exists o1, (if nt && ok_or_range (b_ec o) then ' (_, o) <- terminate fresh o ;; Some o else Some o) = Some o1 /\ told out e nt o1 bs i).
      { rewrite (fixed_ec _ _ _ _ _ F). replace (ok_or_range _) with true by (destruct (length bs <=? length out)%nat; reflexivity). rewrite andb_true_r. destruct nt; [|exists o; split; [reflexivity|apply fixed_told; exact F]]. destruct (fixed_terminate fresh out e o bs i F) as (o1 & E1 & P1). rewrite E1. eauto. }
      destruct T as (o1 & E1 & T1 & T2 & T3). rewrite E1. exists (report o1), (buf_of o1). split; [reflexivity|]. unfold outcome, report. cbn [v_enc v_inv v_ec v_size seq_of]. split; [exact T1|]. rewrite T2. split; [exact Hi|]. split; [apply (delivered_length _ _ _ _ _ _ T3)|]. split; [tauto|].
      intros _. exists bs. split; [exact R|]. split; [auto|congruence]. }
    assert (Hv : v = V_error \/ v <> V_error) by (destruct v; auto; right; discriminate). destruct Hv as [->|Hv].
    + destruct (copy_error fresh out e rep (length us) us U Hb (Nat.le_refl _) _ _ _ F1) as (o' & Ec & [(W & P)|(W & P1 & P2 & P3 & P4)]); rewrite Ec.
      * apply (Fin o' _ _ True P); [tauto|auto|]. cbn [replacement app]. destruct W as [vs W]. rewrite <- (app_nil_r us). apply (encodes_replaced vs); [exact W|constructor].
      * rewrite P2. cbn [ok_or_range]. rewrite andb_false_r. exists (report o'), (buf_of o'). split; [unfold report, size_of, buf_of; rewrite P2; reflexivity|]. unfold outcome, report. cbn [v_enc v_inv v_ec v_size seq_of]. split; [exact P1|]. rewrite P3. split; [split; [discriminate|contradiction]|]. split; [exact P4|]. split; [auto|]. intros [Q|Q]; [congruence|contradiction].
    + destruct (copy_spec fresh out e v rep (length us) us Hv Hr U (Nat.le_refl _) _ _ _ F1) as (o' & t & i' & Ec & R & F & Q). rewrite Ec. apply (Fin o' _ _ True F); [tauto|congruence|exact R].
  - destruct (cuts_exists f us Hf U) as [cps C]. pose proof (loop_fold fresh f us cps rest C U L) as Lf.
    destruct (internal_handed fresh f (serialise f us ++ rest) enc bytes e v rep nt o0 Hf Hb Hr H) as [Ei|Ei]; rewrite Ei.
    + destruct (convert_fixed fresh _ cps rest _ Lf v rep nt out e (set_enc o0 e) Hr (fixed_enc _ _ _ _ _ e F0)) as (o' & E & P). rewrite E. rewrite no_copy by auto. eexists _, _. split; [reflexivity|]. apply (converted_outcome f us cps); assumption.
    + destruct (convert_fixed fresh _ cps rest _ Lf v rep nt out _ o0 Hr F0) as (o' & E & P). rewrite E. rewrite no_copy by (cbn [b_ec set_enc]; intros ->; reflexivity). eexists _, _. split; [reflexivity|]. apply (converted_outcome f us cps); [exact C|exact Nc|]. apply (converted_enc _ _ _ _ _ _ _ _ _ P).
Qed.
