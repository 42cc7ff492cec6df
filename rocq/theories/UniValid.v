(** UTF-16 codec; validators return the longest well-formed prefix. *)
From Coq Require Import Arith NArith ZArith List Bool Lia.
From Coq Require Import ZifyBool ZifyNat ZifyN.
From Verif Require Import Base CodecModel CodecProofs UniModel UniSpec UniProofs.
Import ListNotations.
Local Open Scope N_scope.

(** ** UTF-16 *)
Lemma is_lead_spec : forall c, is_lead c = true <-> 0xD800 <= c <= 0xDBFF.
Proof. intros c. unfold is_lead, TMU_LEAD_SURROGATE_MIN, TMU_LEAD_SURROGATE_MAX. lia. Qed.
Lemma is_trail_spec : forall c, is_trail c = true <-> 0xDC00 <= c <= 0xDFFF.
Proof. intros c. unfold is_trail, TMU_TRAILING_SURROGATE_MIN, TMU_TRAILING_SURROGATE_MAX. lia. Qed.
Lemma pair_value : forall a b, 0xD800 <= a <= 0xDBFF -> 0xDC00 <= b <= 0xDFFF -> pair_codepoint a b = (a - 0xD800) * 1024 + (b - 0xDC00) + 0x10000.
Proof.
  intros a b Ha Hb. unfold pair_codepoint, w32. rewrite shl. change (2 ^ 10) with 1024. change TMU_SURROGATE_OFFSET with 4238353408.
  rewrite (N.mod_small (a * 1024)) by lia. rewrite (N.mod_small (a * 1024 + b)) by lia.
  destruct (dm (a * 1024 + b + 4238353408) 4294967296 1 ((a - 55296) * 1024 + (b - 56320) + 65536)) as [_ ->]; [lia|lia|reflexivity].
Qed.
Lemma utf16_scalar : forall v ch, utf16_seq v ch -> scalar v.
Proof. intros v ch H. destruct H; [assumption|unfold scalar; lia]. Qed.
Lemma utf16_ne : forall v ch, utf16_seq v ch -> (0 < length ch <= 2)%nat.
Proof. intros v ch H. destruct H; cbn; lia. Qed.
Lemma utf16_ex : forall v, scalar v -> exists ch, utf16_seq v ch.
Proof. intros v H. destruct (N.le_gt_cases v 0xFFFF); [eexists; apply U16_1; assumption|]. eexists. apply U16_2. unfold scalar in H. lia. Qed.
Lemma utf16_fun : forall v ch ch', utf16_seq v ch -> utf16_seq v ch' -> ch = ch'.
Proof. intros v ch ch' H H'. destruct H; inversion H'; subst; try reflexivity; lia. Qed.
Lemma utf16_units : forall v ch, utf16_seq v ch -> Forall (fun c => c < 65536) ch.
Proof.
  intros v ch H. destruct H as [v H S|v H]; [repeat constructor; lia|].
  pose proof (N.mod_upper_bound (v - 65536) 1024 ltac:(discriminate)). assert ((v - 65536) / 1024 < 1024) by (apply N.div_lt_upper_bound; [discriminate|lia]). repeat constructor; lia.
Qed.
Lemma mk16 : forall a b, 0xD800 <= a <= 0xDBFF -> 0xDC00 <= b <= 0xDFFF -> utf16_seq ((a - 0xD800) * 1024 + (b - 0xDC00) + 0x10000) [a; b].
Proof.
  intros a b Ha Hb. set (v := (a - 0xD800) * 1024 + (b - 0xDC00) + 0x10000). destruct (dm (v - 0x10000) 1024 (a - 0xD800) (b - 0xDC00)) as [E1 E2]; [lia|unfold v; lia|].
  replace [a; b] with [0xD800 + (v - 0x10000) / 1024; 0xDC00 + (v - 0x10000) mod 1024] by (rewrite E1, E2; repeat f_equal; lia). apply U16_2. unfold v. lia.
Qed.
Lemma extract16_seq : forall v ch rest, utf16_seq v ch -> tmu_utf16_extract (ch ++ rest) = Some (true, v, rest).
Proof.
  intros v ch rest H. pose proof (utf16_scalar v ch H) as Hs. apply valid_scalar in Hs as Hv. unfold tmu_utf16_extract. destruct H as [v H S|v H].
  - cbn [app]. destruct (is_lead v) eqn:L; [apply is_lead_spec in L; unfold scalar in S; lia|]. rewrite Hv. reflexivity.
  - pose proof (N.div_mod' (v - 0x10000) 1024) as E. pose proof (N.mod_upper_bound (v - 0x10000) 1024 ltac:(discriminate)) as L.
    assert (Q : (v - 0x10000) / 1024 < 1024) by (apply N.div_lt_upper_bound; [discriminate|lia]).
    set (q := (v - 0x10000) / 1024) in *. set (r := (v - 0x10000) mod 1024) in *. cbn [app].
    rewrite (proj2 (is_lead_spec _)) by lia. rewrite (proj2 (is_trail_spec _)) by lia. rewrite pair_value by lia.
    replace ((0xD800 + q - 0xD800) * 1024 + (0xDC00 + r - 0xDC00) + 0x10000) with v by lia. rewrite Hv. reflexivity.
Qed.
Lemma utf16_prefix : forall v v' ch ch' r r', utf16_seq v ch -> utf16_seq v' ch' -> ch ++ r = ch' ++ r' -> v = v' /\ ch = ch' /\ r = r'.
Proof.
  intros v v' ch ch' r r' H H' E. pose proof (extract16_seq v ch r H) as X. rewrite E, (extract16_seq v' ch' r' H') in X. injection X as -> ->.
  split; [reflexivity|]. split; [exact (utf16_fun v ch ch' H H')|reflexivity].
Qed.
(** Extraction of units below 2^16 fails exactly where no sequence starts. *)
Lemma extract16_cases : forall s, Forall (fun c => c < 65536) s ->
  (exists v ch rest, utf16_seq v ch /\ s = ch ++ rest) \/ (ill_formed_at utf16_seq s /\ exists cp, tmu_utf16_extract s = Some (false, cp, s)).
Proof.
  intros s Hu. unfold tmu_utf16_extract. destruct s as [|a s].
  - right. split; [|eexists; reflexivity]. intros (v & ch & rest & H & E). pose proof (utf16_ne v ch H). destruct ch; [cbn in *; lia|discriminate].
  - inversion Hu as [|? ? Ha Hs]; subst. destruct (is_lead a) eqn:L.
    + apply is_lead_spec in L. destruct s as [|b s].
      * right. split; [|eexists; reflexivity]. intros (v & ch & rest & H & E). destruct H as [v H S|v H]; [injection E as <- _; unfold scalar in S; lia|discriminate].
      * inversion Hs as [|? ? Hb _]; subst. destruct (is_trail b) eqn:T.
        -- left. apply is_trail_spec in T. exists ((a - 0xD800) * 1024 + (b - 0xDC00) + 0x10000), [a; b], s. split; [apply mk16; assumption|reflexivity].
        -- right. split; [|eexists; reflexivity]. intros (v & ch & rest & H & E). destruct H as [v H S|v H]; [injection E as <- _; unfold scalar in S; lia|].
           assert (Eb : b = 0xDC00 + (v - 0x10000) mod 1024) by (cbn [app] in E; congruence). clear E. pose proof (N.mod_upper_bound (v - 0x10000) 1024 ltac:(discriminate)) as Lm. set (r := (v - 0x10000) mod 1024) in *. clearbody r. assert (is_trail b = true) by (apply is_trail_spec; lia). congruence.
    + destruct (tmu_is_valid_codepoint a) eqn:V.
      * left. apply valid_scalar in V. exists a, [a], s. split; [apply U16_1; [lia|exact V]|reflexivity].
      * right. split; [|eexists; reflexivity]. intros (v & ch & rest & H & E). destruct H as [v H S|v H].
        -- injection E as <- _. apply valid_scalar in S. congruence.
        -- assert (Ea : a = 0xD800 + (v - 0x10000) / 1024) by (cbn [app] in E; congruence). clear E. assert (Q : (v - 0x10000) / 1024 < 1024) by (apply N.div_lt_upper_bound; [discriminate|lia]). set (q := (v - 0x10000) / 1024) in *. clearbody q.
           assert (is_lead a = true) by (apply is_lead_spec; lia). congruence.
Qed.
Lemma utf16_encode_spec : forall v buf pos room, scalar v -> (pos + room <= length buf)%nat ->
  exists ch, utf16_seq v ch /\ tmu_utf16_encode v buf pos room = Some (length ch, if (room <? length ch)%nat then buf else splice buf pos ch).
Proof.
  intros v buf pos room Hs Hr. destruct (utf16_ex v Hs) as [ch H]. exists ch. split; [exact H|].
  unfold tmu_utf16_encode, assert_. rewrite (proj2 (valid_scalar v) Hs).
  assert (G : forall bs, (if (room <? length bs)%nat then Some (length bs, buf) else buf' <- write_list buf pos bs;; Some (length bs, buf'))
            = Some (length bs, if (room <? length bs)%nat then buf else splice buf pos bs)).
  { intros bs. destruct (Nat.ltb_spec room (length bs)) as [L|L]; [reflexivity|]. rewrite write_list_splice by lia. reflexivity. }
  destruct H as [v H S|v H].
  - rewrite (proj2 (N.leb_le _ _) H). rewrite G. unfold w16. rewrite (N.mod_small v) by lia. reflexivity.
  - rewrite (proj2 (N.leb_gt v 0xFFFF)) by lia. cbv zeta. rewrite G. rewrite land3ff, shr. change (2 ^ 10) with 1024.
    pose proof (N.mod_upper_bound (v - 0x10000) 1024 ltac:(discriminate)) as L. assert (Q : (v - 0x10000) / 1024 < 1024) by (apply N.div_lt_upper_bound; [discriminate|lia]).
    unfold w16, TMU_LEAD_SURROGATE_MIN, TMU_TRAILING_SURROGATE_MIN. rewrite (N.mod_small ((v - 65536) / 1024)), (N.mod_small ((v - 65536) mod 1024) 65536) by lia.
    rewrite !N.mod_small by lia. reflexivity.
Qed.

(** ** Steps of the validators *)
Definition step_ok (seq : N -> list N -> Prop) (s : list N) (r : option nat) : Prop :=
  (exists v ch rest, seq v ch /\ s = ch ++ rest /\ r = Some (length ch)) \/ (ill_formed_at seq s /\ r = Some 0%nat).

Lemma seq_form : forall v ch, utf8_seq v ch -> forall s rest, s = ch ++ rest ->
  (exists a, s = a :: rest /\ a <= 0x7F /\ length ch = 1%nat) \/
  (exists a b, s = a :: b :: rest /\ 0xC2 <= a <= 0xDF /\ trail_octet b) \/
  (exists a b c, s = a :: b :: c :: rest /\ 0xE0 <= a <= 0xEF /\ trail_octet b /\ trail_octet c /\ (a = 0xE0 -> 0xA0 <= b) /\ (a = 0xED -> b <= 0x9F)) \/
  (exists a b c d, s = a :: b :: c :: d :: rest /\ 0xF0 <= a <= 0xF4 /\ trail_octet b /\ trail_octet c /\ trail_octet d /\ (a = 0xF0 -> 0x90 <= b) /\ (a = 0xF4 -> b <= 0x8F)).
Proof.
  intros v ch H s rest E. apply seq_table in H. destruct H as [a H|a b H H1|b c H H1|a b c H H1 H2|b c H H1|a b c H H1 H2|b c d H H1 H2|a b c d H H1 H2 H3|b c d H H1 H2]; cbn [app] in E.
  - left. exists a. repeat split; [exact E|exact H].
  - right. left. exists a, b. auto.
  - right. right. left. exists 0xE0, b, c. split; [exact E|]. unfold trail_octet in *. lia.
  - right. right. left. exists a, b, c. split; [exact E|]. unfold trail_octet in *. lia.
  - right. right. left. exists 0xED, b, c. split; [exact E|]. unfold trail_octet in *. lia.
  - right. right. left. exists a, b, c. split; [exact E|]. unfold trail_octet in *. lia.
  - right. right. right. exists 0xF0, b, c, d. split; [exact E|]. unfold trail_octet in *. lia.
  - right. right. right. exists a, b, c, d. split; [exact E|]. unfold trail_octet in *. lia.
  - right. right. right. exists 0xF4, b, c, d. split; [exact E|]. unfold trail_octet in *. lia.
Qed.
(** A sequence of octets at which none of the forms matches is ill-formed. *)
Ltac ill_formed := intros (v & ch & rest & H & E); pose proof (seq_form v ch H _ rest E) as F; unfold trail_octet in F;
  destruct F as [(? & F & ?) | [(? & ? & F & ?) | [(? & ? & ? & F & ?) | (? & ? & ? & ? & F & ?)]]]; inversion F; subst; try discriminate; lia.

Lemma utf8_step_ok : forall s, Forall (fun c => c < 256) s -> s <> [] -> step_ok utf8_seq s (utf8_step s).
Proof.
  intros s Hu Hn. destruct s as [|a s]; [congruence|]. clear Hn. inversion Hu as [|? ? Ha Hs]; subst. unfold utf8_step, step_ok. cbn [nth_error].
  destruct (N.ltb_spec a 0x80) as [La|La].
  { left. exists a, [a], s. split; [apply U8_1; exact La|]. split; reflexivity. }
  rewrite lead2 by exact Ha. destruct ((0xC0 <=? a) && (a <? 0xE0)) eqn:C2.
  { destruct s as [|b s]; [right; split; [ill_formed|reflexivity]|]. cbn [length]. change (S (S (length s)) <? 2)%nat with false. cbv iota. cbn [nth_error].
    inversion Hs as [|? ? Hb _]; subst. rewrite cont by exact Hb. rewrite overlong2 by exact Ha.
    destruct ((0x80 <=? b) && (b <=? 0xBF)) eqn:Cb; cbn [negb]; [|right; split; [ill_formed|reflexivity]].
    destruct ((0xC0 <=? a) && (a <? 0xC2)) eqn:Oa; [right; split; [ill_formed|reflexivity]|].
    left. eexists _, [a; b], s. split; [apply mk2; unfold trail_octet; lia|]. split; reflexivity. }
  rewrite lead3 by exact Ha. destruct ((0xE0 <=? a) && (a <? 0xF0)) eqn:C3.
  { destruct s as [|b [|c s]]; [right; split; [ill_formed|reflexivity]|right; split; [ill_formed|reflexivity]|].
    cbn [length]. change (S (S (S (length s))) <? 3)%nat with false. cbv iota. cbn [nth_error].
    inversion Hs as [|? ? Hb Hs2]; subst. inversion Hs2 as [|? ? Hc _]; subst. rewrite !cont by assumption. rewrite overlong3 by exact Hb.
    destruct ((0x80 <=? b) && (b <=? 0xBF)) eqn:Cb; cbn [negb]; [|right; split; [ill_formed|reflexivity]].
    destruct ((0x80 <=? c) && (c <=? 0xBF)) eqn:Cc; cbn [negb]; [|right; split; [ill_formed|reflexivity]].
    destruct ((a =? 0xE0) && ((0x80 <=? b) && (b <? 0xA0))) eqn:Oa; [right; split; [ill_formed|reflexivity]|].
    destruct ((a =? 0xED) && (0x9F <? b)) eqn:Sa; [right; split; [ill_formed|reflexivity]|].
    left. eexists _, [a; b; c], s. split; [apply mk3; unfold trail_octet; lia|]. split; reflexivity. }
  rewrite lead4 by exact Ha. destruct ((0xF0 <=? a) && (a <? 0xF8)) eqn:C4.
  { destruct s as [|b [|c [|d s]]]; [right; split; [ill_formed|reflexivity]|right; split; [ill_formed|reflexivity]|right; split; [ill_formed|reflexivity]|].
    cbn [length]. change (S (S (S (S (length s)))) <? 4)%nat with false. cbv iota. cbn [nth_error].
    inversion Hs as [|? ? Hb Hs2]; subst. inversion Hs2 as [|? ? Hc Hs3]; subst. inversion Hs3 as [|? ? Hd _]; subst. rewrite !cont by assumption.
    destruct ((0x80 <=? b) && (b <=? 0xBF)) eqn:Cb; cbn [negb]; [|right; split; [ill_formed|reflexivity]].
    destruct ((0x80 <=? c) && (c <=? 0xBF)) eqn:Cc; cbn [negb]; [|right; split; [ill_formed|reflexivity]].
    destruct ((0x80 <=? d) && (d <=? 0xBF)) eqn:Cd; cbn [negb]; [|right; split; [ill_formed|reflexivity]].
    destruct ((a =? 0xF0) && (b <? 0x90)) eqn:Oa; [right; split; [ill_formed|reflexivity]|].
    destruct ((a =? 0xF4) && (0x8F <? b)) eqn:Sa; [right; split; [ill_formed|reflexivity]|].
    destruct (N.ltb_spec 0xF4 a) as [Ta|Ta]; [right; split; [ill_formed|reflexivity]|].
    left. eexists _, [a; b; c; d], s. split; [apply mk4; unfold trail_octet; lia|]. split; reflexivity. }
  right. split; [ill_formed|reflexivity].
Qed.
Lemma utf16_step_ok : forall s, Forall (fun c => c < 65536) s -> s <> [] -> step_ok utf16_seq s (utf16_step s).
Proof.
  intros s Hu Hn. destruct (extract16_cases s Hu) as [(v & ch & rest & H & ->)|[I (cp & E)]].
  - left. exists v, ch, rest. split; [exact H|]. split; [reflexivity|]. unfold utf16_step. destruct H as [v H S|v H]; cbn [app nth_error length].
    + destruct (is_lead v) eqn:L; [apply is_lead_spec in L; unfold scalar in S; lia|]. destruct (is_trail v) eqn:T; [apply is_trail_spec in T; unfold scalar in S; lia|]. reflexivity.
    + pose proof (N.mod_upper_bound (v - 0x10000) 1024 ltac:(discriminate)) as L. assert (Q : (v - 0x10000) / 1024 < 1024) by (apply N.div_lt_upper_bound; [discriminate|lia]).
      rewrite (proj2 (is_lead_spec _)) by lia. change (S (S (length rest)) <? 2)%nat with false. cbv iota.
      replace ((_ <? TMU_TRAILING_SURROGATE_MIN) || _) with false by (unfold TMU_TRAILING_SURROGATE_MIN, TMU_TRAILING_SURROGATE_MAX; lia).
      rewrite pair_value by lia. rewrite (proj2 (valid_scalar _)) by (unfold scalar; lia). reflexivity.
  - right. split; [exact I|]. destruct s as [|a s]; [congruence|]. inversion Hu as [|? ? Ha Hs]; subst. unfold utf16_step. cbn [nth_error]. destruct (is_lead a) eqn:L.
    + destruct s as [|b s]; [reflexivity|]. cbn [length nth_error]. change (S (S (length s)) <? 2)%nat with false. cbv iota.
      destruct ((b <? TMU_TRAILING_SURROGATE_MIN) || (TMU_TRAILING_SURROGATE_MAX <? b)) eqn:T; [reflexivity|]. exfalso. apply I. apply is_lead_spec in L.
      unfold TMU_TRAILING_SURROGATE_MIN, TMU_TRAILING_SURROGATE_MAX in T. eexists _, [a; b], s. split; [apply mk16; lia|reflexivity].
    + destruct (is_trail a) eqn:T; [reflexivity|]. exfalso. apply I. exists a, [a], s. split; [|reflexivity]. apply U16_1; [lia|]. unfold scalar.
      assert (~ (0xD800 <= a <= 0xDBFF)) by (rewrite <- is_lead_spec; congruence). assert (~ (0xDC00 <= a <= 0xDFFF)) by (rewrite <- is_trail_spec; congruence). lia.
Qed.

(** ** The validating loop, for any prefix code *)
Section Valid.
Variable seq : N -> list N -> Prop.
Hypothesis prefix_code : forall v v' ch ch' r r', seq v ch -> seq v' ch' -> ch ++ r = ch' ++ r' -> v = v' /\ ch = ch' /\ r = r'.
Hypothesis seq_nonempty : forall v ch, seq v ch -> (0 < length ch)%nat.

Lemma encodes_split : forall vs us v ch rest, encodes seq vs us -> us = ch ++ rest -> seq v ch -> exists vs', vs = v :: vs' /\ encodes seq vs' rest.
Proof using prefix_code seq_nonempty.
  intros vs us v ch rest H E S. destruct H as [|v' vs ch' us S' H].
  - pose proof (seq_nonempty v ch S). destruct ch; [cbn in *; lia|discriminate].
  - destruct (prefix_code v' v ch' ch us rest S' S E) as (-> & -> & ->). exists vs. auto.
Qed.
Lemma encodes_unique : forall vs vs' us, encodes seq vs us -> encodes seq vs' us -> vs = vs'.
Proof using prefix_code seq_nonempty.
  intros vs vs' us H. revert vs'. induction H as [|v vs ch us S H IH]; intros vs' H'.
  - inversion H' as [|v vs2 ch us S H E1 E2]; [reflexivity|]. pose proof (seq_nonempty v ch S). destruct ch; [cbn in *; lia|discriminate].
  - destruct (encodes_split vs' _ v ch us H' eq_refl S) as (vs2 & -> & H2). f_equal. apply IH. exact H2.
Qed.
Lemma encodes_app : forall vs us vs' us', encodes seq vs us -> encodes seq vs' us' -> encodes seq (vs ++ vs') (us ++ us').
Proof using. intros vs us vs' us' H H'. induction H as [|v vs ch us S H IH]; [exact H'|]. cbn [app]. rewrite <- app_assoc. constructor; assumption. Qed.
(** A well-formed prefix of a text with a first sequence is empty or contains that sequence. *)
Lemma prefix_cases : forall v ch rest k, seq v ch -> well_formed seq (firstn k (ch ++ rest)) ->
  k = 0%nat \/ (firstn k (ch ++ rest) = [] \/ (length ch <= k)%nat /\ well_formed seq (firstn (k - length ch) rest)).
Proof using prefix_code seq_nonempty.
  intros v ch rest k S (vs & H). right. remember (firstn k (ch ++ rest)) as us eqn:E. destruct H as [|v' vs ch' us S' H]; [left; reflexivity|right].
  assert (E2 : ch ++ rest = ch' ++ (us ++ skipn k (ch ++ rest))) by (rewrite app_assoc, E, firstn_skipn; reflexivity).
  destruct (prefix_code v v' ch ch' rest _ S S' E2) as (<- & <- & Er).
  assert (L : (length ch + length us <= k)%nat) by (rewrite <- app_length, E, firstn_length; lia).
  split; [lia|]. exists vs. replace (firstn (k - length ch) rest) with us; [exact H|]. rewrite firstn_app, (firstn_all2 ch) in E by lia. apply app_inv_head in E. exact E.
Qed.
Variable bound : N.
Let units (s : list N) := Forall (fun c => c < bound) s.
Variable step : list N -> option nat.
Hypothesis step_spec : forall s, units s -> s <> [] -> step_ok seq s (step s).
Lemma valid_loop_spec : forall fuel s, units s -> (length s <= fuel)%nat ->
  exists r, valid_loop step fuel s = Some r /\ longest_prefix (well_formed seq) s r.
Proof using All.
  induction fuel as [|fuel IH]; intros s Hu Hf.
  - destruct s; [|cbn in Hf; lia]. exists 0%nat. split; [reflexivity|]. split; [cbn; lia|]. split; [exists []; constructor|]. intros k Hk _. exact Hk.
  - destruct s as [|a s].
    + exists 0%nat. split; [reflexivity|]. split; [cbn; lia|]. split; [exists []; constructor|]. intros k Hk _. exact Hk.
    + cbn [valid_loop]. destruct (step_spec (a :: s) Hu ltac:(discriminate)) as [(v & ch & rest & S & E & R)|[I R]]; rewrite R.
      * pose proof (seq_nonempty v ch S) as Ln. destruct (length ch) as [|n] eqn:L; [lia|]. rewrite <- L in *.
        assert (Es : skipn (length ch) (a :: s) = rest) by (rewrite E, skipn_app, skipn_all, Nat.sub_diag; reflexivity).
        assert (Eg : length (a :: s) = (length ch + length rest)%nat) by (rewrite E, app_length; reflexivity).
        assert (Ur : units rest) by (unfold units in *; rewrite E in Hu; apply Forall_app in Hu; apply Hu).
        destruct (IH rest Ur ltac:(lia)) as (r & Er & (R1 & R2 & R3)). rewrite Es, Er. exists (length ch + r)%nat. split; [reflexivity|]. split; [lia|]. rewrite E. split.
        -- destruct R2 as (vs & R2). exists (v :: vs). rewrite firstn_app, firstn_all2 by lia. replace (length ch + r - length ch)%nat with r by lia. constructor; assumption.
        -- intros k Hk W. destruct (prefix_cases v ch rest k S W) as [-> | [Z | [Z1 Z2]]]; [lia| |].
           ++ assert (Lk : length (firstn k (ch ++ rest)) = k) by (rewrite firstn_length; rewrite app_length in *; lia). rewrite Z in Lk. cbn in Lk. lia.
           ++ rewrite app_length in Hk. specialize (R3 (k - length ch)%nat ltac:(lia) Z2). lia.
      * exists 0%nat. split; [reflexivity|]. split; [lia|]. split; [exists []; constructor|]. intros k Hk (vs & W). remember (firstn k (a :: s)) as us eqn:E.
        destruct W as [|v vs ch us S W].
        -- assert (Lk : length (firstn k (a :: s)) = k) by (rewrite firstn_length; lia). rewrite <- E in Lk. cbn in Lk. lia.
        -- exfalso. apply I. exists v, ch, (us ++ skipn k (a :: s)). split; [exact S|]. rewrite app_assoc, E, firstn_skipn. reflexivity.
Qed.
End Valid.

Lemma utf8_valid_range_spec : forall s, Forall (fun c => c < 256) s -> exists r, tmu_utf8_valid_range s = Some r /\ longest_prefix (well_formed utf8_seq) s r.
Proof.
  intros s H. apply (valid_loop_spec utf8_seq utf8_prefix (fun v ch S => proj1 (seq_ne v ch S)) 256); [exact utf8_step_ok|exact H|lia].
Qed.
Lemma utf16_valid_range_spec : forall s, Forall (fun c => c < 65536) s -> exists r, tmu_utf16_valid_range s = Some r /\ longest_prefix (well_formed utf16_seq) s r.
Proof.
  intros s H. apply (valid_loop_spec utf16_seq utf16_prefix (fun v ch S => proj1 (utf16_ne v ch S)) 65536); [exact utf16_step_ok|exact H|lia].
Qed.
