(** Whole functions: extraction, conversion, truncation, counting and comparison. *)
From Coq Require Import Arith NArith ZArith List Bool Lia.
From Coq Require Import ZifyBool ZifyNat ZifyN.
From Verif Require Import Base CodecModel CodecProofs UniModel UniSpec UniProofs UniValid UniConv.
Import ListNotations.
Local Open Scope N_scope.

(** ** Extraction of any octets *)
Lemma lenient_ne : seq_nonempty lenient. Proof. intros v ch H. destruct H; cbn; lia. Qed.
Lemma lenient_scalar : seq_scalars lenient.
Proof.
  intros v ch H. destruct H as [a H|a b H|a b c v H _ S|a b c d v H _ S]; try assumption; left; [lia|].
  pose proof (N.mod_upper_bound a 32 ltac:(discriminate)). pose proof (N.mod_upper_bound b 64 ltac:(discriminate)). lia.
Qed.
Lemma mod_base : forall a k b, k <= a < k + b -> k mod b = 0 -> a mod b = a - k.
Proof.
  intros a k b H M. assert (b <> 0) by lia. rewrite <- (N.mod_small (a - k) b) by lia. pose proof (N.div_mod' k b) as D. rewrite M in D. replace a with (a - k + k / b * b) at 1 by lia. apply N.mod_add. assumption.
Qed.
Lemma seq_lenient : forall v ch, utf8_seq v ch -> lenient v ch.
Proof.
  intros v ch H. pose proof (seq_scalar v ch H) as Sc. destruct H as [v H|v H|v H S|v H].
  - constructor. exact H.
  - assert (Q : v / 64 < 32) by (apply N.div_lt_upper_bound; [discriminate|lia]). pose proof (N.div_mod' v 64) as D. pose proof (N.mod_upper_bound v 64 ltac:(discriminate)) as M.
    assert (X : lenient ((0xC0 + v / 64) mod 32 * 64 + (0x80 + v mod 64) mod 64) [0xC0 + v / 64; 0x80 + v mod 64]) by (apply L_2; set (q := v / 64) in *; clearbody q; lia).
    rewrite (mod_base (0xC0 + v / 64) 0xC0 32), (mod_base (0x80 + v mod 64) 0x80 64) in X; try reflexivity; try (set (q := v / 64) in *; set (r := v mod 64) in *; clearbody q r; lia).
    replace ((0xC0 + v / 64 - 0xC0) * 64 + (0x80 + v mod 64 - 0x80)) with v in X by (set (q := v / 64) in *; set (r := v mod 64) in *; clearbody q r; lia). exact X.
  - assert (Q : v / 4096 < 16) by (apply N.div_lt_upper_bound; [discriminate|lia]). pose proof (N.div_mod' v 64) as D. pose proof (N.mod_upper_bound v 64 ltac:(discriminate)) as M.
    pose proof (N.div_mod' (v / 64) 64) as D2. pose proof (N.mod_upper_bound (v / 64) 64 ltac:(discriminate)) as M2. rewrite N.div_div in D2 by discriminate. change (64 * 64) with 4096 in D2.
    set (q := v / 4096) in *. set (r1 := v / 64 mod 64) in *. set (r2 := v mod 64) in *. set (h := v / 64) in *. clearbody q r1 r2 h.
    apply L_3; [lia| |exact Sc]. rewrite (mod_base (0xE0 + q) 0xE0 16), (mod_base (0x80 + r1) 0x80 64), (mod_base (0x80 + r2) 0x80 64); try reflexivity; lia.
  - assert (Q : v / 262144 < 8) by (apply N.div_lt_upper_bound; [discriminate|lia]). pose proof (N.div_mod' v 64) as D. pose proof (N.mod_upper_bound v 64 ltac:(discriminate)) as M.
    pose proof (N.div_mod' (v / 64) 64) as D2. pose proof (N.mod_upper_bound (v / 64) 64 ltac:(discriminate)) as M2. rewrite N.div_div in D2 by discriminate. change (64 * 64) with 4096 in D2.
    pose proof (N.div_mod' (v / 4096) 64) as D3. pose proof (N.mod_upper_bound (v / 4096) 64 ltac:(discriminate)) as M3. rewrite N.div_div in D3 by discriminate. change (4096 * 64) with 262144 in D3.
    set (q := v / 262144) in *. set (r0 := v / 4096 mod 64) in *. set (r1 := v / 64 mod 64) in *. set (r2 := v mod 64) in *. set (h := v / 64) in *. set (h2 := v / 4096) in *. clearbody q r0 r1 r2 h h2.
    apply L_4; [lia| |exact Sc]. rewrite (mod_base (0xF0 + q) 0xF0 8), (mod_base (0x80 + r0) 0x80 64), (mod_base (0x80 + r1) 0x80 64), (mod_base (0x80 + r2) 0x80 64); try reflexivity; lia.
Qed.
Lemma invalid_cp : tmu_is_valid_codepoint TMU_INVALID_CODEPOINT = false. Proof. reflexivity. Qed.
(** Extraction either takes a lenient sequence or fails without moving; it fails exactly if no such sequence starts there. *)
Lemma extract_lenient : forall v ch rest, lenient v ch -> tmu_utf8_extract (ch ++ rest) = Some (true, v, rest).
Proof.
  intros v ch rest H. pose proof (proj2 (valid_scalar v) (lenient_scalar v ch H)) as Hv. unfold tmu_utf8_extract. destruct H as [a H|a b H|a b c v H E S|a b c d v H E S]; cbn [app length nth_error]; cbn [Nat.ltb Nat.leb].
  - rewrite (proj2 (N.ltb_lt a 0x80)) by lia. rewrite Hv. reflexivity.
  - rewrite (proj2 (N.ltb_ge a 0x80)) by lia. rewrite (shr5 a) by lia. rewrite (proj2 (N.leb_le 0xC0 a)), (proj2 (N.ltb_lt a 0xE0)) by lia. cbn [andb]. rewrite value2, Hv. reflexivity.
  - rewrite (proj2 (N.ltb_ge a 0x80)) by lia. rewrite (shr5 a), (shr4 a) by lia. rewrite (proj2 (N.ltb_ge a 0xE0)), (proj2 (N.leb_le 0xE0 a)), (proj2 (N.ltb_lt a 0xF0)) by lia. rewrite andb_false_r. cbn [andb]. rewrite value3, <- E, Hv. reflexivity.
  - rewrite (proj2 (N.ltb_ge a 0x80)) by lia. rewrite (shr5 a), (shr4 a), (shr3 a) by lia. rewrite (proj2 (N.ltb_ge a 0xE0)), (proj2 (N.ltb_ge a 0xF0)), (proj2 (N.leb_le 0xF0 a)), (proj2 (N.ltb_lt a 0xF8)) by lia. rewrite !andb_false_r. cbn [andb]. rewrite value4, <- E, Hv. reflexivity.
Qed.
Lemma extract_false : forall s cp, tmu_utf8_extract s = Some (false, cp, s) -> ill_formed_at lenient s.
Proof. intros s cp E (v & ch & rest & H & X). subst s. rewrite (extract_lenient v ch rest H) in E. discriminate. Qed.
Lemma extract8_cases : forall s, Forall (fun c => c < 256) s ->
  (exists v ch rest, lenient v ch /\ s = ch ++ rest) \/ (ill_formed_at lenient s /\ exists cp, tmu_utf8_extract s = Some (false, cp, s)).
Proof.
  intros s Hu. enough (Q : (exists v ch rest, lenient v ch /\ s = ch ++ rest) \/ exists cp, tmu_utf8_extract s = Some (false, cp, s)).
  { destruct Q as [Q|(cp & Q)]; [left; exact Q|right]. split; [exact (extract_false s cp Q)|exists cp; exact Q]. }
  unfold tmu_utf8_extract. destruct s as [|a s]; [right; eexists; reflexivity|]. inversion Hu as [|? ? Ha Hs]; subst. cbn [length nth_error]. change (0 <? S (length s))%nat with true. cbv iota.
  destruct (N.ltb_spec a 0x80) as [L|L]; [left; exists a, [a], s; split; [constructor; exact L|reflexivity]|].
  rewrite (shr5 a), (shr4 a), (shr3 a) by exact Ha.
  destruct ((0xC0 <=? a) && (a <? 0xE0)) eqn:C2; [|destruct ((0xE0 <=? a) && (a <? 0xF0)) eqn:C3; [|destruct ((0xF0 <=? a) && (a <? 0xF8)) eqn:C4]].
  - destruct s as [|b s]; [right; eexists; reflexivity|]. left. eexists _, [a; b], s. split; [apply L_2; lia|reflexivity].
  - destruct s as [|b [|c s]]; [right; eexists; reflexivity|right; eexists; reflexivity|]. cbn [length nth_error]. change (3 <=? S (S (S (length s))))%nat with true. cbv iota. rewrite value3.
    destruct (tmu_is_valid_codepoint (a mod 16 * 4096 + b mod 64 * 64 + c mod 64)) eqn:V; [left|right; eexists; reflexivity]. apply valid_scalar in V. eexists _, [a; b; c], s. split; [eapply L_3; [lia|reflexivity|exact V]|reflexivity].
  - destruct s as [|b [|c [|d s]]]; [right; eexists; reflexivity|right; eexists; reflexivity|right; eexists; reflexivity|]. cbn [length nth_error]. change (4 <=? S (S (S (S (length s)))))%nat with true. cbv iota. rewrite value4.
    destruct (tmu_is_valid_codepoint (a mod 8 * 262144 + b mod 64 * 4096 + c mod 64 * 64 + d mod 64)) eqn:V; [left|right; eexists; reflexivity]. apply valid_scalar in V. eexists _, [a; b; c; d], s. split; [eapply L_4; [lia|reflexivity|exact V]|reflexivity].
  - right. eexists. reflexivity.
Qed.
Lemma lenient_octets_only : forall s, Forall (fun c => c < 256) s -> s <> [] -> ill_formed_at lenient s -> exists cp, tmu_utf8_extract s = Some (false, cp, s).
Proof. intros s U _ I. destruct (extract8_cases s U) as [Q|[_ Q]]; [contradiction|exact Q]. Qed.

(** ** Counting *)
Lemma count_valid : forall vs us fuel, encodes lenient vs us -> (length us < fuel)%nat -> count_loop fuel us = Some (length vs).
Proof.
  intros vs us fuel H. revert fuel. induction H as [|v vs ch us S H IH]; intros fuel Hf; (destruct fuel as [|fuel]; [cbn in Hf; lia|]); cbn [count_loop]; [reflexivity|].
  rewrite (extract_lenient v ch us S). rewrite app_length in Hf. pose proof (lenient_ne v ch S). rewrite IH by lia. reflexivity.
Qed.
Lemma count_prefix : forall vs us rest fuel cp, encodes lenient vs us -> tmu_utf8_extract rest = Some (false, cp, rest) -> (length us < fuel)%nat -> count_loop fuel (us ++ rest) = Some (length vs).
Proof.
  intros vs us rest fuel cp H X. revert fuel. induction H as [|v vs ch us S H IH]; intros fuel Hf; (destruct fuel as [|fuel]; [cbn in Hf; lia|]); cbn [count_loop app]; [rewrite X; reflexivity|].
  rewrite <- app_assoc, (extract_lenient v ch _ S). rewrite app_length in Hf. pose proof (lenient_ne v ch S). rewrite IH by lia. reflexivity.
Qed.
(** Every octet string is a run of lenient sequences followed by something the extraction refuses. *)
Lemma lenient_split : forall s, Forall (fun c => c < 256) s -> exists vs us rest cp, encodes lenient vs us /\ s = us ++ rest /\ tmu_utf8_extract rest = Some (false, cp, rest).
Proof.
  intros s. remember (length s) as n eqn:Hn. revert s Hn. induction n as [n IH] using lt_wf_ind. intros s Hn U. destruct (extract8_cases s U) as [(v & ch & rest & H & E)|[_ (cp & E)]].
  - pose proof (lenient_ne v ch H). assert (Ur : Forall (fun c => c < 256) rest) by (rewrite E in U; apply Forall_app in U; apply U).
    destruct (IH (length rest) ltac:(subst s; rewrite app_length in Hn; lia) rest eq_refl Ur) as (vs & us & rest' & cp & W & E' & X). exists (v :: vs), (ch ++ us), rest', cp. split; [constructor; assumption|]. split; [rewrite E, E', app_assoc; reflexivity|exact X].
  - exists [], [], s, cp. split; [constructor|]. split; [reflexivity|exact E].
Qed.
Lemma encodes_lenient : forall vs us, encodes utf8_seq vs us -> encodes lenient vs us.
Proof. intros vs us H. induction H as [|v vs ch us S H IH]; constructor; [apply seq_lenient; exact S|exact IH]. Qed.

(** ** Conversion functions *)
Lemma zero8 : utf8_seq 0 [0]. Proof. apply U8_1. reflexivity. Qed.
Lemma zero16 : utf16_seq 0 [0]. Proof. apply U16_1; [discriminate|left; reflexivity]. Qed.
Section Top.
Variables seqi seqo : N -> list N -> Prop.
Variable extract : list N -> option (bool * N * list N).
Variable encode : N -> list N -> nat -> nat -> option (nat * list N).
Hypothesis enc : encode_ok seqo encode.
Hypothesis fn : seq_functional seqo.
Hypothesis zero : seqo 0 [0].
Lemma terminate_wrote : forall st st' bs (nt : bool) out, st = CState 0 OK false out 0 (length out) -> wrote st st' bs ->
  exists st2, (if nt then conv_terminate encode st' else Some st') = Some st2 /\ c_invalid st2 = c_invalid st' /\ delivered bs nt out (c_size st2) (c_ec st2) (c_buf st2).
Proof using enc fn zero.
  clear extract seqi. intros st st' bs nt out -> (W1 & W2 & W3 & W4). cbn [c_size c_buf c_pos c_room c_ec] in *. unfold delivered. destruct nt.
  - assert (He : c_ec st' = OK \/ c_ec st' = ERANGE) by (destruct (length bs <=? length out)%nat; [left|right]; apply W4).
    unfold conv_terminate. unfold st_ok in W3. destruct (enc 0 (c_buf st') (c_pos st') (c_room st') (or_introl eq_refl) W3) as (ch & S & E). rewrite (fn _ _ _ S zero) in E. cbn [length] in E.
    rewrite app_length. cbn [length]. destruct (Nat.leb_spec (length bs) (length out)) as [L|L].
    + destruct W4 as (Q1 & Q2 & Q3 & Q4). rewrite Q1, E. rewrite Q4 in *. destruct (Nat.ltb_spec (length out - length bs) 1) as [L2|L2].
      * eexists. split; [reflexivity|]. cbn [c_invalid c_size c_ec c_buf]. split; [reflexivity|]. destruct (Nat.leb_spec (length bs + 1) (length out)) as [Q|_]; [lia|]. repeat split; lia.
      * eexists. split; [reflexivity|]. cbn [c_invalid c_size c_ec c_buf]. split; [reflexivity|]. destruct (Nat.leb_spec (length bs + 1) (length out)) as [_|Q]; [|lia]. split; [reflexivity|]. split; [lia|].
        rewrite Q2, Q3. rewrite splice_splice by (cbn [length]; lia). unfold splice. cbn [firstn app Nat.add]. rewrite app_length. reflexivity.
    + destruct W4 as (Q1 & Q2). rewrite Q1, E, Q2. change (0 <? 1)%nat with true. cbv iota. eexists. split; [reflexivity|]. cbn [c_invalid c_size c_ec c_buf]. split; [reflexivity|].
      destruct (Nat.leb_spec (length bs + 1) (length out)) as [Q|_]; [lia|]. repeat split; lia.
  - exists st'. split; [reflexivity|]. split; [reflexivity|]. rewrite app_nil_r. destruct (Nat.leb_spec (length bs) (length out)) as [L|L].
    + destruct W4 as (Q1 & Q2 & _). split; [exact Q1|]. split; [lia|]. rewrite Q2. unfold splice. reflexivity.
    + destruct W4 as (Q1 & _). repeat split; [exact Q1|lia|lia].
Qed.
Hypothesis ext : forall v ch rest, seqi v ch -> extract (ch ++ rest) = Some (true, v, rest).
Hypothesis nei : seq_nonempty seqi.
Hypothesis neo : seq_nonempty seqo.
Hypothesis sco : seq_scalars seqo.
Definition rep_ok (v : validate) (rep : list N) : Prop := v = V_replace -> rep <> [].
Lemma rep_ok_ex : forall v rep A (x y : A), rep_ok v rep -> match v, rep with V_replace, [] => x | _, _ => y end = y.
Proof using. clear. intros v rep A x y H. destruct v; try reflexivity. destruct rep; [exfalso; apply H; reflexivity|reflexivity]. Qed.
Lemma convert_unfold : forall fuel s v rep nt out, rep_ok v rep -> convert_ex extract encode fuel s v rep nt out =
      match conv_loop extract encode fuel v rep s (CState 0 OK false out 0 (length out)) with
      | Ub => Ub
      | Running => Running
      | Done st =>
          match (if nt then conv_terminate encode st else Some st) with
          | None => Ub
          | Some st' => Done (Result (c_size st') (c_ec st') (c_invalid st'), c_buf st')
          end
      end.
Proof using. clear. intros. unfold convert_ex. destruct v; try reflexivity. destruct rep; [exfalso; apply H; reflexivity|reflexivity]. Qed.
Lemma st0_ok : forall out, st_ok (CState 0 OK false out 0 (length out)). Proof using. clear. intros out. unfold st_ok. cbn. lia. Qed.
Lemma convert_valid : forall vs us bs v rep nt out fuel, encodes seqi vs us -> encodes seqo vs bs -> rep_ok v rep -> (length us <= fuel)%nat ->
  exists size ec buf, convert_ex extract encode fuel us v rep nt out = Done (Result size ec false, buf) /\ delivered bs nt out size ec buf.
Proof using All.
  intros vs us bs v rep nt out fuel H B R Hf. rewrite convert_unfold by exact R.
  destruct (conv_valid seqi seqo extract encode ext enc fn nei neo sco vs us bs v rep _ fuel H B (st0_ok out) Hf) as (st & W & I & E). rewrite E.
  destruct (terminate_wrote _ st bs nt out eq_refl W) as (st2 & E2 & I2 & D). rewrite E2. cbn [c_invalid] in I. rewrite I in I2. exists (c_size st2), (c_ec st2), (c_buf st2). rewrite I2. auto.
Qed.
Variable U : list N -> Prop.
Hypothesis Utail : forall a b, U (a ++ b) -> U b.
Hypothesis bad : forall s, U s -> s <> [] -> ill_formed_at seqi s -> exists cp, extract s = Some (false, cp, s).
Lemma convert_skip : forall vs us bs rep nt out fuel, U us -> kept seqi us vs -> encodes seqo vs bs -> (length us <= fuel)%nat ->
  exists size ec inv buf, convert_ex extract encode fuel us V_skip rep nt out = Done (Result size ec inv, buf) /\ delivered bs nt out size ec buf /\ (inv = true <-> ~ encodes seqi vs us).
Proof using All.
  intros vs us bs rep nt out fuel Hu H B Hf. rewrite convert_unfold by discriminate.
  destruct (conv_skip seqi seqo extract encode ext enc fn nei neo sco U Utail bad us vs bs rep _ fuel Hu H B (st0_ok out) Hf) as (st & W & I & E). rewrite E.
  destruct (terminate_wrote _ st bs nt out eq_refl W) as (st2 & E2 & I2 & D). rewrite E2. exists (c_size st2), (c_ec st2), (c_invalid st2), (c_buf st2). split; [reflexivity|]. split; [exact D|].
  rewrite I2, I. cbn [c_invalid]. split; [intros [Q|Q]; [discriminate|exact Q]|auto].
Qed.
Lemma convert_error : forall vs us bs rest rep nt out fuel, U rest -> encodes seqi vs us -> encodes seqo vs bs -> rest <> [] -> ill_formed_at seqi rest -> (length us < fuel)%nat ->
  exists size buf, convert_ex extract encode fuel (us ++ rest) V_error rep nt out = Done (Result size EINVAL true, buf) /\ length buf = length out.
Proof using All.
  intros vs us bs rest rep nt out fuel Hu H B Hn Hi Hf. rewrite convert_unfold by discriminate.
  destruct (conv_error seqi seqo extract encode ext enc fn nei neo sco U Utail bad vs us bs rest rep _ fuel Hu H B Hn Hi (st0_ok out) Hf) as (st & E1 & E2 & E3 & _ & E). rewrite E.
  exists (c_size st), (c_buf st). unfold conv_terminate. rewrite E1. split; [|exact E3]. destruct nt; cbv iota; rewrite E1, E2; reflexivity.
Qed.
Lemma convert_replace_runs : forall vs us bs rest rep nt out fuel, U rest -> encodes seqi vs us -> encodes seqo vs bs -> rest <> [] -> ill_formed_at seqi rest -> rep <> [] ->
  convert_ex extract encode fuel (us ++ rest) V_replace rep nt out = Running.
Proof using All.
  intros vs us bs rest rep nt out fuel Hu H B Hn Hi Hr. rewrite convert_unfold by (intros _; exact Hr).
  enough (Q : forall st, st_ok st -> conv_loop extract encode fuel V_replace rep (us ++ rest) st = Running) by (rewrite Q; [reflexivity|apply st0_ok]).
  destruct (Nat.le_gt_cases (length vs) fuel) as [L|L].
  - intros st Ok. destruct (conv_prefix seqi seqo extract encode ext enc fn nei neo sco vs us bs H B rest V_replace rep st (fuel - length vs) Ok) as (st' & W & _ & E).
    replace (length vs + (fuel - length vs))%nat with fuel in E by lia. rewrite E. apply (conv_replace_diverges seqi extract encode U bad); try assumption. apply W.
  - clear Hu Hr. revert bs B fuel L. induction H as [|v vs ch us S H IH]; intros bs B fuel L st Ok; [cbn in L; lia|]. inversion B as [|w' vs' cho bs' So B' E1 E2]; subst.
    pose proof (nei v ch S) as Ln. destruct ch as [|c ch]; [cbn in Ln; lia|]. destruct fuel as [|fuel]; [reflexivity|]. cbn [app conv_loop]. pose proof (ext v (c :: ch) (us ++ rest) S) as X. cbn [app] in X. rewrite <- app_assoc, X.
    destruct (put_wrote seqo encode enc fn sco v cho st So Ok) as (st1 & P & W & _). rewrite P. apply (IH bs' B'); [cbn in L; lia|apply W].
Qed.
(** The same text with the size reported fits. *)
End Top.
