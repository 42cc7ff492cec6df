(** Truncation, dynamic conversion and comparison of texts. *)
From Coq Require Import Arith NArith ZArith List Bool Lia.
From Coq Require Import ZifyBool ZifyNat ZifyN.
From Verif Require Import Base CodecModel CodecProofs StrSpec StrMore UniModel UniSpec UniProofs UniValid UniConv UniTop.
Import ListNotations.
Local Open Scope N_scope.
Definition octets (s : list N) : Prop := Forall (fun c => c < 256) s.
Definition units16 (s : list N) : Prop := Forall (fun c => c < 65536) s.
Lemma octets_tail : forall a b, octets (a ++ b) -> octets b. Proof. intros a b H. apply Forall_app in H. apply H. Qed.
Lemma units16_tail : forall a b, units16 (a ++ b) -> units16 b. Proof. intros a b H. apply Forall_app in H. apply H. Qed.
Lemma bad16 : forall s, units16 s -> s <> [] -> ill_formed_at utf16_seq s -> exists cp, tmu_utf16_extract s = Some (false, cp, s).
Proof. intros s U _ I. destruct (extract16_cases s U) as [Q|[_ Q]]; [contradiction|exact Q]. Qed.
Lemma encodes_units : forall (seq : N -> list N -> Prop) (P : N -> Prop) vs us, (forall v ch, seq v ch -> Forall P ch) -> encodes seq vs us -> Forall P us.
Proof. intros seq P vs us H E. induction E as [|v vs ch us S E IH]; [constructor|]. apply Forall_app. split; [apply (H v ch S)|exact IH]. Qed.
Lemma encodes_exists : forall (seq : N -> list N -> Prop) vs, (forall v, scalar v -> exists ch, seq v ch) -> Forall scalar vs -> exists us, encodes seq vs us.
Proof. intros seq vs H F. induction F as [|v vs S F [us IH]]; [exists []; constructor|]. destruct (H v S) as [ch Hc]. exists (ch ++ us). constructor; assumption. Qed.
Lemma encodes_scalars : forall seq vs us, seq_scalars seq -> encodes seq vs us -> Forall scalar vs.
Proof. intros seq vs us H E. induction E as [|v vs ch us S E IH]; constructor; [apply (H v ch S)|exact IH]. Qed.
Lemma encodes_fun : forall seq vs us us', seq_functional seq -> encodes seq vs us -> encodes seq vs us' -> us = us'.
Proof. intros seq vs us us' F E. revert us'. induction E as [|v vs ch us S E IH]; intros us' E'; inversion E'; subst; [reflexivity|]. rewrite (F v ch ch0) by assumption. f_equal. apply IH. assumption. Qed.
Lemma encodes_len : forall seq vs us, seq_nonempty seq -> encodes seq vs us -> (length vs <= length us)%nat.
Proof. intros seq vs us H E. induction E as [|v vs ch us S E IH]; [reflexivity|]. rewrite app_length. pose proof (H v ch S). cbn [length]. lia. Qed.

(** ** Dropping invalid units *)
Section Kept.
Variable seq : N -> list N -> Prop.
Variable U : list N -> Prop.
Hypothesis Utail : forall a b, U (a ++ b) -> U b.
Hypothesis ne : seq_nonempty seq.
Hypothesis cases : forall s, U s -> (exists v ch rest, seq v ch /\ s = ch ++ rest) \/ ill_formed_at seq s.
Lemma kept_total : forall s, U s -> exists vs, kept seq s vs.
Proof using All.
  intros s. remember (length s) as n eqn:Hn. revert s Hn. induction n as [n IH] using lt_wf_ind. intros s Hn Hu. destruct s as [|c s]; [exists []; constructor|].
  destruct (cases (c :: s) Hu) as [(v & ch & rest & S & E)|I].
  - pose proof (ne v ch S). rewrite E in Hu. destruct (IH (length rest) ltac:(subst n; rewrite E, app_length; lia) rest eq_refl (Utail _ _ Hu)) as (vs & K). exists (v :: vs). rewrite E. constructor; assumption.
  - destruct (IH (length s) ltac:(subst n; cbn; lia) s eq_refl (Utail [c] s Hu)) as (vs & K). exists vs. constructor; assumption.
Qed.
End Kept.
Lemma kept_fun : forall (seq : N -> list N -> Prop) s vs vs', seq_nonempty seq -> (forall v v' ch ch' r r', seq v ch -> seq v' ch' -> ch ++ r = ch' ++ r' -> v = v' /\ ch = ch' /\ r = r') -> kept seq s vs -> kept seq s vs' -> vs = vs'.
Proof.
  intros seq s vs vs' ne pc K. revert vs'. induction K as [|v vs ch us S K IH|c us vs I K IH]; intros vs' K'.
  - remember (@nil N) as e eqn:He. destruct K' as [|v' vs' ch' us' S' K'|]; [reflexivity| |discriminate]. pose proof (ne v' ch' S'). destruct ch'; [cbn in *; lia|discriminate].
  - remember (ch ++ us) as e eqn:He. destruct K' as [|v' vs' ch' us' S' K'|c us' vs' I K'].
    + pose proof (ne v ch S). destruct ch; [cbn in *; lia|discriminate].
    + destruct (pc v v' ch ch' us us' S S' (eq_sym He)) as (-> & -> & ->). f_equal. apply IH. exact K'.
    + exfalso. apply I. exists v, ch, us. auto.
  - remember (c :: us) as e eqn:He. destruct K' as [|v' vs' ch' us' S' K'|c' us' vs' I' K']; [discriminate| |].
    + exfalso. apply I. exists v', ch', us'. auto.
    + injection He as -> ->. apply IH. exact K'.
Qed.
Lemma encodes_kept : forall seq vs us, encodes seq vs us -> kept seq us vs.
Proof. intros seq vs us E. induction E; constructor; assumption. Qed.
Lemma lenient_prefix : forall v v' ch ch' r r', lenient v ch -> lenient v' ch' -> ch ++ r = ch' ++ r' -> v = v' /\ ch = ch' /\ r = r'.
Proof.
  intros v v' ch ch' r r' H H' E. pose proof (extract_lenient v ch r H) as X. rewrite E, (extract_lenient v' ch' r' H') in X. injection X as -> ->.
  apply app_inv_tail in E. auto.
Qed.
Lemma lenient_cases : forall s, octets s -> (exists v ch rest, lenient v ch /\ s = ch ++ rest) \/ ill_formed_at lenient s.
Proof. intros s U. destruct (extract8_cases s U) as [Q|[Q _]]; auto. Qed.
Lemma utf16_cases : forall s, units16 s -> (exists v ch rest, utf16_seq v ch /\ s = ch ++ rest) \/ ill_formed_at utf16_seq s.
Proof. intros s U. destruct (extract16_cases s U) as [Q|[Q _]]; auto. Qed.

(** ** Truncation *)
Lemma boundary : forall vs us k, encodes utf8_seq vs us -> (k < length us)%nat ->
  exists v1 us1 v ch v2 us2, us = us1 ++ ch ++ us2 /\ encodes utf8_seq v1 us1 /\ utf8_seq v ch /\ encodes utf8_seq v2 us2 /\ (length us1 <= k < length us1 + length ch)%nat.
Proof.
  intros vs us k E. revert k. induction E as [|v vs ch us S E IH]; intros k Hk; [cbn in Hk; lia|]. rewrite app_length in Hk. destruct (Nat.lt_ge_cases k (length ch)) as [L|L].
  - exists [], [], v, ch, vs, us. split; [reflexivity|]. split; [constructor|]. split; [exact S|]. split; [exact E|]. cbn. lia.
  - destruct (IH (k - length ch)%nat ltac:(lia)) as (v1 & us1 & w & c & v2 & us2 & -> & E1 & S1 & E2 & L1). exists (v :: v1), (ch ++ us1), w, c, v2, us2. split; [rewrite <- app_assoc; reflexivity|].
    split; [constructor; assumption|]. split; [exact S1|]. split; [exact E2|]. rewrite app_length. lia.
Qed.
Lemma between : forall v1 us1 v ch us2 k, encodes utf8_seq v1 us1 -> utf8_seq v ch -> well_formed utf8_seq (firstn k (us1 ++ ch ++ us2)) -> (k <= length (us1 ++ ch ++ us2))%nat -> (k <= length us1 \/ length us1 + length ch <= k)%nat.
Proof.
  intros v1 us1 v ch us2 k E. revert k. induction E as [|w v1 c us1 S E IH]; intros k Sc W Hk.
  - cbn [app length] in *. destruct (prefix_cases utf8_seq utf8_prefix utf8_ne v ch us2 k Sc W) as [Q|[Q|[Q _]]]; [lia| |lia]. apply (f_equal (@length N)) in Q. rewrite firstn_length in Q. cbn [length] in Q. lia.
  - rewrite <- app_assoc in W, Hk. destruct (prefix_cases utf8_seq utf8_prefix utf8_ne w c (us1 ++ ch ++ us2) k S W) as [Q|[Q|[Q Q2]]]; [lia| |].
    + apply (f_equal (@length N)) in Q. rewrite firstn_length in Q. cbn [length] in Q. lia.
    + rewrite (app_length c) in Hk. destruct (IH (k - length c)%nat Sc Q2 ltac:(lia)); rewrite app_length; lia.
Qed.
Lemma cont_trail : forall c, c < 256 -> (N.land c 0xC0 =? 0x80) = true <-> trail_octet c.
Proof. intros c H. rewrite cont by exact H. unfold trail_octet. lia. Qed.
Lemma seq_shape : forall v ch, utf8_seq v ch -> (exists c, ch = [c] /\ c < 0x80) \/ (exists c t, ch = c :: t /\ 0xC0 <= c < 256 /\ t <> [] /\ Forall trail_octet t).
Proof.
  intros v ch H. apply seq_table in H. destruct H; [left; eexists; split; [reflexivity|lia]|..]; right; (eexists; eexists; split; [reflexivity|]; split; [lia|]; split; [discriminate|]; repeat constructor; unfold trail_octet in *; lia).
Qed.
Lemma retreat_total : forall str cur, (cur < length str)%nat -> exists k, retreat str cur = Some k /\ (k <= cur)%nat.
Proof.
  intros str cur. induction cur as [|cur IH]; intros H; cbn [retreat]; [exists 0%nat; auto|]. destruct (nth_error str (S cur)) as [c|] eqn:E; [|apply nth_error_None in E; lia].
  destruct (N.land c 0xC0 =? 0x80); [|exists (S cur); auto]. destruct (IH ltac:(lia)) as (k & E' & L). exists k. split; [exact E'|lia].
Qed.
Lemma retreat_run : forall str j d c, nth_error str j = Some c -> c < 256 -> ~ trail_octet c -> (forall i, (j < i <= j + d)%nat -> exists c, nth_error str i = Some c /\ c < 256 /\ trail_octet c) -> retreat str (j + d) = Some j.
Proof.
  intros str j d c Hc Lc Nc. induction d as [|d IH]; intros H.
  - rewrite Nat.add_0_r. destruct j as [|j]; [reflexivity|]. cbn [retreat]. rewrite Hc. destruct (N.land c 0xC0 =? 0x80) eqn:E; [apply cont_trail in E; [contradiction|exact Lc]|reflexivity].
  - rewrite Nat.add_succ_r. cbn [retreat]. destruct (H (S (j + d))%nat ltac:(lia)) as (c' & E & L & T). rewrite E. rewrite (proj2 (cont_trail c' L) T). apply IH. intros i Hi. apply H. lia.
Qed.
Lemma firstn_octets : forall n s, octets s -> octets (firstn n s).
Proof. intros n s H. rewrite <- (firstn_skipn n s) in H. apply Forall_app in H. apply H. Qed.
Lemma skipn_octets : forall n s, octets s -> octets (skipn n s).
Proof. intros n s H. rewrite <- (firstn_skipn n s) in H. apply Forall_app in H. apply H. Qed.
Lemma write_front : forall out cs, (length cs <= length out)%nat -> write_list out 0 cs = Some (cs ++ skipn (length cs) out).
Proof. intros out cs H. rewrite write_list_splice by lia. unfold splice. reflexivity. Qed.
(** For any octets: no access outside, and the result is a prefix of the text that fits. *)
Lemma truncated_any : forall str out, octets str -> exists n, (n <= length str)%nat /\ (n <= length out)%nat /\ tmu_utf8_copy_truncated str out = Some (n, firstn n str ++ skipn n out).
Proof.
  intros str out U. unfold tmu_utf8_copy_truncated. destruct (Nat.leb_spec (length str) (length out)) as [L|L].
  - exists (length str). rewrite write_front by exact L. rewrite firstn_all. auto.
  - destruct (length out) as [|last] eqn:Lo; [exists 0%nat; cbn; split; [lia|]; split; [lia|reflexivity]|].
    destruct (nth_error str last) as [c|] eqn:E; [|apply nth_error_None in E; lia].
    assert (fin : forall n, (n <= S last)%nat -> exists k, (k <= length str)%nat /\ (k <= S last)%nat /\ (out' <- write_list out 0 (firstn n str) ;; Some (n, out')) = Some (k, firstn k str ++ skipn k out)).
    { intros n Hn. exists n. split; [lia|]. split; [lia|]. rewrite write_front by (rewrite firstn_length; lia). rewrite firstn_length, Nat.min_l by lia. reflexivity. }
    destruct (0x80 <=? c); [|apply fin; lia]. destruct (retreat_total str last ltac:(lia)) as (k & Ek & Lk). rewrite Ek.
    destruct (utf8_valid_range_spec (firstn (S last - k) (skipn k str)) (firstn_octets _ _ (skipn_octets _ _ U))) as (r & Er & _). cbv zeta. rewrite Er. apply fin. destruct (r =? S last - k)%nat; lia.
Qed.
Lemma truncated_wf : forall vs str out, encodes utf8_seq vs str -> exists n, tmu_utf8_copy_truncated str out = Some (n, firstn n str ++ skipn n out) /\ longest_prefix (well_formed utf8_seq) (firstn (length out) str) n.
Proof.
  intros vs str out E. pose proof (encodes_units utf8_seq (fun c => c < 256) vs str seq_octets E) as U. unfold tmu_utf8_copy_truncated. destruct (Nat.leb_spec (length str) (length out)) as [L|L].
  - exists (length str). rewrite write_front by exact L. rewrite firstn_all. split; [reflexivity|]. rewrite firstn_all2 by exact L. split; [lia|]. split; [rewrite firstn_all; exists vs; exact E|intros; assumption].
  - assert (fin : forall n, (n <= length out)%nat -> (out' <- write_list out 0 (firstn n str) ;; Some (n, out')) = Some (n, firstn n str ++ skipn n out)).
    { intros n Hn. rewrite write_front by (rewrite firstn_length; lia). rewrite firstn_length, Nat.min_l by lia. reflexivity. }
    destruct (length out) as [|last] eqn:Lo.
    { exists 0%nat. split; [reflexivity|]. cbn [firstn]. split; [cbn; lia|]. split; [exists []; constructor|]. intros k Hk _. exact Hk. }
    destruct (boundary vs str last E ltac:(lia)) as (v1 & us1 & v & ch & v2 & us2 & Es & E1 & Sv & E2 & Lb).
    assert (Ls : length str = (length us1 + (length ch + length us2))%nat) by (rewrite Es, !app_length; reflexivity).
    assert (firsts : forall n, (n <= S last)%nat -> firstn n (firstn (S last) str) = firstn n str) by (intros n Hn; rewrite firstn_firstn, Nat.min_l by lia; reflexivity).
    assert (full : (length us1 + length ch)%nat = S last -> longest_prefix (well_formed utf8_seq) (firstn (S last) str) (S last)).
    { intros Q. split; [rewrite firstn_length; lia|]. split; [|intros k Hk _; rewrite firstn_length in Hk; lia]. rewrite firsts by lia. exists (v1 ++ [v]). rewrite Es, app_assoc. rewrite firstn_app, <- Q, firstn_all2 by (rewrite app_length; lia).
      rewrite app_length, Nat.sub_diag. cbn [firstn]. rewrite app_nil_r. rewrite <- (app_nil_r ch). apply (encodes_app utf8_seq); [exact E1|constructor; [exact Sv|constructor]]. }
    assert (part : (S last < length us1 + length ch)%nat -> longest_prefix (well_formed utf8_seq) (firstn (S last) str) (length us1)).
    { intros Q. split; [rewrite firstn_length; lia|]. split.
      - rewrite firsts by lia. exists v1. rewrite Es, firstn_app, firstn_all, Nat.sub_diag. cbn [firstn]. rewrite app_nil_r. exact E1.
      - intros k Hk W. rewrite firstn_length in Hk. rewrite firsts in W by lia. rewrite Es in W. destruct (between v1 us1 v ch us2 k E1 Sv W ltac:(rewrite !app_length; lia)); lia. }
    destruct (nth_error str last) as [c|] eqn:Ec; [|apply nth_error_None in Ec; lia].
    assert (Ec2 : nth_error ch (last - length us1) = Some c) by (rewrite Es, nth_error_app2 in Ec by lia; rewrite nth_error_app1 in Ec by lia; exact Ec).
    destruct (seq_shape v ch Sv) as [(c0 & Ech & L0)|(c0 & t & Ech & L0 & Nt & Ft)].
    + subst ch. cbn [length] in *. replace (last - length us1)%nat with 0%nat in Ec2 by lia. cbn in Ec2. injection Ec2 as ->. rewrite (proj2 (N.leb_gt 0x80 c)) by lia. exists (S last). split; [apply fin; lia|]. apply full. lia.
    + assert (Hc : 0x80 <= c).
      { subst ch. destruct (last - length us1)%nat as [|i]; cbn in Ec2; [injection Ec2 as <-; lia|]. apply nth_error_In in Ec2. rewrite Forall_forall in Ft. apply Ft in Ec2. unfold trail_octet in Ec2. lia. }
      rewrite (proj2 (N.leb_le 0x80 c)) by exact Hc.
      assert (R : retreat str last = Some (length us1)).
      { replace last with (length us1 + (last - length us1))%nat by lia. apply (retreat_run str (length us1) (last - length us1) c0).
        - rewrite Es, nth_error_app2, Nat.sub_diag by lia. subst ch. reflexivity.
        - lia.
        - unfold trail_octet. lia.
        - intros i Hi. rewrite Es, nth_error_app2 by lia. rewrite nth_error_app1 by lia. subst ch. destruct (i - length us1)%nat as [|d] eqn:Ed; [lia|]. cbn [nth_error]. cbn [length] in Lb.
          destruct (nth_error t d) as [x|] eqn:Ex; [|apply nth_error_None in Ex; lia]. exists x. split; [reflexivity|]. apply nth_error_In in Ex. rewrite Forall_forall in Ft. apply Ft in Ex. unfold trail_octet in *. split; lia. }
      rewrite R. cbv zeta. assert (Et : firstn (S last - length us1) (skipn (length us1) str) = firstn (S last - length us1) ch).
      { rewrite Es, skipn_app, skipn_all, Nat.sub_diag. cbn [skipn app]. rewrite firstn_app. replace (S last - length us1 - length ch)%nat with 0%nat by lia. cbn [firstn]. apply app_nil_r. }
      rewrite Et. assert (Uc : octets ch) by (apply (seq_octets v ch Sv)). destruct (utf8_valid_range_spec (firstn (S last - length us1) ch) (firstn_octets _ _ Uc)) as (r & Er & P). rewrite Er.
      destruct (Nat.eq_dec (length us1 + length ch) (S last)) as [Q|Q].
      * exists (S last). split; [|apply full; exact Q]. replace (S last - length us1)%nat with (length ch) in * by lia. rewrite firstn_all in *.
        assert (r = length ch). { destruct P as (P1 & _ & P3). specialize (P3 (length ch) ltac:(lia)). rewrite firstn_all in P3. enough (length ch <= r)%nat by lia. apply P3. exists [v]. rewrite <- (app_nil_r ch). constructor; [exact Sv|constructor]. }
        subst r. rewrite Nat.eqb_refl. apply fin. lia.
      * exists (length us1). split; [|apply part; lia]. destruct (Nat.eqb_spec r (S last - length us1)) as [Z|_]; [exfalso|apply fin; lia].
        destruct P as (_ & P2 & _). subst r. rewrite firstn_firstn, Nat.min_id in P2. rewrite <- (app_nil_r ch) in P2.
        pose proof (between [] [] v ch [] (S last - length us1) (E_nil _) Sv P2) as Z. cbn [app length] in Z. rewrite app_nil_r in Z. lia.
Qed.
