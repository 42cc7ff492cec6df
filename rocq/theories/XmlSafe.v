(** The reader does nothing undefined on tame documents, and where a call leaves it. *)
From Coq Require Import Arith NArith ZArith List Bool Lia ZifyBool ZifyNat ZifyN.
From Verif Require Import Base CodecModel CodecProofs UniModel UniSpec UniProofs UniTop XmlModel XmlSpec XmlText XmlLex XmlTokens XmlInv.
Import ListNotations.
Local Open Scope N_scope.

Definition bytes (s : list N) : Prop := Forall (fun c => c < 256) s.

(** ** How much a text can grow *)
Lemma enc_length : forall v, scalar v -> (length (enc v) <= 4)%nat.
Proof. intros v H. pose proof (enc_seq v H) as K. inversion K; cbn [length]; lia. Qed.
Lemma chunks_one : forall (x : option (bool * list (list N) * list N)) c ok cs rest,
  (' (ok, cs, rest) <- x ;; Some (ok, c :: cs, rest)) = Some (ok, cs, rest) -> exists cs', x = Some (ok, cs', rest) /\ cs = c :: cs'.
Proof. intros [[[o cs0] r0]|] c ok cs rest H; [|discriminate]. exists cs0. split; congruence. Qed.

Lemma uchunks_size : forall fuel flags pre s after ws ok cs rest, bytes s -> uchunks fuel flags pre s after ws = Some (ok, cs, rest) -> (length (concat cs) <= length pre + length s)%nat.
Proof.
  induction fuel as [|fuel IH]; intros flags pre s after ws ok cs rest F H; cbn [uchunks] in H; [discriminate|].
  destruct (extract_total s F) as (o & v & s' & E). rewrite E in H. pose proof (extract_inv s o v s' F E) as K. destruct o; [|assert (cs = []) as -> by congruence; cbn; lia].
  destruct K as (ch & L & Er). pose proof (lenient_ne v ch L) as Hne. assert (Fs : bytes s') by (subst s; apply Forall_app in F; apply F).
  assert (Hch : firstn (length s - length s') s = ch) by (subst s; apply (extract_char v ch s' L)). rewrite Hch in H.
  assert (Len : (length s = length ch + length s')%nat) by (subst s; apply app_length).
  destruct (v =? 0); [assert (cs = []) as -> by congruence; cbn; lia|]. destruct (v =? 38).
  { rewrite amp_case_eq in H. unfold amp_case in H. destruct s' as [|c s2]; [assert (cs = []) as -> by congruence; cbn; lia|]. destruct (c =? 35).
    - destruct (numeric s2) as [[w r]|] eqn:Nu; [|assert (cs = []) as -> by congruence; cbn; lia]. destruct (is_valid_xml_codepoint w) eqn:V; [|assert (cs = []) as -> by congruence; cbn; lia].
      destruct (whitespace_action flags w r after ws) as [[act ws']|]; [|discriminate].
      assert (Fr : bytes r /\ (length r + 2 <= length s2)%nat).
      { inversion Fs as [|? ? _ F2]. destruct (numeric_inv s2 w r Nu) as [(ds & N0 & _ & _ & _ & ->)|(ds & vs & N0 & _ & _ & _ & ->)].
        - apply Forall_app in F2. destruct F2 as [_ F2]. inversion F2. split; [assumption|]. rewrite app_length. destruct ds; [contradiction|]. cbn [length]. lia.
        - inversion F2 as [|? ? _ F3]. apply Forall_app in F3. destruct F3 as [_ F3]. inversion F3. split; [assumption|]. cbn [length]. rewrite app_length. cbn [length]. lia. }
      destruct Fr as [Fr Lr]. cbn [length] in Len. pose proof (enc_length w (xml_scalar w V)). destruct act.
      + pose proof (IH _ _ _ _ _ _ _ _ Fr H). cbn [length] in *. lia.
      + destruct (chunks_one _ _ _ _ _ H) as (cs' & H' & ->). pose proof (IH _ _ _ _ _ _ _ _ Fr H'). cbn [concat length] in *. rewrite app_length. cbn [length]. lia.
      + pose proof (IH _ _ _ _ _ _ _ _ Fr H) as Q. rewrite app_length, firstn_length in Q. cbn [length] in *. lia.
      + destruct (chunks_one _ _ _ _ _ H) as (cs' & H' & ->). pose proof (IH _ _ _ _ _ _ _ _ Fr H'). cbn [concat length] in *. rewrite app_length. lia.
    - destruct (entity (c :: s2)) as [[w r]|] eqn:En.
      + destruct (entity_inv _ _ _ En) as (n & Pn & Es).
        assert (Fr : bytes r) by (rewrite Es in Fs; apply Forall_app in Fs; destruct Fs as [_ F2]; inversion F2; assumption).
        destruct (chunks_one _ _ _ _ _ H) as (cs' & H' & ->). pose proof (IH _ _ _ _ _ _ _ _ Fr H'). apply (f_equal (@length N)) in Es. rewrite app_length in Es. cbn [concat length app] in *. lia.
      + destruct (find_str [59] (c :: s2)); [|assert (cs = []) as -> by congruence; cbn; lia]. destruct (chunks_one _ _ _ _ _ H) as (cs' & H' & ->). pose proof (IH _ _ _ _ _ _ _ _ Fs H'). cbn [concat length app] in *. lia. }
  destruct (v =? 60).
  { destruct (comment_flag flags); [|assert (cs = []) as -> by congruence; cbn; lia]. destruct (chunks_one _ _ _ _ _ H) as (cs' & H' & ->). pose proof (IH _ _ _ _ _ _ _ _ Fs H'). cbn [concat length app] in *. lia. }
  destruct (v =? 93).
  { destruct (negb (comment_flag flags) && ends_cdata s'); [assert (cs = []) as -> by congruence; cbn; lia|]. destruct (chunks_one _ _ _ _ _ H) as (cs' & H' & ->). pose proof (IH _ _ _ _ _ _ _ _ Fs H'). cbn [concat length app] in *. lia. }
  destruct (is_valid_xml_codepoint v); [|assert (cs = []) as -> by congruence; cbn; lia]. destruct (whitespace_action flags v s' after ws) as [[act ws']|]; [|discriminate]. destruct act.
  - pose proof (IH _ _ _ _ _ _ _ _ Fs H). cbn [length] in *. lia.
  - destruct (chunks_one _ _ _ _ _ H) as (cs' & H' & ->). pose proof (IH _ _ _ _ _ _ _ _ Fs H'). cbn [concat length app] in *. lia.
  - pose proof (IH _ _ _ _ _ _ _ _ Fs H) as Q. rewrite app_length in Q. lia.
  - destruct (chunks_one _ _ _ _ _ H) as (cs' & H' & ->). pose proof (IH _ _ _ _ _ _ _ _ Fs H'). cbn [concat length] in *. rewrite !app_length. lia.
Qed.
Lemma cchunks_size : forall fuel flags pre s after ws ok cs rest, bytes s -> cchunks fuel flags pre s after ws = Some (ok, cs, rest) -> (length (concat cs) <= length pre + length s)%nat.
Proof.
  induction fuel as [|fuel IH]; intros flags pre s after ws ok cs rest F H; cbn [cchunks] in H; [discriminate|].
  destruct (extract_total s F) as (o & v & s' & E). rewrite E in H. pose proof (extract_inv s o v s' F E) as K. destruct o; [|assert (cs = []) as -> by congruence; cbn; lia].
  destruct K as (ch & L & Er). pose proof (lenient_ne v ch L) as Hne. assert (Fs : bytes s') by (subst s; apply Forall_app in F; apply F).
  assert (Hch : firstn (length s - length s') s = ch) by (subst s; apply (extract_char v ch s' L)). rewrite Hch in H.
  assert (Len : (length s = length ch + length s')%nat) by (subst s; apply app_length).
  destruct (v =? 0); [assert (cs = []) as -> by congruence; cbn; lia|].
  destruct (v =? 93).
  { destruct (ends_cdata s'); [assert (cs = []) as -> by congruence; cbn; lia|]. destruct (chunks_one _ _ _ _ _ H) as (cs' & H' & ->). pose proof (IH _ _ _ _ _ _ _ _ Fs H'). cbn [concat length app] in *. lia. }
  destruct (is_valid_xml_codepoint v); [|assert (cs = []) as -> by congruence; cbn; lia]. destruct (whitespace_action flags v s' after ws) as [[act ws']|]; [|discriminate]. destruct act.
  - pose proof (IH _ _ _ _ _ _ _ _ Fs H). cbn [length] in *. lia.
  - destruct (chunks_one _ _ _ _ _ H) as (cs' & H' & ->). pose proof (IH _ _ _ _ _ _ _ _ Fs H'). cbn [concat length app] in *. lia.
  - pose proof (IH _ _ _ _ _ _ _ _ Fs H) as Q. rewrite app_length in Q. lia.
  - destruct (chunks_one _ _ _ _ _ H) as (cs' & H' & ->). pose proof (IH _ _ _ _ _ _ _ _ Fs H'). cbn [concat length] in *. rewrite !app_length. lia.
Qed.

(** ** One byte at a time *)
Definition steady (flags : N) : Prop := newlines_flag flags = false \/ reduce_flag flags = true.
Definition ascii (s : list N) : Prop := Forall (fun c => c < 128) s.
Lemma steady_action : forall flags v s after ws a ws', steady flags -> whitespace_action flags v s after ws = Some (a, ws') -> a <> Continue.
Proof.
  intros flags v s after ws a ws' St H. unfold whitespace_action in H. destruct St as [St|St]; rewrite St in H.
  - destruct (reduce_flag flags); [|cbn [andb] in H; congruence]. destruct (v <=? 32); [|congruence]. destruct ws; [congruence|]. destruct (false || negb (v =? 13)); congruence.
  - destruct (v <=? 32); [|congruence]. destruct ws; [congruence|]. destruct (newlines_flag flags || negb (v =? 13)); congruence.
Qed.
Lemma extract_ascii : forall c s, c < 128 -> utf8_extract (c :: s) = Some (true, c, s).
Proof. intros c s H. assert (L : utf8_seq c [c]) by (constructor; exact H). exact (proj1 (extract_char c [c] s (seq_lenient _ _ L))). Qed.
Definition singles (cs : list (list N)) : Prop := Forall (fun c => length c = 1%nat) cs.
Lemma occurs_tail : forall f c s, ~ occurs f (c :: s) -> ~ occurs f s. Proof. intros f c s H (a & b & ->). apply H. exists (c :: a), b. reflexivity. Qed.
Lemma occurs_part : forall f a s b, ~ occurs f (a ++ s ++ b) -> ~ occurs f s. Proof. intros f a s b H (x & y & ->). apply H. exists (a ++ x), (y ++ b). rewrite <- !app_assoc. reflexivity. Qed.

Lemma uchunks_single : forall fuel flags s after ws ok cs rest, ascii s -> ~ occurs [38; 35] s -> steady flags -> uchunks fuel flags [] s after ws = Some (ok, cs, rest) -> singles cs.
Proof.
  induction fuel as [|fuel IH]; intros flags s after ws ok cs rest F O St H; cbn [uchunks] in H; [discriminate|]. destruct s as [|c s].
  - assert (cs = []) as -> by (unfold utf8_extract in H; cbn in H; congruence). constructor.
  - inversion F as [|? ? Fc Fs]; subst. rewrite (extract_ascii c s Fc) in H.
    assert (Hch : firstn (length (c :: s) - length s) (c :: s) = [c]) by (replace (length (c :: s) - length s)%nat with 1%nat by (cbn [length]; lia); reflexivity). rewrite Hch in H. pose proof (occurs_tail _ _ _ O) as Os.
    assert (One : forall x r ws1 ok1 cs1 rest1, length x = 1%nat -> ascii r -> ~ occurs [38; 35] r -> (' (ok, cs, rest) <- uchunks fuel flags [] r after ws1 ;; Some (ok, x :: cs, rest)) = Some (ok1, cs1, rest1) -> singles cs1).
    { intros x r ws1 ok1 cs1 rest1 Lx Fr Or Q. destruct (chunks_one _ _ _ _ _ Q) as (cs' & Q' & ->). constructor; [exact Lx|exact (IH _ _ _ _ _ _ _ Fr Or St Q')]. }
    destruct (c =? 0); [assert (cs = []) as -> by congruence; constructor|]. destruct (N.eqb_spec c 38) as [->|_].
    { rewrite amp_case_eq in H. unfold amp_case in H. destruct s as [|d s]; [assert (cs = []) as -> by congruence; constructor|]. destruct (N.eqb_spec d 35) as [->|_]; [exfalso; apply O; exists [], s; reflexivity|].
      destruct (entity (d :: s)) as [[w r]|] eqn:En.
      - destruct (entity_inv _ _ _ En) as (n & Pn & Es). assert (Fr : ascii r) by (rewrite Es in Fs; apply Forall_app in Fs; destruct Fs as [_ F2]; inversion F2; assumption).
        apply (One _ _ _ _ _ _ (eq_refl : length [w] = 1%nat) Fr) in H; [exact H|]. intros (a & b & ->). apply Os. exists (n ++ 59 :: a), b. rewrite Es, <- app_assoc. reflexivity.
      - destruct (find_str [59] (d :: s)); [|assert (cs = []) as -> by congruence; constructor]. exact (One _ _ _ _ _ _ (eq_refl : length [_] = 1%nat) Fs Os H). }
    destruct (c =? 60); [destruct (comment_flag flags); [exact (One _ _ _ _ _ _ (eq_refl : length [_] = 1%nat) Fs Os H)|assert (cs = []) as -> by congruence; constructor]|].
    destruct (c =? 93); [destruct (negb (comment_flag flags) && ends_cdata s); [assert (cs = []) as -> by congruence; constructor|exact (One _ _ _ _ _ _ (eq_refl : length [_] = 1%nat) Fs Os H)]|].
    destruct (is_valid_xml_codepoint c); [|assert (cs = []) as -> by congruence; constructor]. destruct (whitespace_action flags c s after ws) as [[act ws']|] eqn:A; [|discriminate]. pose proof (steady_action _ _ _ _ _ _ _ St A) as NC. destruct act.
    + exact (IH _ _ _ _ _ _ _ Fs Os St H).
    + exact (One _ _ _ _ _ _ (eq_refl : length [_] = 1%nat) Fs Os H).
    + contradiction.
    + exact (One _ _ _ _ _ _ (eq_refl : length [_] = 1%nat) Fs Os H).
Qed.
Lemma cchunks_single : forall fuel flags s after ws ok cs rest, ascii s -> steady flags -> cchunks fuel flags [] s after ws = Some (ok, cs, rest) -> singles cs.
Proof.
  induction fuel as [|fuel IH]; intros flags s after ws ok cs rest F St H; cbn [cchunks] in H; [discriminate|]. destruct s as [|c s].
  - assert (cs = []) as -> by (unfold utf8_extract in H; cbn in H; congruence). constructor.
  - inversion F as [|? ? Fc Fs]; subst. rewrite (extract_ascii c s Fc) in H.
    assert (Hch : firstn (length (c :: s) - length s) (c :: s) = [c]) by (replace (length (c :: s) - length s)%nat with 1%nat by (cbn [length]; lia); reflexivity). rewrite Hch in H.
    assert (One : forall x r ws1 ok1 cs1 rest1, length x = 1%nat -> ascii r -> (' (ok, cs, rest) <- cchunks fuel flags [] r after ws1 ;; Some (ok, x :: cs, rest)) = Some (ok1, cs1, rest1) -> singles cs1).
    { intros x r ws1 ok1 cs1 rest1 Lx Fr Q. destruct (chunks_one _ _ _ _ _ Q) as (cs' & Q' & ->). constructor; [exact Lx|exact (IH _ _ _ _ _ _ _ Fr St Q')]. }
    destruct (c =? 0); [assert (cs = []) as -> by congruence; constructor|].
    destruct (c =? 93); [destruct (ends_cdata s); [assert (cs = []) as -> by congruence; constructor|exact (One _ _ _ _ _ _ (eq_refl : length [_] = 1%nat) Fs H)]|].
    destruct (is_valid_xml_codepoint c); [|assert (cs = []) as -> by congruence; constructor]. destruct (whitespace_action flags c s after ws) as [[act ws']|] eqn:A; [|discriminate]. pose proof (steady_action _ _ _ _ _ _ _ St A) as NC. destruct act.
    + exact (IH _ _ _ _ _ _ _ Fs St H).
    + exact (One _ _ _ _ _ _ (eq_refl : length [_] = 1%nat) Fs H).
    + contradiction.
    + exact (One _ _ _ _ _ _ (eq_refl : length [_] = 1%nat) Fs H).
Qed.

(** ** Trimming *)
Lemma drop_suffix : forall s, exists p, s = p ++ drop_spaces s.
Proof. induction s as [|c s [p IH]]; [exists []; reflexivity|]. cbn [drop_spaces]. destruct (is_trimmed c); [exists (c :: p); cbn [app]; rewrite <- IH; reflexivity|exists []; reflexivity]. Qed.
Lemma trims_part : forall flags t a t' a', trims flags (t, a) = (t', a') -> (exists x y, t = x ++ t' ++ y) /\ (a <> None -> a' <> None).
Proof.
  intros flags t a t' a' H. unfold trims in H. set (v := if trim_left_flag flags then trim_left (t, a) else (t, a)) in H.
  assert (V : (exists x, t = x ++ fst v) /\ snd v = a). { unfold v. destruct (trim_left_flag flags); [split; [apply drop_suffix|reflexivity]|split; [exists []; reflexivity|reflexivity]]. }
  destruct V as [[x V] Sv]. destruct (trim_right_flag flags).
  - unfold trim_right in H. set (kept := rev (drop_spaces (rev (fst v)))) in H. assert (t' = kept /\ a' = match skipn (length kept) (fst v) with c :: _ => Some c | [] => snd v end) as [-> ->] by (split; congruence). split.
    + destruct (drop_suffix (rev (fst v))) as [p P]. exists x, (rev p). rewrite V. f_equal. unfold kept. rewrite <- rev_app_distr, <- P, rev_involutive. reflexivity.
    + intros Ha. destruct (skipn (length kept) (fst v)); [rewrite Sv; exact Ha|discriminate].
  - destruct v as [vt va]. assert (t' = vt /\ a' = va) as [-> ->] by (split; congruence). split; [exists x, []; rewrite app_nil_r; exact V|]. cbn [snd] in Sv. congruence.
Qed.

(** ** Texts *)
Definition calm (flags : N) (s : list N) : Prop := bytes s /\ tame flags s.
Lemma calm_part : forall flags a s b, calm flags (a ++ s ++ b) -> calm flags s.
Proof.
  intros flags a s b [B T]. apply Forall_app in B. destruct B as [_ B]. apply Forall_app in B. split; [apply B|]. destruct T as [L|(A & O & F)].
  - left. rewrite !app_length in L. lia.
  - right. apply Forall_app in A. destruct A as [_ A]. apply Forall_app in A. split; [apply A|]. split; [exact (occurs_part _ _ _ _ O)|exact F].
Qed.
Lemma calm_flags : forall f g s, (newlines_flag g = false \/ reduce_flag f = reduce_flag g /\ newlines_flag f = newlines_flag g) -> calm f s -> calm g s.
Proof. intros f g s H [B [L|(A & O & F)]]; (split; [exact B|]); [left; exact L|right]. split; [exact A|]. split; [exact O|]. unfold newlines_flag, reduce_flag in H. destruct H as [H|[H1 H2]]; [left; exact H|]. rewrite <- H1, <- H2. exact F. Qed.

Definition room (r : reader) : Prop := (64 <= buffer_size r)%nat.
Lemma process_total : forall alloc f cs r, delivers f cs \/ rejects f -> (delivers f cs -> fitting cs) -> room r ->
  exists ok r', process_twice alloc f r = Some (ok, r') /\ room r'.
Proof.
  intros alloc f cs r [D|R] Ft Rm.
  - destruct (process_value alloc f cs r D (Ft D) Rm) as (b & Hb & [E|[E _]]); rewrite E; do 2 eexists; (split; [reflexivity|exact Hb]).
  - rewrite (process_rejected alloc f r R). do 2 eexists. split; [reflexivity|]. exact Rm.
Qed.

Lemma unescape_total : forall alloc r, calm (r_flags r) (t_text (r_current r)) -> t_after (r_current r) <> None -> room r ->
  exists ok r', unescape_current_token alloc r = Some (ok, r') /\ room r'.
Proof.
  intros alloc r C A Rm. unfold unescape_current_token.
  set (fl := match t_type (r_current r) with Tattr_value => if attribute_flag (r_flags r) then r_flags r else clear_trims (r_flags r) | _ => r_flags r end).
  assert (Cf : calm fl (t_text (r_current r))).
  { unfold fl. destruct (t_type (r_current r)); try exact C. destruct (attribute_flag (r_flags r)); [exact C|]. apply (calm_flags (r_flags r)); [|exact C]. left. unfold newlines_flag, clear_trims. rewrite N.ldiff_spec. apply andb_false_r. }
  clearbody fl. destruct (trims fl (t_text (r_current r), t_after (r_current r))) as [t1 a1] eqn:T1. cbn [fst]. destruct (trims_part _ _ _ _ _ T1) as [(x & y & P1) A1]. rewrite P1 in Cf. apply calm_part in Cf. specialize (A1 A).
  destruct t1 as [|c0 t1]; [do 2 eexists; split; [reflexivity|exact Rm]|]. set (raw := c0 :: t1) in *.
  set (r1 := with_current r (text_of (r_current r) (raw, a1))).
  set (fl2 := match t_type (r_current r1) with Tcomment => N.setbit fl 28 | _ => fl end).
  assert (C2 : calm fl2 raw) by (unfold fl2; destruct (t_type (r_current r1)); try exact Cf; apply (calm_flags fl); [right|exact Cf]; unfold reduce_flag, newlines_flag; rewrite !N.setbit_neq by discriminate; split; reflexivity).
  clearbody fl2. assert (Rm1 : room r1) by exact Rm. clearbody r1. change ((raw, a1)) with (raw, a1).
  destruct (trims fl2 (raw, a1)) as [t2 a2] eqn:T2. destruct (trims_part _ _ _ _ _ T2) as [(x2 & y2 & P2) A2]. assert (C3 : calm fl2 t2) by (rewrite P2 in C2; exact (calm_part _ _ _ _ C2)). specialize (A2 A1).
  destruct t2 as [|c2 t2'] eqn:Et.
  - assert (Q : forall buf, unescape_string (raw, a1) fl2 buf = Some (true, 0%nat, buf)) by (intros buf; unfold unescape_string; rewrite T2; reflexivity). unfold process_twice. rewrite Q.
    destruct (Nat.leb_spec (buffer_size r1) 0) as [L|L]; [unfold room in Rm1; lia|]. do 2 eexists. split; [reflexivity|exact Rm1].
  - clear Et. destruct C3 as [B3 T3]. assert (Ne : c2 :: t2' <> []) by discriminate.
    destruct (uchunks_total (S (length (c2 :: t2'))) fl2 [] (c2 :: t2') a2 false (or_introl A2) B3 ltac:(lia)) as (ok & cs & rest & U).
    apply (process_total alloc _ cs); [| |exact Rm1].
    + destruct ok; [destruct rest as [|z rest]; [left; exact (unescape_delivers _ _ _ _ _ T2 Ne U)|right; apply (unescape_rejects _ _ _ _ _ _ _ T2 Ne U); right; discriminate]|right; apply (unescape_rejects _ _ _ _ _ _ _ T2 Ne U); left; reflexivity].
    + intros _. destruct T3 as [L|(As & O & St)].
      * left. pose proof (uchunks_size _ _ _ _ _ _ _ _ _ B3 U). cbn [length] in *. lia.
      * right. exact (uchunks_single _ _ _ _ _ _ _ _ As O St U).
Qed.

Lemma valid_loop_total : forall fuel s, bytes s -> (length s < fuel)%nat -> exists b, valid_loop fuel s = Some b.
Proof.
  induction fuel as [|fuel IH]; intros s F H; [lia|]. cbn [valid_loop]. destruct (extract_total s F) as (o & v & s' & E). rewrite E. pose proof (extract_inv s o v s' F E) as K. destruct o; [|eexists; reflexivity].
  destruct K as (ch & L & ->). pose proof (lenient_ne v ch L). apply Forall_app in F. rewrite app_length in H. assert (Q : exists b, valid_loop fuel s' = Some b) by (apply IH; [apply F|lia]).
  destruct (v =? 0); [eexists; reflexivity|]. destruct (v =? 93); [destruct (ends_cdata s'); [eexists; reflexivity|exact Q]|]. destruct (is_valid_xml_codepoint v); [exact Q|eexists; reflexivity].
Qed.
Lemma name_loop_total : forall fuel s, bytes s -> (length s < fuel)%nat -> exists b, name_loop fuel s = Some b.
Proof.
  induction fuel as [|fuel IH]; intros s F H; [lia|]. cbn [name_loop]. destruct (extract_total s F) as (o & v & s' & E). rewrite E. pose proof (extract_inv s o v s' F E) as K. destruct o; [|eexists; reflexivity].
  destruct K as (ch & L & ->). pose proof (lenient_ne v ch L). apply Forall_app in F. rewrite app_length in H. destruct (is_name v); [apply IH; [apply F|lia]|eexists; reflexivity].
Qed.
Lemma name_total : forall tk, bytes (cur tk) -> exists t tk', parse_name tk = Some (t, tk').
Proof.
  intros tk F. unfold parse_name. destruct (cspn _ (cur tk)) as [p r] eqn:E. destruct (cspn_split _ _ _ _ E) as (Es & _). rewrite Es in F. apply Forall_app in F. destruct F as [F _].
  assert (Q : exists b, name_ok p = Some b); [|destruct Q as [b ->]; do 2 eexists; reflexivity].
  unfold name_ok. destruct (extract_total p F) as (o & v & s' & E'). rewrite E'. pose proof (extract_inv p o v s' F E') as K. destruct (o && is_name_start v) eqn:G; [|eexists; reflexivity]. destruct o; [|discriminate]. destruct K as (ch & L & ->). pose proof (lenient_ne v ch L). apply Forall_app in F.
  apply name_loop_total; [apply F|]. rewrite app_length. lia.
Qed.

Lemma cdata_total : forall alloc r, calm (r_flags r) (t_text (r_current r)) -> t_after (r_current r) <> None -> room r ->
  exists ok r', process_cdata alloc r = Some (ok, r') /\ room r'.
Proof.
  intros alloc r C A Rm. unfold process_cdata. set (fl := if cdata_flag (r_flags r) then r_flags r else clear_trims (r_flags r)).
  assert (Cf : calm fl (t_text (r_current r))).
  { unfold fl. destruct (cdata_flag (r_flags r)); [exact C|]. apply (calm_flags (r_flags r)); [|exact C]. left. unfold newlines_flag, clear_trims. rewrite N.ldiff_spec. apply andb_false_r. }
  clearbody fl. destruct (trims fl (t_text (r_current r), t_after (r_current r))) as [t1 a1] eqn:T1. cbn [fst]. destruct (trims_part _ _ _ _ _ T1) as [(x & y & P1) A1]. rewrite P1 in Cf. apply calm_part in Cf. specialize (A1 A).
  destruct t1 as [|c0 t1]; [do 2 eexists; split; [reflexivity|exact Rm]|]. set (raw := c0 :: t1) in *. destruct Cf as [B T]. destruct (reduce_flag fl).
  - destruct (cchunks_total (S (length raw)) fl [] raw a1 false (or_introl A1) B ltac:(lia)) as (ok & cs & rest & U).
    apply (process_total alloc _ cs); [| |exact Rm].
    + destruct ok; [destruct rest as [|z rest]; [left; apply reduce_delivers; exact U|right; apply (reduce_rejects _ (raw, a1) _ _ _ U); right; discriminate]|right; apply (reduce_rejects _ (raw, a1) _ _ _ U); left; reflexivity].
    + intros _. destruct T as [L|(As & O & St)]; [left; pose proof (cchunks_size _ _ _ _ _ _ _ _ _ B U); cbn [length] in *; lia|right; exact (cchunks_single _ _ _ _ _ _ _ _ As St U)].
  - unfold is_valid_xml_string. destruct (valid_loop_total (S (length raw)) raw B ltac:(lia)) as [b ->]. do 2 eexists. split; [reflexivity|exact Rm].
Qed.

(** ** Calls *)
Section Safe.
Variable alloc : nat -> bool.
Variable doc : list N.
Variable flags : N.
Hypothesis calm_doc : calm flags doc.

Definition part (s : list N) : Prop := exists p, doc = p ++ s.
Definition fine (r : reader) : Prop := part (cur (r_tk r)) /\ r_flags r = flags /\ room r.
Definition done (x : option (bool * reader)) : Prop := exists m r', x = Some (m, r') /\ fine r'.

Lemma part_moves : forall a b k, part (cur a) -> moves a b k -> part (cur b).
Proof. intros a b k [p P] (q & E & _). exists (p ++ q). rewrite P, E, app_assoc. reflexivity. Qed.
Lemma part_bytes : forall s, part s -> bytes s. Proof. intros s [p P]. destruct calm_doc as [B _]. rewrite P in B. apply Forall_app in B. apply B. Qed.
Lemma part_calm : forall s t u, part s -> s = t ++ u -> calm flags t. Proof. intros s t u [p P] ->. pose proof calm_doc as C. rewrite P in C. exact (calm_part _ _ _ _ C). Qed.
Lemma fine_unescape : forall r, fine r -> (exists s u, part s /\ s = t_text (r_current r) ++ u) -> t_after (r_current r) <> None ->
  exists ok r', unescape_current_token alloc r = Some (ok, r') /\ fine r'.
Proof.
  intros r (P & F & Rm) (s & u & Ps & E) A. destruct (unescape_total alloc r) as (ok & r' & U & Rm'); [rewrite F; exact (part_calm s _ u Ps E)|exact A|exact Rm|].
  exists ok, r'. split; [exact U|]. destruct (unescape_same _ _ _ _ U) as [(Q1 & Q2 & _) _]. split; [rewrite Q1; exact P|]. split; [congruence|exact Rm'].
Qed.
Lemma fine_cdata : forall r, fine r -> (exists s u, part s /\ s = t_text (r_current r) ++ u) -> t_after (r_current r) <> None ->
  exists ok r', process_cdata alloc r = Some (ok, r') /\ fine r'.
Proof.
  intros r (P & F & Rm) (s & u & Ps & E) A. destruct (cdata_total alloc r) as (ok & r' & U & Rm'); [rewrite F; exact (part_calm s _ u Ps E)|exact A|exact Rm|].
  exists ok, r'. split; [exact U|]. destruct (cdata_same _ _ _ _ U) as [(Q1 & Q2 & _) _]. split; [rewrite Q1; exact P|]. split; [congruence|exact Rm'].
Qed.
Lemma fine_tk : forall r tk, fine r -> part (cur tk) -> fine (with_tk r tk). Proof. intros r tk (_ & F & Rm) P. split; [exact P|]. split; assumption. Qed.
Lemma is_done : forall m r, fine r -> done (Some (m, r)). Proof. intros m r H. exists m, r. split; [reflexivity|exact H]. Qed.
Hint Resolve is_done fine_tk : core.
Lemma fine_context : forall r c, fine r -> fine (with_context r c). Proof. intros r c H. exact H. Qed.
Lemma fine_current : forall r t, fine r -> fine (with_current r t). Proof. intros r t H. exact H. Qed.
Lemma fine_depth : forall r d, fine r -> fine (with_depth r d). Proof. intros r d H. exact H. Qed.
Lemma fine_tag : forall r t, fine r -> fine (with_tag r t). Proof. intros r t H. exact H. Qed.
Lemma fine_root : forall r, fine r -> fine (with_root r). Proof. intros r H. exact H. Qed.
Hint Resolve fine_context fine_current fine_depth fine_tag fine_root : core.

Lemma part_advance : forall tk n, part (cur tk) -> part (cur (advance tk n)).
Proof. intros tk n [p P]. exists (p ++ firstn n (cur tk)). cbn [advance cur]. rewrite <- app_assoc, firstn_skipn. exact P. Qed.
Lemma part_skip : forall tk m tk', skip_whitespace tk = (m, tk') -> part (cur tk) -> part (cur tk').
Proof. intros tk m tk' H P. destruct (skip_moves _ _ _ H) as (M & _). exact (part_moves _ _ _ P M). Qed.
Hint Resolve part_advance part_skip : core.

Definition legible (t : token) : Prop := (exists s u, part s /\ s = t_text t ++ u) /\ t_after t <> None.
Lemma until_legible : forall tk ty f t tk', ty <> Terror -> parse_until tk ty f = (t, tk') -> part (cur tk) -> part (cur tk') /\ (legible t \/ t_text t = [0] /\ t_after t = None /\ t_type t = Terror).
Proof.
  intros tk ty f t tk' Ty H P. destruct (until_moves _ _ _ _ _ Ty H) as (_ & M). assert (Pk : part (cur tk')) by (destruct M as [[_ ->]|[_ M]]; [exact P|exact (part_moves _ _ _ P (moves_of _ _ _ _ M))]). split; [exact Pk|].
  unfold parse_until in H. destruct (find_str f (cur tk)) as [[p r]|] eqn:E.
  - destruct (find_str_split _ _ _ _ E) as [Es _]. destruct (count_lines (p ++ f) (line (at_ tk)) 0) as [a b]. injection H as <- _. left. split; [|discriminate]. exists (cur tk), r. split; [exact P|exact Es].
  - injection H as <- _. cbn [t_text t_after t_type]. destruct (cur tk) as [|c s] eqn:C; [right; split; [reflexivity|split; reflexivity]|left]. split.
    + exists (c :: s), s. split; [exact P|reflexivity].
    + cbn [app nth_error t_after]. destruct s; discriminate.
Qed.
Lemma comment_legible : forall tk t tk', parse_comment tk = (t, tk') -> part (cur tk) -> part (cur tk') /\ (legible t \/ t_text t = [0] /\ t_after t = None /\ t_type t = Terror).
Proof.
  intros tk t tk' H P. unfold parse_comment in H. destruct (parse_until tk Tcomment [45; 45]) as [t0 tk0] eqn:E. destruct (until_legible tk Tcomment [45; 45] t0 tk0 ltac:(discriminate) E P) as [P0 L].
  destruct (chr (cur tk0) =? 62); injection H as <- <-; (split; [auto|]); [exact L|]. destruct L as [L|(L1 & L2 & _)]; [left; exact L|right; split; [exact L1|split; [exact L2|reflexivity]]].
Qed.
Lemma pi_legible : forall tk t tk', parse_pi tk = (t, tk') -> part (cur tk) -> part (cur tk') /\ (legible t \/ t_type t = Terror).
Proof.
  intros tk t tk' H P. unfold parse_pi in H. destruct (parse_until tk Tpi [63; 62]) as [t0 tk0] eqn:E. destruct (until_legible tk Tpi [63; 62] t0 tk0 ltac:(discriminate) E P) as [P0 L].
  destruct (is_error t0); [injection H as <- <-; split; [exact P0|]; destruct L as [L|(_ & _ & L)]; [left|right]; exact L|].
  destruct (t_text t0) eqn:T; [injection H as <- <-; split; [exact P0|right; reflexivity]|]. rewrite <- T in *.
  match type of H with (if ?b then _ else _) = _ => destruct b end; injection H as <- <-; (split; [exact P0|]); [right; reflexivity|]. destruct L as [L|(_ & _ & L)]; [left|right]; exact L.
Qed.
Lemma contents_legible : forall tk t tk', parse_contents tk = (t, tk') -> part (cur tk) -> part (cur tk') /\ legible t.
Proof.
  intros tk t tk' H P. destruct (contents_moves _ _ _ H) as (_ & M & _). split; [exact (part_moves _ _ _ P (moves_of _ _ _ _ M))|]. split; [exists (cur tk), (cur tk'); split; [exact P|exact (proj1 M)]|].
  unfold parse_contents in H. destruct (scan (N.eqb 60) (cur tk) (line (at_ tk)) (column (at_ tk))) as [[[p r] a] b]. injection H as <- _. discriminate.
Qed.
Lemma part_nil : part []. Proof. exists doc. rewrite app_nil_r. reflexivity. Qed.
Lemma value_legible : forall tk t tk', parse_attribute_value tk = (t, tk') -> part (cur tk) -> part (cur tk') /\ (legible t \/ t_type t = Terror).
Proof.
  intros tk t tk' H P. unfold parse_attribute_value in H. destruct ((chr (cur tk) =? 34) || (chr (cur tk) =? 39)) eqn:Q.
  - destruct (scan (N.eqb (chr (cur tk))) (tl (cur tk)) (line (at_ tk)) (column (at_ tk))) as [[[p r] a] b] eqn:E. destruct (scan_moved _ _ _ _ _ _ _ _ E) as [Es _].
    assert (Pt : part (tl (cur tk))) by (destruct (cur tk) as [|c s]; [exact P|]; destruct P as [q Hq]; exists (q ++ [c]); rewrite Hq, <- app_assoc; reflexivity).
    destruct r as [|c r]; injection H as <- <-.
    + split; [exact part_nil|right; reflexivity].
    + split; [|left; split; [exists (tl (cur tk)), (c :: r); split; [exact Pt|exact Es]|discriminate]]. cbn [cur]. rewrite Es in Pt. destruct Pt as [q Hq]. exists (q ++ p ++ [c]). rewrite Hq, <- !app_assoc. reflexivity.
  - injection H as <- <-. split; [exact P|right; reflexivity].
Qed.
Lemma name_part : forall tk, part (cur tk) -> exists t tk', parse_name tk = Some (t, tk') /\ part (cur tk').
Proof.
  intros tk P. destruct (name_total tk (part_bytes _ P)) as (t & tk' & E). exists t, tk'. split; [exact E|]. destruct (name_moves _ _ _ E) as (M & _). exact (part_moves _ _ _ P (moves_of _ _ _ _ M)).
Qed.
Lemma valid_total : forall t, legible t -> exists b, is_valid_xml_string (t_text t) = Some b.
Proof. intros t [(s & u & P & E) _]. apply valid_loop_total; [|lia]. pose proof (part_bytes _ P) as B. rewrite E in B. apply Forall_app in B. apply B. Qed.
(** The terminator read as a comment, tm_xml.h:672-676 and 1176-1178. *)
Lemma null_text : forall r, t_text (r_current r) = [0] -> exists r', unescape_current_token alloc r = Some (false, r') /\ (fine r -> fine r').
Proof.
  intros r T. unfold unescape_current_token. rewrite T.
  assert (Tr : forall f a, trims f ([0], a) = ([0], a)) by (intros f a; unfold trims, trim_left, trim_right; cbn; destruct (trim_left_flag f), (trim_right_flag f); reflexivity). rewrite Tr. cbn [fst].
  match goal with |- context [process_twice alloc (unescape_string ?v ?f) ?r1] => assert (R : rejects (unescape_string v f)) end.
  { intros buf. unfold unescape_string. rewrite Tr. cbn [fst snd length unescape_loop]. rewrite (extract_ascii 0 []) by lia. do 2 eexists. split; reflexivity. }
  rewrite (process_rejected alloc _ _ R). eexists. split; [reflexivity|]. intros F. exact F.
Qed.

Lemma is_error_eq : forall t, is_error t = true \/ is_error t = false /\ t_type t <> Terror. Proof. intros t. unfold is_error. destruct (t_type t); try (left; reflexivity); right; (split; [reflexivity|discriminate]). Qed.

Lemma markup_done : forall r tk, fine r -> part (cur tk) -> done (markup alloc r tk).
Proof.
  intros r tk F P. unfold markup. set (tk1 := advance tk 1). assert (P1 : part (cur tk1)) by (apply part_advance; exact P). clearbody tk1.
  destruct (chr (cur tk1) =? 0); [auto|]. destruct (chr (cur tk1) =? 33).
  { set (tk2 := advance tk1 1). assert (P2 : part (cur tk2)) by (apply part_advance; exact P1). clearbody tk2. destruct (starts [45; 45] (cur tk2)).
    - destruct (parse_comment (advance tk2 2)) as [t tk3] eqn:E. destruct (comment_legible _ _ _ E (part_advance _ 2 P2)) as [P3 L]. destruct (is_error_eq t) as [->|[-> N0]]; [auto|].
      destruct L as [[L1 L2]|(_ & _ & L)]; [|contradiction]. destruct (fine_unescape (with_current r t) (fine_current _ t F) L1 L2) as (ok & r' & -> & F'). destruct ok; auto.
    - destruct (starts [91; 67; 68; 65; 84; 65; 91] (cur tk2)); [|auto]. destruct (0 <? r_depth r); [|auto].
      destruct (parse_until (advance tk2 7) Tcdata [93; 93; 62]) as [t tk3] eqn:E. destruct (until_legible (advance tk2 7) Tcdata [93; 93; 62] t tk3 ltac:(discriminate) E (part_advance _ 7 P2)) as [P3 L]. destruct (is_error_eq t) as [->|[-> N0]]; [auto|].
      destruct L as [[L1 L2]|(_ & _ & L)]; [|contradiction]. destruct (fine_cdata (with_current r t) (fine_current _ t F) L1 L2) as (ok & r' & -> & F'). destruct ok; auto. }
  destruct (chr (cur tk1) =? 63).
  { destruct (parse_pi (advance tk1 1)) as [t tk3] eqn:E. destruct (pi_legible _ _ _ E (part_advance _ 1 P1)) as [P3 L]. destruct (is_error_eq t) as [->|[-> N0]]; [auto|]. destruct L as [L|L]; [|contradiction]. destruct (valid_total t L) as [b ->]. destruct b; auto. }
  destruct (chr (cur tk1) =? 47).
  { destruct (name_part (advance tk1 1) (part_advance _ 1 P1)) as (t & tk3 & -> & P3). destruct (skip_whitespace tk3) as [m tk4] eqn:E. pose proof (part_skip _ _ _ E P3) as P4. destruct m; [|auto]. destruct (chr (cur tk4) =? 62); [|auto].
    destruct (r_depth (with_context (with_current r (with_type t Tclose)) Xcontent) =? 0); [auto|]. match goal with |- context [if ?b then _ else _] => destruct b end; auto. }
  destruct (name_part tk1 P1) as (t & tk3 & -> & P3). destruct (is_error_eq t) as [->|[-> N0]]; [auto|]. destruct (skip_whitespace tk3) as [m tk4] eqn:E. pose proof (part_skip _ _ _ E P3) as P4. destruct m; [|auto].
  destruct (chr (cur tk4) =? 62); [auto 7|]. destruct (chr (cur tk4) =? 47); auto 7.
Qed.
Lemma content_done : forall r tk, fine r -> part (cur tk) -> done (XmlModel.content alloc r tk).
Proof.
  intros r tk F P. unfold XmlModel.content. destruct (chr (cur tk) =? 0); [destruct (r_root r && (r_depth r =? 0)); auto|]. destruct (chr (cur tk) =? 60); [apply markup_done; assumption|]. destruct (negb (r_root r) || (r_depth r =? 0)).
  - destruct (skip_whitespace tk) as [m tk1] eqn:E. pose proof (part_skip _ _ _ E P) as P1. destruct m; [|auto]. destruct (chr (cur tk1) =? 60); [apply markup_done; auto|auto].
  - destruct (parse_contents tk) as [t tk1] eqn:E. destruct (contents_legible _ _ _ E P) as [P1 [L1 L2]]. destruct (is_error t); [auto|]. destruct (fine_unescape (with_current r t) (fine_current _ t F) L1 L2) as (ok & r' & -> & F'). destruct ok; [|auto].
    match goal with |- context [if ?b then _ else _] => destruct b end; [apply markup_done; auto|auto].
Qed.
Lemma inside_tag_done : forall r tk, fine r -> part (cur tk) -> done (inside_tag r tk).
Proof.
  intros r tk F P. unfold inside_tag. destruct (chr (cur tk) =? 47); [destruct (chr (cur (advance tk 1)) =? 62); [apply is_done; apply fine_tk; [|auto]; auto|auto]|].
  destruct (name_part tk P) as (t & tk1 & -> & P1). destruct (is_error t); [auto|]. destruct (skip_whitespace tk1) as [m tk2] eqn:E. pose proof (part_skip _ _ _ E P1) as P2. destruct m; [|auto]. destruct (chr (cur tk2) =? 61); [|auto].
  destruct (skip_whitespace (advance tk2 1)) as [m tk3] eqn:E3. pose proof (part_skip _ _ _ E3 (part_advance _ 1 P2)) as P3. destruct m; [|auto]. destruct ((chr (cur tk3) =? 34) || (chr (cur tk3) =? 39)); auto.
Qed.
Lemma attribute_done : forall r tk, fine r -> part (cur tk) -> done (attribute alloc r tk).
Proof.
  intros r tk F P. unfold attribute. destruct (parse_attribute_value tk) as [t tk1] eqn:E. destruct (value_legible _ _ _ E P) as [P1 L]. destruct (is_error_eq t) as [->|[-> N0]]; [auto|]. destruct L as [[L1 L2]|L]; [|contradiction].
  destruct (fine_unescape (with_current r t) (fine_current _ t F) L1 L2) as (ok & r' & -> & F'). destruct ok; [|auto]. destruct (one_of [32; 9; 13; 10; 62; 0] (chr (cur tk1))); [|auto]. destruct (skip_whitespace tk1) as [m tk2] eqn:E2. pose proof (part_skip _ _ _ E2 P1) as P2. destruct m; [|auto].
  destruct (chr (cur tk2) =? 62); [auto 7|]. destruct (chr (cur tk2) =? 47); auto 7.
Qed.
Lemma post_root_done : forall r tk, fine r -> part (cur tk) -> done (post_root alloc r tk).
Proof.
  intros r tk F P. unfold post_root. destruct (skip_whitespace tk) as [m tk1] eqn:E. pose proof (part_skip _ _ _ E P) as P1. destruct m; [|apply is_done; apply fine_tk; [|exact P1]; auto]. destruct (starts [60; 33; 45; 45] (cur tk1)).
  - destruct (parse_comment (advance tk1 4)) as [t tk2] eqn:E2. destruct (comment_legible _ _ _ E2 (part_advance _ 4 P1)) as [P2 L].
    set (r1 := if is_error t then with_current (with_current r (make_error tk1)) t else with_context (with_current (with_current r (make_error tk1)) t) Xpost_root).
    assert (F1 : fine r1 /\ r_current r1 = t) by (unfold r1; destruct (is_error t); auto). clearbody r1. destruct F1 as [F1 C1]. destruct L as [[L1 L2]|(L & _)].
    + rewrite <- C1 in L1, L2. destruct (fine_unescape r1 F1 L1 L2) as (ok & r' & -> & F'). destruct ok; auto.
    + rewrite <- C1 in L. destruct (null_text r1 L) as (r' & -> & F'). auto.
  - destruct (starts [60; 63] (cur tk1)); [|auto]. destruct (parse_pi (advance tk1 2)) as [t tk2] eqn:E2. destruct (pi_legible _ _ _ E2 (part_advance _ 2 P1)) as [P2 L]. destruct (is_error_eq t) as [->|[-> N0]]; [auto|]. destruct L as [L|L]; [|contradiction]. destruct (valid_total t L) as [b ->]. destruct b; auto.
Qed.
Lemma next_done : forall r, fine r -> done (next_token alloc r).
Proof.
  intros r F. pose proof F as (P & _). unfold next_token. assert (F0 : fine (with_current (with_context r Xerror) (make_error (r_tk r)))) by auto. destruct (r_context r).
  - destruct (skip_whitespace (r_tk r)) as [m tk1] eqn:E. pose proof (part_skip _ _ _ E P) as P1. destruct m; [|auto]. destruct (chr (cur tk1) =? 60); [apply content_done; auto|auto].
  - auto.
  - auto.
  - apply inside_tag_done; auto.
  - apply attribute_done; auto.
  - apply content_done; auto.
  - apply post_root_done; auto.
Qed.
Lemma start_fine : fine (make_reader doc flags).
Proof. split; [exists []; reflexivity|]. split; [reflexivity|]. unfold room, buffer_size. cbn [make_reader r_buffer]. lia. Qed.
Lemma calls_fine : forall r ts r', calls alloc r ts r' -> fine r -> fine r'.
Proof. intros r ts r' C. induction C as [|r r1 ts r' E C IH]; intros F; [exact F|]. destruct (next_done r F) as (m & r2 & E2 & F2). apply IH. assert (r1 = r2) as -> by congruence. exact F2. Qed.
End Safe.

(** ** Reading to the end *)
Lemma stands_start : forall doc flags, stands doc 0 (r_tk (make_reader doc flags)). Proof. intros doc flags. apply moves_refl. Qed.
Lemma nest_start : forall doc flags, nest SProlog (make_reader doc flags).
Proof. intros doc flags. unfold nest, make_reader. cbn. tauto. Qed.
Lemma calls_snoc : forall alloc r ts r1 r2, calls alloc r ts r1 -> next_token alloc r1 = Some (true, r2) -> calls alloc r (ts ++ [r_current r2]) r2.
Proof. intros alloc r ts r1 r2 C E. induction C as [r|r r3 ts r1 E3 C IH]; [exact (R_cons alloc r r2 [] r2 E (R_nil alloc r2))|]. exact (R_cons alloc r r3 _ r2 E3 (IH E)). Qed.
Lemma calls_until : forall alloc doc flags n, calm flags doc ->
  exists ts r', calls alloc (make_reader doc flags) ts r' /\ (length ts <= n)%nat /\ (length ts = n \/ exists r2, next_token alloc r' = Some (false, r2)).
Proof.
  intros alloc doc flags n C. induction n as [|n (ts & r' & K & L & D)]; [exists [], (make_reader doc flags); split; [constructor|]; split; [cbn; lia|left; reflexivity]|].
  destruct D as [D|D]; [|exists ts, r'; split; [exact K|]; split; [lia|right; exact D]].
  destruct (next_done alloc doc flags C r' (calls_fine alloc doc flags C _ _ _ K (start_fine doc flags))) as (m & r2 & E & _). destruct m.
  - exists (ts ++ [r_current r2]), r2. split; [exact (calls_snoc _ _ _ _ _ K E)|]. rewrite app_length. cbn [length]. split; [lia|left; lia].
  - exists ts, r'. split; [exact K|]. split; [lia|right; exists r2; exact E].
Qed.
Lemma ends : forall alloc doc flags, calm flags doc -> exists ts r', calls alloc (make_reader doc flags) ts r' /\ (length ts <= length doc + 2)%nat /\
  (walk SProlog (map t_type ts) SStop \/ exists r2, next_token alloc r' = Some (false, r2)).
Proof.
  intros alloc doc flags C. destruct (calls_until alloc doc flags (length doc + 2) C) as (ts & r' & K & L & D). exists ts, r'. split; [exact K|]. split; [exact L|]. destruct D as [D|D]; [|right; exact D]. left.
  destruct (run alloc doc _ _ _ K SProlog 0 (nest_start doc flags) (stands_start doc flags)) as (st & W & _ & Q & _). destruct Q as [->|Q]; [exact W|]. exfalso. cbn [make_reader r_tk cur] in Q. lia.
Qed.

(** With reduced spaces the byte behind the text is not looked at. *)
Lemma reduce_after : forall flags, reduce_flag flags = true -> forall fuel pre s a b ws, uchunks fuel flags pre s a ws = uchunks fuel flags pre s b ws.
Proof.
  intros flags R. induction fuel as [|fuel IH]; intros pre s a b ws; [reflexivity|]. cbn [uchunks]. destruct (utf8_extract s) as [[[ok v] s']|]; [|reflexivity]. destruct ok; [|reflexivity]. destruct (v =? 0); [reflexivity|].
  assert (Wa : forall v r ws, whitespace_action flags v r a ws = whitespace_action flags v r b ws) by (intros v0 r ws0; unfold whitespace_action; rewrite R; reflexivity).
  destruct (v =? 38).
  { rewrite !amp_case_eq. unfold amp_case. destruct s' as [|c s2]; [reflexivity|]. destruct (c =? 35).
    - destruct (numeric s2) as [[w r]|]; [|reflexivity]. destruct (is_valid_xml_codepoint w); [|reflexivity]. rewrite (Wa w r ws). destruct (whitespace_action flags w r b ws) as [[act ws']|]; [|reflexivity]. destruct act; rewrite ?(IH _ _ a b); reflexivity.
    - destruct (entity (c :: s2)) as [[w r]|]; [rewrite (IH _ _ a b); reflexivity|]. destruct (find_str [59] (c :: s2)); [rewrite (IH _ _ a b); reflexivity|reflexivity]. }
  destruct (v =? 60); [rewrite (IH _ _ a b); reflexivity|]. destruct (v =? 93); [rewrite (IH _ _ a b); reflexivity|].
  destruct (is_valid_xml_codepoint v); [|reflexivity]. rewrite (Wa v s' ws). destruct (whitespace_action flags v s' b ws) as [[act ws']|]; [|reflexivity]. destruct act; rewrite ?(IH _ _ a b); reflexivity.
Qed.
Lemma chunks_defined : forall flags raw after ws fuel, after <> None \/ steady flags -> bytes raw -> (length raw < fuel)%nat -> exists ok cs rest, uchunks fuel flags [] raw after ws = Some (ok, cs, rest).
Proof.
  intros flags raw after ws fuel H B L. destruct H as [H|H]; [exact (uchunks_total fuel flags [] raw after ws (or_introl H) B L)|]. destruct (reduce_flag flags) eqn:R.
  - rewrite (reduce_after flags R _ _ _ after (Some 0)). apply uchunks_total; [left; discriminate|exact B|exact L].
  - destruct H as [H|H]; [|congruence]. apply uchunks_total; [right; split; assumption|exact B|exact L].
Qed.
