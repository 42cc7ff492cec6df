(** XML: C110 to C120. *)
From Coq Require Import Arith NArith ZArith Bool Lia ZifyBool ZifyNat ZifyN Ascii String List.
From Verif Require Import Base DigitsSpec CodecModel CodecProofs UniModel UniSpec UniProofs UniTop XmlModel XmlSpec XmlText XmlLex XmlTokens XmlInv XmlSafe XmlProlog XmlSpaces.
Import ListNotations.
Local Open Scope N_scope.

Definition txt (s : string) : list N := DigitsSpec.bytes_of s.
Definition plenty (n : nat) : bool := true.
Lemma plenty_memory : all_memory plenty. Proof. intros n. reflexivity. Qed.
Lemma quiet_0 : quiet 0. Proof. repeat split. Qed.
Definition events (x : option (list token * reader)) : option (list event) := option_map (fun p => map ev (fst p)) x.

Lemma ascii_encodes : forall s, Forall (fun c => c < 128) s -> encodes utf8_seq s s.
Proof. intros s F. induction F as [|c s Fc F IH]; [constructor|]. change (c :: s) with ([c] ++ s) at 2. constructor; [constructor; exact Fc|exact IH]. Qed.
Lemma ascii_chars : forall s, Forall (fun c => 0 < c < 128) s -> chars s.
Proof. intros s F. exists s. split; [apply ascii_encodes; eapply Forall_impl; [|exact F]; cbn beta; intros c H; lia|]. eapply Forall_impl; [|exact F]. cbn beta. intros c H. unfold xml_char. lia. Qed.
Lemma ascii_data : forall lim s, Forall (fun c => 0 < c < 128 /\ c <> 38 /\ c <> 60 /\ c <> 93) s -> chardata lim s s.
Proof.
  intros lim s F. induction F as [|c s (F1 & F2 & F3 & F4) F IH]; [constructor|]. change (c :: s) with ([c] ++ s). apply D_char with (v := c); [unfold xml_char; lia|exact F2|exact F3|constructor; lia| |exact IH].
  intros [b B]. cbn [app] in B. congruence.
Qed.
Lemma ascii_attr : forall lim s, Forall (fun c => 0 < c < 128 /\ c <> 38 /\ c <> 60 /\ (lim = true -> c <> 93)) s -> attr_data lim s s.
Proof.
  intros lim s F. induction F as [|c s (F1 & F2 & F3 & F4) F IH]; [constructor|]. change (c :: s) with ([c] ++ s). apply AD_char with (v := c); [unfold xml_char; lia|exact F2|exact F3|constructor; lia| |exact IH].
  intros L [b B]. cbn [app] in B. apply (F4 L). congruence.
Qed.
Ltac ascii := repeat (constructor; [lia|]); constructor.
Ltac asciis := repeat (constructor; [repeat split; try lia; intros; try discriminate; lia|]); constructor.
Lemma letter_name : forall c, 97 <= c <= 122 -> name [c]. Proof. intros c H. apply name_ascii; [discriminate|constructor; [apply lower_start, H|constructor]]. Qed.

(** ** C110 *)
Lemma splice_inj : forall buf a b, (length a < length buf)%nat -> length a = length b -> splice buf 0 (a ++ [0]) = splice buf 0 (b ++ [0]) -> a = b.
Proof.
  intros buf a b L E H. apply (f_equal (firstn (length a))) in H. unfold splice in H. cbn [firstn app] in H. rewrite <- !app_assoc in H. rewrite firstn_app, firstn_all, Nat.sub_diag in H. cbn [firstn] in H. rewrite app_nil_r in H. rewrite E in H. rewrite firstn_app, firstn_all, Nat.sub_diag in H. cbn [firstn] in H. rewrite app_nil_r in H. exact H.
Qed.
Lemma quiet_plain : forall fl, quiet fl -> plain_flags fl. Proof. intros fl (_ & _ & A & B & _). split; assumption. Qed.

(** What is accepted, and the text it stands for; [loose] is what XML says up to the differences given there. *)
Theorem C110_unescape_partial : forall flags raw after val buf, quiet flags -> bytes raw -> raw <> [] -> (length val < length buf)%nat ->
  (unescape_string (raw, after) flags buf = Some (true, length val, splice buf 0 (val ++ [0])) <-> loose false raw val).
Proof.
  intros flags raw after val buf Q B N0 L. pose proof (quiet_plain _ Q) as P. assert (C : comment_flag flags = false) by apply Q.
  assert (T : trims flags (raw, after) = (raw, after)) by (apply quiet_trims; exact Q). split; intros H.
  - destruct (uchunks_total (S (length raw)) flags [] raw after false (or_intror P) B ltac:(lia)) as (ok & cs & rest & U).
    assert (K : ok = true /\ rest = []).
    { destruct ok; [destruct rest as [|z rest]; [split; reflexivity|]|]; exfalso; destruct (unescape_rejects (raw, after) flags raw after _ _ _ T N0 U ltac:(first [left; reflexivity|right; discriminate]) buf) as (n & b & E & _); congruence. }
    destruct K as [-> ->]. destruct (unescape_delivers (raw, after) flags raw after cs T N0 U) as [D1 D2]. destruct (Nat.lt_ge_cases (length (concat cs)) (length buf)) as [L1|L1].
    + specialize (D1 buf L1). rewrite H in D1. assert (E1 : length val = length (concat cs)) by congruence. assert (E2 : splice buf 0 (val ++ [0]) = splice buf 0 (concat cs ++ [0])) by congruence.
      rewrite (splice_inj buf val (concat cs) L E1 E2), <- C. exact (chunks_loose _ flags raw after false cs P B U).
    + destruct (D2 buf L1) as (n & b & E & _ & En). exfalso. assert (n = length val) by congruence. lia.
  - destruct (loose_chunks false raw val H flags after false (S (length raw)) P C ltac:(lia)) as (cs & U & V & _). rewrite <- V in *. exact (proj1 (unescape_delivers (raw, after) flags raw after cs T N0 U) buf L).
Qed.
Theorem C110_character_data_partial : forall flags raw after val buf, quiet flags -> bytes raw -> raw <> [] -> (length val < length buf)%nat -> chardata true raw val ->
  unescape_string (raw, after) flags buf = Some (true, length val, splice buf 0 (val ++ [0])).
Proof. intros flags raw after val buf Q B N0 L H. apply C110_unescape_partial; try assumption. apply chardata_loose, H. Qed.
Theorem C110_rejected_partial : forall flags raw after buf, quiet flags -> bytes raw -> raw <> [] -> (forall val, ~ loose false raw val) ->
  exists n b, unescape_string (raw, after) flags buf = Some (false, n, b) /\ length b = length buf.
Proof.
  intros flags raw after buf Q B N0 H. pose proof (quiet_plain _ Q) as P. assert (C : comment_flag flags = false) by apply Q.
  assert (T : trims flags (raw, after) = (raw, after)) by (apply quiet_trims; exact Q).
  destruct (uchunks_total (S (length raw)) flags [] raw after false (or_intror P) B ltac:(lia)) as (ok & cs & rest & U).
  assert (K : ok = false \/ rest <> []). { destruct ok; [|left; reflexivity]. right. intros ->. apply (H (concat cs)). rewrite <- C. exact (chunks_loose _ flags raw after false cs P B U). }
  destruct (unescape_rejects (raw, after) flags raw after _ _ _ T N0 U K buf) as (n & b & E & Lb). exists n, b. split; assumption.
Qed.
Example C110_example : unescape_string (txt "a&lt;b&#x41;&amp;&#66;c", None) 0 (repeat 7 12) = Some (true, 7%nat, txt "a<bA&Bc" ++ [0; 7; 7; 7; 7]).
Proof. vm_compute. reflexivity. Qed.
Example C110_example_loose : loose false (txt "a&lt;b") (txt "a<b").
Proof.
  apply (C110_unescape_partial 0 _ None _ (repeat 0 9) quiet_0); [asciis|discriminate|vm_compute; lia|vm_compute; reflexivity].
Qed.

(** A number that is too large is taken modulo 2^32. *)
Theorem C110_reference_modulo_refuted : exists raw val, (forall buf, (1 < length buf)%nat -> unescape_string (raw, None) 0 buf = Some (true, 1%nat, splice buf 0 (val ++ [0]))) /\ forall v, ~ chardata false raw v.
Proof.
  exists (txt "&#4294967361;"), (txt "A"). split.
  - intros buf L. change 1%nat with (length (txt "A")). apply (C110_unescape_partial 0); [exact quiet_0|asciis|discriminate|exact L|].
    change (txt "&#4294967361;") with ([38] ++ 35 :: txt "4294967361" ++ 59 :: []). change (txt "A") with ([65] ++ []). apply O_dec; [constructor; lia|discriminate| |vm_compute; lia| | |constructor].
    + apply dec_forall; vm_compute; reflexivity.
    + vm_compute. left. split; discriminate.
    + vm_compute (dec_value _ mod _). constructor. lia.
  - intros v H. assert (E : exists raw, raw = txt "&#4294967361;") by (eexists; reflexivity). destruct E as [raw E]. rewrite <- E in H. destruct H as [|v0 ch raw val X N1 N2 S B H|ref v0 ch raw val R S H].
    + discriminate.
    + destruct ch as [|c ch]; [pose proof (seq_ne _ _ S); cbn in *; lia|]. vm_compute in E. assert (c = 38) as -> by congruence. destruct (seq_bytes _ _ S) as [[Q _]|Hh]; [congruence|inversion Hh; lia].
    + vm_compute in E. assert (E' : ref ++ 59 :: raw = txt "#4294967361;") by (vm_compute; congruence). clear E. destruct R as [| | | | |ds N0 D X _|ds vs N0 D X _]; try discriminate.
      * cbn [app] in E'. assert (Ed : ds = txt "4294967361").
        { assert (G : ds ++ 59 :: raw = txt "4294967361" ++ 59 :: []) by (vm_compute; vm_compute in E'; congruence). clear E' X N0. assert (D2 : ~ In 59 ds) by (intros K; rewrite Forall_forall in D; specialize (D 59 K); unfold dec_digit in D; lia).
          pose proof (find_found 59 ds raw D2) as F1. rewrite G in F1. vm_compute in F1. vm_compute. congruence. }
        rewrite Ed in X. vm_compute in X. destruct X as [[_ X]|[[_ X]|[_ X]]]; apply X; reflexivity.
Qed.
(** Octets that do not continue a character are taken for one. *)
Theorem C110_encoding_refuted : exists raw val, (forall buf, (2 < length buf)%nat -> unescape_string (raw, None) 0 buf = Some (true, 2%nat, splice buf 0 (val ++ [0]))) /\ forall v, ~ chardata false raw v.
Proof.
  exists [195; 40], [195; 40]. split.
  - intros buf L. change 2%nat with (length [195; 40]). apply (C110_unescape_partial 0); [exact quiet_0|asciis|discriminate|exact L|].
    apply (chunks_loose 3 0 [195; 40] None false [[195; 40]]); [split; reflexivity|asciis|vm_compute; reflexivity].
  - intros v H. assert (E : exists raw, raw = [195; 40]) by (eexists; reflexivity). destruct E as [raw E]. rewrite <- E in H. destruct H as [|v0 ch raw val X N1 N2 S B H|ref v0 ch raw val R S H]; [discriminate| |discriminate].
    destruct (seq_bytes _ _ S) as [[Ec Lt]|Hh]; [rewrite Ec in E; cbn [app] in E; assert (v0 = 195) by congruence; lia|]. destruct ch as [|c [|d ch]]; cbn [app] in E.
    + pose proof (seq_ne _ _ S). cbn in *. lia.
    + assert (c = 195) as -> by congruence. inversion S. lia.
    + assert (d = 40) as -> by congruence. inversion Hh as [|? ? _ H2]. inversion H2. lia.
Qed.
(** References XML allows are rejected when they have more than ten digits. *)
Theorem C110_long_reference_refuted : chardata false (txt "&#00000000065;") (txt "A") /\ unescape_string (txt "&#00000000065;", None) 0 (repeat 0 20) = Some (false, 0%nat, repeat 0 20).
Proof.
  split; [|vm_compute; reflexivity]. change (txt "&#00000000065;") with (38 :: (35 :: txt "00000000065") ++ 59 :: []). change (txt "A") with ([65] ++ []). apply D_ref with (v := dec_value (txt "00000000065")); [|vm_compute; constructor; lia|constructor].
  apply R_dec; [discriminate|apply dec_forall; vm_compute; reflexivity|vm_compute; left; split; discriminate|discriminate].
Qed.

(** ** C111 *)
Lemma unescape_cases : forall flags raw after, bytes raw -> after <> None \/ steady flags ->
  (fst (trims flags (raw, after)) = [] /\ forall buf, unescape_string (raw, after) flags buf = Some (true, 0%nat, buf)) \/
  fst (trims flags (raw, after)) <> [] /\ (rejects (unescape_string (raw, after) flags) \/ exists cs a' fuel, delivers (unescape_string (raw, after) flags) cs
     /\ uchunks fuel flags [] (fst (trims flags (raw, after))) a' false = Some (true, cs, [])).
Proof.
  intros flags raw after B P. destruct (trims_spec flags raw after) as (a' & T & A & Tr). set (t := fst (trims flags (raw, after))) in *. clearbody t.
  destruct t as [|c t'] eqn:Et; [left; split; [reflexivity|]; intros buf; unfold unescape_string; rewrite T; reflexivity|]. right. rewrite <- Et in *. assert (N0 : t <> []) by (rewrite Et; discriminate). clear Et. split; [exact N0|].
  destruct (trims_part _ _ _ _ _ T) as [(x & y & Ex) _]. assert (Bt : bytes t) by (unfold bytes in *; rewrite Ex in B; apply Forall_app in B; destruct B as [_ B]; apply Forall_app in B; apply B).
  assert (P' : a' <> None \/ steady flags) by (destruct P as [P|P]; [left; exact (A P)|right; exact P]).
  destruct (chunks_defined flags t a' false (S (length t)) P' Bt ltac:(lia)) as (ok & cs & rest & U).
  destruct ok; [destruct rest as [|z rest]|].
  - right. exists cs, a', (S (length t)). split; [exact (unescape_delivers _ _ _ _ _ T N0 U)|exact U].
  - left. apply (unescape_rejects _ _ _ _ _ _ _ T N0 U). right. discriminate.
  - left. apply (unescape_rejects _ _ _ _ _ _ _ T N0 U). left. reflexivity.
Qed.

(** Nothing outside of the buffer is written; nothing outside of the text is read if its end may be looked at, or newlines are kept, or spaces are reduced. *)
Theorem C111_memory_partial : forall flags raw after buf, bytes raw -> after <> None \/ newlines_flag flags = false \/ reduce_flag flags = true ->
  exists ok n b, unescape_string (raw, after) flags buf = Some (ok, n, b) /\ length b = length buf.
Proof.
  intros flags raw after buf B P. destruct (unescape_cases flags raw after B P) as [[_ H]|[_ [R|(cs & _ & _ & [D1 D2] & _)]]].
  - do 3 eexists. split; [apply H|reflexivity].
  - destruct (R buf) as (n & b & E & L). do 3 eexists. split; [exact E|exact L].
  - destruct (Nat.lt_ge_cases (length (concat cs)) (length buf)) as [L|L].
    + do 3 eexists. split; [apply (D1 buf L)|]. apply splice_length. cbn. rewrite app_length. cbn. lia.
    + destruct (D2 buf L) as (n & b & E & Lb & _). do 3 eexists. split; [exact E|exact Lb].
Qed.
(** The sizes for texts of one-byte characters. *)
Theorem C111_sizes_partial : forall flags raw after, Forall (fun c => c < 128) raw -> ~ occurs [38; 35] raw -> newlines_flag flags = false \/ reduce_flag flags = true ->
  fst (trims flags (raw, after)) <> [] ->
  (forall buf, exists n b, unescape_string (raw, after) flags buf = Some (false, n, b)) \/
  exists val, (length val <= length raw)%nat /\ forall buf,
    ((length val < length buf)%nat -> unescape_string (raw, after) flags buf = Some (true, length val, splice buf 0 (val ++ [0]))) /\
    ((length buf <= length val)%nat -> exists b, unescape_string (raw, after) flags buf = Some (true, S (length val), b)).
Proof.
  intros flags raw after As O St N0. assert (B : bytes raw) by (eapply Forall_impl; [|exact As]; cbn beta; intros c Hc; lia).
  destruct (trims_spec flags raw after) as (a' & T & A & Tr). destruct (trims_part _ _ _ _ _ T) as [(x & y & Ex) _]. set (t := fst (trims flags (raw, after))) in *. clearbody t.
  assert (At : Forall (fun c => c < 128) t) by (rewrite Ex in As; apply Forall_app in As; destruct As as [_ As]; apply Forall_app in As; apply As). assert (Ot : ~ occurs [38; 35] t) by (rewrite Ex in O; exact (occurs_part _ _ _ _ O)).
  assert (Bt : bytes t) by (eapply Forall_impl; [|exact At]; cbn beta; intros c Hc; lia).
  pose proof (chunks_defined flags t a' false (S (length t)) (or_intror St) Bt ltac:(lia)) as G.
  destruct G as (ok & cs & rest & U). destruct ok; [destruct rest as [|z rest]|].
  - right. destruct (unescape_delivers _ _ _ _ _ T N0 U) as [D1 D2]. pose proof (uchunks_single _ _ _ _ _ _ _ _ At Ot St U) as Sg. exists (concat cs). split.
    + pose proof (uchunks_size _ _ _ _ _ _ _ _ _ Bt U) as Z. cbn [length] in Z. rewrite Ex, !app_length. lia.
    + intros buf. split; [apply D1|]. intros L. destruct (D2 buf L) as (n & b & E & _ & En). exists b. rewrite E. rewrite (emits_room cs (Outp buf 0 (length buf) 0) Sg) in En. cbn [u_room] in En. replace (length buf - length (concat cs))%nat with 0%nat in En by lia. cbn [Nat.eqb] in En. repeat f_equal. lia.
  - left. intros buf. destruct (unescape_rejects _ _ _ _ _ _ _ T N0 U ltac:(right; discriminate) buf) as (n & b & E & _). do 2 eexists. exact E.
  - left. intros buf. destruct (unescape_rejects _ _ _ _ _ _ _ T N0 U ltac:(left; reflexivity) buf) as (n & b & E & _). do 2 eexists. exact E.
Qed.
Example C111_example : unescape_string (txt "a&lt;b", None) 0 (repeat 7 2) = Some (true, 4%nat, txt "a<") /\ unescape_string (txt "a&lt;b", None) 0 (repeat 7 4) = Some (true, 3%nat, txt "a<b" ++ [0]).
Proof. split; vm_compute; reflexivity. Qed.

(** "a\xC3\xA9" needs four bytes; with two the answer is three, and with three it is three again. *)
Theorem C111_needed_size_refuted : exists raw flags n b n' b', unescape_string (raw, Some 0) flags (repeat 0 2) = Some (true, n, b) /\ (2 <= n)%nat
  /\ unescape_string (raw, Some 0) flags (repeat 0 n) = Some (true, n', b') /\ (n <= n')%nat.
Proof. exists [97; 195; 169], 0. do 4 eexists. split; [vm_compute; reflexivity|]. split; [lia|]. split; [vm_compute; reflexivity|lia]. Qed.
(** The byte behind the text is read. *)
Theorem C111_overread_refuted : exists raw flags, bytes raw /\ unescape_string (raw, None) flags (repeat 0 16) = None.
Proof. exists [13; 97], 8. split; [asciis|vm_compute; reflexivity]. Qed.
(** A text of spaces: the buffer is left as it was, without terminator. *)
Theorem C111_terminator_refuted : exists raw flags buf, unescape_string (raw, Some 0) flags buf = Some (true, 0%nat, buf) /\ (0 < length buf)%nat /\ ~ In 0 buf.
Proof. exists [32], 1, [7]. split; [vm_compute; reflexivity|]. split; [cbn; lia|]. intros [H|[]]. discriminate. Qed.

(** ** C112 *)
Definition processed (flags : N) (t out : list N) : Prop :=
  if reduce_flag flags then collapsed t out else if newlines_flag flags then out = unbroken t else out = t.
Lemma plain_processed : forall flags raw after t out, comment_flag flags = false -> plain_text raw -> newlines_flag flags = reduce_flag flags \/ ~ In 13 raw -> trimmed (trim_left_flag flags) (trim_right_flag flags) raw t ->
  t <> [] -> processed flags t out -> exists cs, delivers (unescape_string (raw, after) flags) cs /\ concat cs = out /\ trims flags (raw, after) = (t, snd (trims flags (raw, after))).
Proof.
  intros flags raw after t out C (vs & E & F) Nl Tr N0 P. destruct (trims_spec flags raw after) as (a' & T & _ & Tr'). pose proof (trimmed_fun _ _ _ _ _ Tr' Tr) as Et. rewrite Et in T.
  destruct (plain_trimmed _ _ _ _ _ Tr E F) as (vs' & E' & F' & I'). pose proof (plain_bytes _ _ E' F') as Bt.
  assert (V13 : forall vs0 s0, encodes utf8_seq vs0 s0 -> ~ In 13 s0 -> ~ In 13 vs0).
  { intros vs0 s0 E0. induction E0 as [|v vs0 ch us S E0 IH]; intros H K; [destruct K|]. destruct K as [-> |K]; [apply H, in_or_app; left; rewrite (seq_ascii 13 ch S) by lia; left; reflexivity|]. apply IH; [intros Q; apply H, in_or_app; right; exact Q|exact K]. }
  assert (Nl' : newlines_flag flags = reduce_flag flags \/ ~ In 13 vs') by (destruct Nl as [Nl|Nl]; [left; exact Nl|right; intros K; apply (V13 _ _ E Nl), I', K]).
  assert (K : exists cs, uchunks (S (length t)) flags [] t a' false = Some (true, cs, []) /\ concat cs = out).
  { unfold processed in P. destruct (reduce_flag flags) eqn:R.
    - destruct (reduce_chunks flags R vs' t E' F') with (ws := false) (after := a') (fuel := S (length t)) as (cs & U & V); [destruct Nl' as [->|Nl']; [left; reflexivity|right; exact Nl']|lia|]. exists cs. split; [exact U|]. rewrite V. symmetry. apply collapsed_fun; [exact P|]. eapply Forall_impl; [|exact Bt]. cbn beta. tauto.
    - destruct (newlines_flag flags) eqn:L.
      + destruct Nl' as [Nl'|Nl']; [discriminate|]. destruct (newline_chunks flags R L vs' t E' F' Nl' false a' (S (length t)) ltac:(lia)) as (cs & U & V). exists cs. split; [exact U|congruence].
      + subst out. assert (Ls : loose false t t).
        { clear -E' F'. revert F'. induction E' as [|v vs ch us S E IH]; intros F; [constructor|]. inversion F as [|? ? (X & V1 & V2 & V3 & _) Fs]; subst. apply O_char with (v := v); auto. apply seq_lenient, S. }
        destruct (loose_chunks false t t Ls flags a' false (S (length t)) (conj R L) C ltac:(lia)) as (cs & U & V & _). exists cs. split; assumption. }
  destruct K as (cs & U & V). exists cs. split; [exact (unescape_delivers _ _ _ _ _ T N0 U)|]. split; [exact V|]. rewrite T. reflexivity.
Qed.
(** Plain text: what is left at the ends, and what becomes of the whitespace in between. *)
Theorem C112_flags_partial : forall flags raw after t out buf, comment_flag flags = false -> plain_text raw -> newlines_flag flags = reduce_flag flags \/ ~ In 13 raw ->
  trimmed (trim_left_flag flags) (trim_right_flag flags) raw t -> t <> [] -> processed flags t out -> (length out < length buf)%nat ->
  unescape_string (raw, after) flags buf = Some (true, length out, splice buf 0 (out ++ [0])).
Proof. intros flags raw after t out buf C Pl Nl Tr N0 P L. destruct (plain_processed flags raw after t out C Pl Nl Tr N0 P) as (cs & [D _] & V & _). rewrite <- V in *. apply D, L. Qed.
Theorem C112_defined : forall flags raw, exists t out, trimmed (trim_left_flag flags) (trim_right_flag flags) raw t /\ processed flags t out.
Proof.
  intros flags raw. destruct (trims_spec flags raw None) as (_ & _ & _ & Tr). exists (fst (trims flags (raw, None))). unfold processed. destruct (reduce_flag flags); [destruct (collapsed_exists (fst (trims flags (raw, None)))) as [out H]; exists out; split; assumption|].
  destruct (newlines_flag flags); eexists; split; try exact Tr; reflexivity.
Qed.
Example C112_example : unescape_string (txt "   Hello    World!  ", None) 15 (repeat 7 14) = Some (true, 12%nat, txt "Hello World!" ++ [0; 7]).
Proof. vm_compute. reflexivity. Qed.
Example C112_example_hypotheses : plain_text (txt "  a   b ") /\ trimmed true true (txt "  a   b ") (txt "a   b") /\ collapsed (txt "a   b") (txt "a b").
Proof.
  split; [exists (txt "  a   b "); split; [apply ascii_encodes; asciis|]; repeat (constructor; [unfold plain_char, xml_char, space; cbn; lia|]); constructor|]. split.
  - exists (txt "  "), (txt " "). split; [reflexivity|]. split; [repeat constructor|]. split; [repeat constructor|]. split; [discriminate|]. split; [discriminate|]. split; [|split; [|discriminate]].
    + intros _ c t' E. vm_compute in E. injection E as <- _. unfold space. lia.
    + intros _ c t' E. assert (Q : c = last (txt "a   b") 0) by (rewrite E; symmetry; apply last_last). rewrite Q. vm_compute. intuition discriminate.
  - change (txt "a   b") with (97 :: txt "   " ++ 98 :: []). change (txt "a b") with (97 :: 32 :: 98 :: []). apply CO_char; [unfold space; lia|]. apply CO_run; [split; [discriminate|repeat constructor]| |apply CO_char; [unfold space; lia|constructor]]. intros c s' E. injection E as <- _. unfold space. lia.
Qed.
(** With a reference or a bracket in the text a space is lost. *)
Theorem C112_reference_refuted : unescape_string (txt "a &lt; b", Some 0) 4 (repeat 0 6) = Some (true, 4%nat, txt "a <b" ++ [0; 0]) /\ unescape_string (txt "a ] b", Some 0) 4 (repeat 0 6) = Some (true, 4%nat, txt "a ]b" ++ [0; 0]).
Proof. split; vm_compute; reflexivity. Qed.
(** One line break of Windows becomes two spaces; a carriage return may stay. *)
Theorem C112_carriage_return_refuted : unescape_string (txt "a" ++ [13; 10] ++ txt "b", Some 0) 8 (repeat 0 6) = Some (true, 4%nat, txt "a  b" ++ [0; 0])
  /\ unescape_string (txt "a" ++ [13] ++ txt "b" ++ [10] ++ txt "c", Some 0) 8 (repeat 0 6) = Some (true, 5%nat, txt "a" ++ [13] ++ txt "b c" ++ [0]).
Proof. split; vm_compute; reflexivity. Qed.
(** Other control characters become spaces. *)
Theorem C112_control_refuted : unescape_string (txt "a" ++ [7] ++ txt "b", Some 0) 4 (repeat 0 4) = Some (true, 3%nat, txt "a b" ++ [0]).
Proof. vm_compute. reflexivity. Qed.
(** The contents of a token: the same processing, whatever the buffer of the reader holds. *)
Theorem C112_token_partial : forall alloc r t out, all_memory alloc -> comment_flag (r_flags r) = false -> t_type (r_current r) = Tcontents -> (64 <= buffer_size r)%nat ->
  plain_text (t_text (r_current r)) -> newlines_flag (r_flags r) = reduce_flag (r_flags r) \/ ~ In 13 (t_text (r_current r)) ->
  trimmed (trim_left_flag (r_flags r)) (trim_right_flag (r_flags r)) (t_text (r_current r)) t -> t <> [] -> processed (r_flags r) t out -> (length (t_text (r_current r)) < 64)%nat ->
  exists r', unescape_current_token alloc r = Some (true, r') /\ t_text (r_current r') = out.
Proof.
  intros alloc r t out M C Ty B Pl Nl Tr N0 P L. unfold unescape_current_token. rewrite Ty.
  destruct (plain_processed (r_flags r) (t_text (r_current r)) (t_after (r_current r)) t out C Pl Nl Tr N0 P) as (_ & _ & _ & T). rewrite T. cbn [fst]. set (a' := snd (trims (r_flags r) (t_text (r_current r), t_after (r_current r)))). destruct t as [|c0 t]; [contradiction|].
  cbn [with_current r_current text_of t_type]. rewrite Ty.
  assert (Pl' : plain_text (c0 :: t)) by (destruct Pl as (vs & E & F); destruct (plain_trimmed _ _ _ _ _ Tr E F) as (vs' & E' & F' & _); exists vs'; split; assumption).
  assert (Tr' : trimmed (trim_left_flag (r_flags r)) (trim_right_flag (r_flags r)) (c0 :: t) (c0 :: t)) by (destruct Tr as (a & b & _ & _ & _ & _ & _ & H1 & H2 & _); exists [], []; rewrite app_nil_r; repeat split; try constructor; try assumption; discriminate).
  assert (Nl' : newlines_flag (r_flags r) = reduce_flag (r_flags r) \/ ~ In 13 (c0 :: t)).
  { destruct Nl as [Nl|Nl]; [left; exact Nl|right]. intros K. apply Nl. destruct Tr as (a & b & -> & _). apply in_or_app. right. apply in_or_app. left. exact K. }
  destruct (plain_processed (r_flags r) (c0 :: t) a' (c0 :: t) out C Pl' Nl' Tr' N0 P) as (cs & D & V & _).
  assert (Ft : fitting cs).
  { left. assert (Ls : (length out <= length (c0 :: t))%nat).
    { unfold processed in P. destruct (reduce_flag (r_flags r)); [|destruct (newlines_flag (r_flags r)); subst out; [unfold unbroken; rewrite map_length|]; lia]. clear -P. induction P as [|c s1 t1 Nc P IH|w s1 t1 [W0 _] Ns P IH]; cbn [length]; [lia|lia|]. rewrite app_length. destruct w; [contradiction|]. cbn [length]. lia. }
    rewrite V. destruct Tr as (a & b & E & _). rewrite E, !app_length in L. lia. }
  match goal with |- exists r', process_twice alloc ?f ?r0 = _ /\ _ => destruct (process_value alloc f cs r0 D Ft B) as (b & Hb & [E|[_ [Al _]]]) end.
  - rewrite E. eexists. split; [reflexivity|]. exact V.
  - rewrite M in Al. discriminate.
Qed.

(** ** C113 *)
Theorem C113_tokens_partial : forall alloc flags doc evs, all_memory alloc -> quiet flags -> document true doc evs ->
  exists fuel ts r', read_all fuel alloc (make_reader doc flags) = Some (ts, r') /\ map ev ts = evs ++ [(Teof, [])].
Proof. intros alloc flags doc evs M Q H. exact (document_read alloc flags M Q doc evs H). Qed.
Lemma empty_element : forall lim c, 97 <= c <= 122 -> element lim ([60; c] ++ [47; 62]) [(Topen, [c]); (Tclose, [c])].
Proof. intros lim c H. apply (E_empty lim [c] [] [] []); [apply letter_name, H|constructor|constructor|reflexivity]. Qed.
Example C113_example_document : document true (txt "<!-- x --><a b='c'>d&lt;<e/></a>") [(Tcomment, txt " x "); (Topen, txt "a"); (Tattr_name, txt "b"); (Tattr_value, txt "c"); (Tcontents, txt "d<"); (Topen, txt "e"); (Tclose, txt "e"); (Tclose, txt "a")].
Proof.
  change (txt "<!-- x --><a b='c'>d&lt;<e/></a>") with ((txt "<!-- x -->" ++ []) ++ txt "<a b='c'>d&lt;<e/></a>" ++ []).
  apply (X_document true _ ([(Tcomment, txt " x ")] ++ []) _ [(Topen, txt "a"); (Tattr_name, txt "b"); (Tattr_value, txt "c"); (Tcontents, txt "d<"); (Topen, txt "e"); (Tclose, txt "e"); (Tclose, txt "a")] _ []); [|  |constructor].
  - apply X_comment; [|constructor]. apply (M_comment true (txt " x ")); [apply ascii_chars; asciis| |intros _; split; [vm_compute; intuition discriminate|left; cbn; lia]].
    intros (a & b & E). assert (K : In 45 (removelast (txt " x " ++ [45]))); [|vm_compute in K; intuition discriminate]. rewrite E. change ([45; 45] ++ b) with ([45] ++ 45 :: b). rewrite app_assoc, removelast_app by discriminate. apply in_or_app. left. apply in_or_app. right. left. reflexivity.
  - apply (E_content true (txt "a") (txt " b='c'") [(Tattr_name, txt "b"); (Tattr_value, txt "c")] [] (txt "d&lt;<e/>") [(Tcontents, txt "d<"); (Topen, txt "e"); (Tclose, txt "e")] []); [apply letter_name; vm_compute; split; discriminate| |constructor| |constructor].
    + apply (A_cons true (txt " ") (txt "b") [] [] 39 (txt "c") (txt "c") [] []); [split; [discriminate|repeat constructor]|apply letter_name; vm_compute; split; discriminate|constructor|constructor|right; reflexivity|vm_compute; intuition discriminate|apply ascii_attr; asciis|intros _; left; cbn; lia|constructor].
    + apply (C_text true (txt "d&lt;") (txt "d<") (txt "<e/>") [(Topen, txt "e"); (Tclose, txt "e")]); [discriminate| |intros _; left; cbn; lia|right; exists (txt "e/>"); reflexivity|].
      * change (txt "d&lt;") with ([100] ++ 38 :: [108; 116] ++ 59 :: []). change (txt "d<") with ([100] ++ [60] ++ []). apply D_char with (v := 100); [unfold xml_char; lia|lia|lia|constructor; lia|intros [b E]; discriminate|]. apply D_ref with (v := 60); [constructor|constructor; lia|constructor].
      * apply (C_element true (txt "<e/>") [(Topen, txt "e"); (Tclose, txt "e")] [] []); [apply (empty_element _ 101); lia|constructor].
Qed.
Example C113_example : events (read_all 20 plenty (make_reader (txt "<!-- x --><a b='c'>d&lt;<e/></a>") 0)) = Some [(Tcomment, txt " x "); (Topen, txt "a"); (Tattr_name, txt "b"); (Tattr_value, txt "c"); (Tcontents, txt "d<"); (Topen, txt "e"); (Tclose, txt "e"); (Tclose, txt "a"); (Teof, [])].
Proof. vm_compute. reflexivity. Qed.
Lemma one_element : forall lim e evs, element lim e evs -> document lim e evs.
Proof. intros lim e evs H. rewrite <- (app_nil_r e), <- (app_nil_r evs). exact (X_document lim [] [] e evs [] [] (X_nil lim) H (X_nil lim)). Qed.
Lemma attr_element : forall w, spaces w -> document false (txt "<a b='c'" ++ w ++ txt "/>") [(Topen, txt "a"); (Tattr_name, txt "b"); (Tattr_value, txt "c"); (Tclose, txt "a")].
Proof.
  intros w W. apply one_element. apply (E_empty false (txt "a") (txt " b='c'") [(Tattr_name, txt "b"); (Tattr_value, txt "c")] w); [apply letter_name; vm_compute; split; discriminate| |exact W|discriminate].
  apply (A_cons false (txt " ") (txt "b") [] [] 39 (txt "c") (txt "c") [] []); [split; [discriminate|repeat constructor]|apply letter_name; vm_compute; split; discriminate|constructor|constructor|right; reflexivity|vm_compute; intuition discriminate|apply ascii_attr; asciis|discriminate|constructor].
Qed.
(** An empty element with attributes: without a space it is an error, with a space the close token has the text of the last attribute. *)
Theorem C113_empty_element_refuted : exists doc evs, document false doc evs /\ events (read_all 20 plenty (make_reader doc 0)) = Some [(Topen, txt "a"); (Tattr_name, txt "b"); (Tattr_value, txt "c")].
Proof. exists (txt "<a b='c'/>"). eexists. split; [exact (attr_element [] ltac:(constructor))|]. vm_compute. reflexivity. Qed.
Theorem C113_close_name_refuted : exists doc, document false doc [(Topen, txt "a"); (Tattr_name, txt "b"); (Tattr_value, txt "c"); (Tclose, txt "a")]
  /\ events (read_all 20 plenty (make_reader doc 0)) = Some [(Topen, txt "a"); (Tattr_name, txt "b"); (Tattr_value, txt "c"); (Tclose, txt "c"); (Teof, [])].
Proof. exists (txt "<a b='c' />"). split; [exact (attr_element (txt " ") ltac:(repeat constructor))|]. vm_compute. reflexivity. Qed.
(** A single '&' in a comment, "]]>" in an attribute, an instruction whose name starts with xml. *)
Theorem C113_comment_refuted : exists doc evs, document false doc evs /\ events (read_all 20 plenty (make_reader doc 0)) = Some [(Terror, txt "&")].
Proof.
  exists (txt "<!--&--><a/>"). eexists. split; [|vm_compute; reflexivity].
  change (txt "<!--&--><a/>") with ((txt "<!--&-->" ++ []) ++ txt "<a/>" ++ []).
  apply (X_document false _ ([(Tcomment, txt "&")] ++ []) _ [(Topen, txt "a"); (Tclose, txt "a")] _ []); [|apply (empty_element _ 97); lia|constructor].
  apply X_comment; [|constructor]. apply (M_comment false (txt "&")); [apply ascii_chars; asciis| |discriminate].
  intros (a & b & E). apply (f_equal (@length N)) in E as L. rewrite !app_length in L. change (length (txt "&")) with 1%nat in L. destruct a as [|x a]; [discriminate|]. cbn [length] in L. lia.
Qed.
Theorem C113_bracket_refuted : exists doc evs, document false doc evs /\ events (read_all 20 plenty (make_reader doc 0)) = Some [(Topen, txt "a"); (Tattr_name, txt "b"); (Terror, txt "]]>")].
Proof.
  exists (txt "<a b=']]>'></a>"). eexists. split; [|vm_compute; reflexivity]. apply one_element.
  apply (E_content false (txt "a") (txt " b=']]>'") [(Tattr_name, txt "b"); (Tattr_value, txt "]]>")] [] [] [] []); [apply letter_name; vm_compute; split; discriminate| |constructor|constructor|constructor].
  apply (A_cons false (txt " ") (txt "b") [] [] 39 (txt "]]>") (txt "]]>") [] []); [split; [discriminate|repeat constructor]|apply letter_name; vm_compute; split; discriminate|constructor|constructor|right; reflexivity|vm_compute; intuition discriminate|apply ascii_attr; asciis|discriminate|constructor].
Qed.

(** ** C114 *)
Definition types (ts : list token) : list ttype := map t_type ts.
(** An end tag before every start tag. *)
Definition stray (l : list ttype) : Prop := exists a b, l = a ++ Tclose :: b /\ Forall (fun t => In t [Tcomment; Tpi]) a.
Definition is_type (a b : ttype) : bool := match a, b with
  | Teof, Teof | Terror, Terror | Topen, Topen | Tclose, Tclose | Tattr_name, Tattr_name | Tattr_value, Tattr_value | Tcontents, Tcontents | Tcdata, Tcdata | Tcomment, Tcomment | Tpi, Tpi => true | _, _ => false end.
Definition many (t : ttype) (l : list ttype) : nat := length (filter (is_type t) l).
Definition within (s : state) : N := match s with STag d | SValue d | SBody d => d | _ => 0 end.
Lemma follows_depth : forall s t s1, follows s t s1 -> s1 <> SStop -> within s + N.of_nat (many Topen [t]) = within s1 + N.of_nat (many Tclose [t]).
Proof.
  intros s t s1 F N0. destruct F as [s t _ I| | | |d s t [-> | ->] I|d s [-> | ->]|d s [-> | ->]| | |]; try contradiction; cbn [In] in *;
    repeat match goal with H : _ \/ _ |- _ => destruct H | H : _ = t |- _ => subst t | H : False |- _ => destruct H end; cbn; try lia;
    unfold closed; destruct (N.eqb_spec d 0); subst; cbn [within]; lia.
Qed.
Lemma many_cons : forall t x l, many t (x :: l) = (many t [x] + many t l)%nat.
Proof. intros t x l. unfold many. cbn [filter]. destruct (is_type t x); reflexivity. Qed.
Lemma walk_depth : forall s l s1, walk s l s1 -> s1 <> SStop -> within s + N.of_nat (many Topen l) = within s1 + N.of_nat (many Tclose l).
Proof.
  intros s l s1 W. induction W as [s|s t s1 ts s2 F W IH|ts]; intros N0; [cbn; lia| |contradiction].
  assert (N1 : s1 <> SStop) by (intros ->; apply N0; exact (stop_walk _ _ W)). specialize (IH N0). pose proof (follows_depth _ _ _ F N1). rewrite (many_cons Topen), (many_cons Tclose). lia.
Qed.
Lemma walk_on : forall s l s1, walk s l s1 -> s <> SStop -> ~ In Terror l -> (s = SProlog -> ~ stray l) -> s1 <> SStop.
Proof.
  intros s l s1 W. induction W as [s|s t s1 ts s2 F W IH|ts]; intros N0 N1 N2; [exact N0| |contradiction]. apply IH.
  - intros ->. inversion F as [s0 t0 I0| | | |d0 s0 t0 I0|d0 s0 I0|d0 s0 I0 E1|d0| |]; subst; cbn [In] in *; try (unfold closed in *; match goal with H : context [if ?b then _ else _] |- _ => destruct b end; discriminate).
    + destruct I0 as [I0|[I0|[]]]; congruence.
    + apply N1. left. reflexivity.
    + apply (N2 eq_refl). exists [], ts. split; [reflexivity|constructor].
  - intros K. apply N1. right. exact K.
  - intros -> (a & b & -> & Fa). assert (s = SProlog /\ In t [Tcomment; Tpi]) as [-> It].
    { inversion F as [s0 t0 I0 I1| | | |d0 s0 t0 I0|d0 s0 I0|d0 s0 I0 E1|d0| |]; subst; try (unfold closed in *; match goal with H : context [if ?b then _ else _] |- _ => destruct b end; discriminate). split; [reflexivity|exact I1]. }
    apply (N2 eq_refl). exists (t :: a), b. split; [reflexivity|constructor; assumption].
Qed.
Lemma classic_stray : forall l, stray l \/ ~ stray l.
Proof.
  intros l0. induction l0 as [|t l IH]; [right; intros (a & b & E & _); destruct a; discriminate|]. destruct t; try (right; intros (a & b & E & F); destruct a as [|x a]; [discriminate|]; injection E as <- _; apply Forall_inv in F; cbn [In] in F; intuition discriminate).
    - left. exists [], l. split; [reflexivity|constructor].
    - destruct IH as [(a & b & -> & F)|IH]; [left; exists (Tcomment :: a), b; split; [reflexivity|constructor; [cbn; tauto|exact F]]|right]. intros (a & b & E & F). apply IH. destruct a as [|x a]; [discriminate|]. injection E as <- ->. exists a, b. split; [reflexivity|exact (Forall_inv_tail F)].
    - destruct IH as [(a & b & -> & F)|IH]; [left; exists (Tpi :: a), b; split; [reflexivity|constructor; [cbn; tauto|exact F]]|right]. intros (a & b & E & F). apply IH. destruct a as [|x a]; [discriminate|]. injection E as <- ->. exists a, b. split; [reflexivity|exact (Forall_inv_tail F)]. 
Qed.
Lemma classic_error : forall l, In Terror l \/ ~ In Terror l.
Proof. intros l. destruct (in_dec (fun x y : ttype => ltac:(decide equality) : {x = y} + {x <> y}) Terror l); tauto. Qed.
Lemma end_follows : forall t s, follows SEnd t s -> s = SStop.
Proof.
  intros t s F. inversion F as [s0 t0 I0| | | |d0 s0 t0 I0|d0 s0 I0|d0 s0 I0| | |]; subst; try reflexivity; cbn [In] in *.
  all: repeat match goal with H : _ \/ _ |- _ => destruct H | H : False |- _ => destruct H end; discriminate.
Qed.
(** The tokens of any document, well-formed or not, come in the order of the grammar, up to the first error token and
    except for a stray end tag. *)
Theorem C114_order_partial : forall alloc doc flags ts r', calls alloc (make_reader doc flags) ts r' -> exists st, walk SProlog (types ts) st /\ (~ In Terror (types ts) -> ~ stray (types ts) -> st <> SStop).
Proof.
  intros alloc doc flags ts r' C. destruct (run alloc doc _ _ _ C SProlog 0 (nest_start doc flags) (stands_start doc flags)) as (st & W & _). exists st. split; [exact W|]. intros N1 N2. apply (walk_on _ _ _ W); [discriminate|exact N1|intros _; exact N2].
Qed.
(** Never more end tags than start tags, and as many at the end of the document. *)
Theorem C114_balance_partial : forall alloc doc flags ts r', calls alloc (make_reader doc flags) ts r' -> ~ In Terror (types ts) -> ~ stray (types ts) ->
  (many Tclose (types ts) <= many Topen (types ts))%nat /\ (In Teof (types ts) -> many Tclose (types ts) = many Topen (types ts)).
Proof.
  intros alloc doc flags ts r' C N1 N2. destruct (C114_order_partial _ _ _ _ _ C) as (st & W & N0). specialize (N0 N1 N2). pose proof (walk_depth _ _ _ W N0) as D. cbn [within] in D. split; [lia|]. intros K.
  enough (st = SEnd) by (subst st; cbn [within] in D; lia). clear D. revert K. generalize (types ts) W N0. clear. intros l W N0.
  induction W as [s|s t s1 ts s2 F W IH|ts]; intros K; [destruct K| |contradiction]. specialize (IH N0). destruct K as [-> |K]; [|exact (IH K)].
  inversion F as [s0 t0 I0 I1| | | |d0 s0 t0 I0 I1|d0 s0 I0|d0 s0 I0 E1|d0| |]; subst; try (cbn [In] in I1; repeat destruct I1 as [I1|I1]; try discriminate; destruct I1).
  inversion W as [s3|s3 t3 s4 ts3 s5 F3 W3|]; subst; [reflexivity|]. apply end_follows in F3. subst. exfalso. apply N0. exact (stop_walk _ _ W3).
Qed.
Example C114_example : option_map (fun x => types (fst x)) (read_all 20 plenty (make_reader (txt "<a><b c='d'></b>e</x> <!--f-->") 0)) = Some [Topen; Topen; Tattr_name; Tattr_value; Tclose; Tcontents; Tclose; Tcomment; Teof].
Proof. vm_compute. reflexivity. Qed.
(** An end tag without start tag. *)
Theorem C114_stray_refuted : exists doc ts r', calls plenty (make_reader doc 0) ts r' /\ types ts = [Tclose].
Proof. exists (txt "</a>"). do 2 eexists. split; [eapply R_cons; [vm_compute; reflexivity|constructor]|reflexivity]. Qed.

(** ** C115 *)
Theorem C115_defined_partial : forall alloc doc flags ts r', calm flags doc -> calls alloc (make_reader doc flags) ts r' -> next_token alloc r' <> None.
Proof. intros alloc doc flags ts r' C K. destruct (next_done alloc doc flags C r' (calls_fine alloc doc flags C _ _ _ K (start_fine doc flags))) as (m & r2 & E & _). rewrite E. discriminate. Qed.
Example C115_example : calm 15 (txt "<a b='" ++ repeat 98 200 ++ txt "'>" ++ repeat 99 300 ++ txt "&lt;</a><").
Proof.
  assert (F : forallb (fun c => c <? 128) (txt "<a b='" ++ repeat 98 200 ++ txt "'>" ++ repeat 99 300 ++ txt "&lt;</a><") = true) by (vm_compute; reflexivity). rewrite forallb_forall in F.
  split; [apply Forall_forall; intros c K; apply F in K; apply N.ltb_lt in K; lia|]. right. split; [apply Forall_forall; intros c K; apply F in K; apply N.ltb_lt in K; exact K|]. split; [|right; reflexivity].
  intros (a & b & E). assert (K : In 35 (txt "<a b='" ++ repeat 98 200 ++ txt "'>" ++ repeat 99 300 ++ txt "&lt;</a><")) by (rewrite E; apply in_or_app; right; right; left; reflexivity).
  assert (Q : existsb (N.eqb 35) (txt "<a b='" ++ repeat 98 200 ++ txt "'>" ++ repeat 99 300 ++ txt "&lt;</a><") = true) by (apply existsb_exists; exists 35; split; [exact K|reflexivity]). vm_compute in Q. discriminate.
Qed.
(** The assertion on the needed size fails: 63 letters and one character of two bytes. *)
Theorem C115_assertion_refuted : exists doc ts r', bytes doc /\ calls plenty (make_reader doc 0) ts r' /\ next_token plenty r' = None.
Proof.
  exists (txt "<a>" ++ repeat 120 63 ++ [195; 169] ++ txt "</a>"). do 2 eexists. split; [apply Forall_forall; intros c K; assert (F : forallb (fun c => c <? 256) (txt "<a>" ++ repeat 120 63 ++ [195; 169] ++ txt "</a>") = true) by (vm_compute; reflexivity); rewrite forallb_forall in F; apply N.ltb_lt, F, K|].
  split; [eapply R_cons; [vm_compute; reflexivity|constructor]|vm_compute; reflexivity].
Qed.

(** ** C116 *)
Theorem C116_bound_partial : forall alloc doc flags ts r', calls alloc (make_reader doc flags) ts r' -> ~ In Terror (types ts) -> ~ stray (types ts) -> (length ts <= length doc + 1)%nat.
Proof.
  intros alloc doc flags ts r' C N1 N2. destruct (run alloc doc _ _ _ C SProlog 0 (nest_start doc flags) (stands_start doc flags)) as (st & W & _ & [-> |L] & _); [|exact L]. exfalso. revert W. fold (types ts). intros W. apply (walk_on _ _ _ W); try discriminate; auto.
Qed.
Theorem C116_ends_partial : forall alloc doc flags, calm flags doc -> exists ts r', calls alloc (make_reader doc flags) ts r' /\ (length ts <= length doc + 2)%nat /\
  (In Terror (types ts) \/ stray (types ts) \/ exists r2, next_token alloc r' = Some (false, r2)).
Proof.
  intros alloc doc flags C. destruct (calls_until alloc doc flags (length doc + 2) C) as (ts & r' & K & L & D). exists ts, r'. split; [exact K|]. split; [exact L|]. destruct D as [D|D]; [|right; right; exact D].
  destruct (classic_error (types ts)) as [De|De]; [left; exact De|].
  destruct (classic_stray (types ts)) as [Ds|Ds]; [right; left; exact Ds|]. exfalso. pose proof (C116_bound_partial _ _ _ _ _ K De Ds). lia.
Qed.
Example C116_example : option_map (fun x => types (fst x)) (read_all 20 plenty (make_reader (txt "<a><b></c><d") 0)) = Some [Topen; Topen; Tclose; Topen].
Proof. vm_compute. reflexivity. Qed.
Lemma forever : forall alloc r, next_token alloc r = Some (true, r) -> forall n, calls alloc r (repeat (r_current r) n) r.
Proof. intros alloc r H n. induction n as [|n IH]; [constructor|]. exact (R_cons alloc r r _ r H IH). Qed.
(** A stray end tag is delivered again and again; so is the error for a comment with '&' behind the root element. *)
Theorem C116_stray_refuted : exists doc, forall n, exists ts r', calls plenty (make_reader doc 0) ts r' /\ length ts = S n.
Proof.
  exists (txt "</a>"). intros n. assert (H : exists r, next_token plenty (make_reader (txt "</a>") 0) = Some (true, r) /\ next_token plenty r = Some (true, r)) by (eexists; split; [vm_compute; reflexivity|vm_compute; reflexivity]).
  destruct H as (r & A & B). exists (r_current r :: repeat (r_current r) n), r. split; [exact (R_cons _ _ _ _ _ A (forever _ _ B n))|cbn [length]; rewrite repeat_length; reflexivity].
Qed.
Theorem C116_comment_refuted : exists doc, forall n, exists ts r', calls plenty (make_reader doc 0) (ts) r' /\ length ts = S (S (S n)) /\ types ts = [Topen; Tclose] ++ repeat Terror (S n).
Proof.
  exists (txt "<a/><!--&-->"). intros n. assert (H : exists r1 r2 r3, next_token plenty (make_reader (txt "<a/><!--&-->") 0) = Some (true, r1) /\ next_token plenty r1 = Some (true, r2) /\ next_token plenty r2 = Some (true, r3) /\ next_token plenty r3 = Some (true, r3) /\ types [r_current r1; r_current r2; r_current r3] = [Topen; Tclose; Terror]) by (do 3 eexists; split; [vm_compute; reflexivity|split; [vm_compute; reflexivity|split; [vm_compute; reflexivity|split; [vm_compute; reflexivity|reflexivity]]]]).
  destruct H as (r1 & r2 & r3 & A & B & C & D & T). exists (r_current r1 :: r_current r2 :: r_current r3 :: repeat (r_current r3) n), r3. split; [exact (R_cons _ _ _ _ _ A (R_cons _ _ _ _ _ B (R_cons _ _ _ _ _ C (forever _ _ D n))))|]. split; [cbn [length]; rewrite repeat_length; reflexivity|].
  unfold types in *. cbn [map] in *. injection T as -> -> T3. rewrite T3. cbn [app]. do 2 f_equal. cbn [repeat]. f_equal. rewrite <- T3. clear. induction n as [|n IH]; [reflexivity|cbn [repeat map]; rewrite IH; reflexivity].
Qed.

(** ** C117 *)
(** The place of a token in the document: its line is right; its offset is too small by the number of attribute values before it. *)
Theorem C117_place_partial : forall alloc doc flags ts r' a t b, calls alloc (make_reader doc flags) ts r' -> ts = a ++ t :: b -> ~ In Terror (types a) -> ~ stray (types a) ->
  exists p s, doc = p ++ s /\ same32 (line (t_loc t)) (newlines p) /\ same32 (offset (t_loc t) + N.of_nat (many Tattr_value (types a))) (N.of_nat (length p))
    /\ (In (t_type t) [Topen; Tattr_name; Tpi] -> begins (t_text t) s).
Proof.
  intros alloc doc flags ts r' a t b C E N1 N2. destruct (run alloc doc _ _ _ C SProlog 0 (nest_start doc flags) (stands_start doc flags)) as (st & W & _ & _ & L).
  destruct (L a t b E) as (tk & (p & M1 & M2 & M3) & Lt & B).
  - assert (Wa : forall s x y s', walk s (x ++ y) s' -> exists s1, walk s x s1).
    { clear. intros s x. revert s. induction x as [|u x IH]; intros s y s' W; [exists s; constructor|]. cbn [app] in W. inversion W as [|s0 t0 s1 ts0 s2 F W0|]; subst; [destruct (IH _ _ _ W0) as [s3 W3]; exists s3; exact (W_cons _ _ _ _ _ F W3)|]. exists SStop. constructor. }
    rewrite E, map_app in W. destruct (Wa _ _ _ _ W) as [s1 W1]. exists s1. split; [exact W1|]. apply (walk_on _ _ _ W1); [discriminate|exact N1|intros _; exact N2].
  - cbn [cur at_ line offset] in *. exists p, (cur tk). split; [exact M1|]. rewrite Lt. split; [exact M2|]. split; [|exact B].
    replace (N.of_nat (many Tattr_value (types a))) with (0 + lags a); [exact M3|]. clear. induction a as [|x a IH]; [reflexivity|]. cbn [types map]. rewrite many_cons. cbn [lags fold_right]. fold (lags a). unfold types in IH. destruct (t_type x); cbn [lag many filter is_type length] in *; lia.
Qed.
Example C117_example : option_map (fun x => map (fun t => (line (t_loc t), offset (t_loc t))) (fst x)) (read_all 20 plenty (make_reader (txt "<a>" ++ [10] ++ txt "<b/></a>") 0)) = Some [(0, 1); (0, 3); (1, 5); (1, 6); (1, 10); (1, 12)].
Proof. vm_compute. reflexivity. Qed.
(** The second attribute is at offset 9, the tag in column 11. *)
Theorem C117_offset_refuted : exists doc ts r' a t b, calls plenty (make_reader doc 0) ts r' /\ ts = a ++ t :: b /\ doc = txt "<a b='c' d='e'></a>" /\ t_text t = txt "d" /\ offset (t_loc t) = 8.
Proof.
  exists (txt "<a b='c' d='e'></a>"). destruct (read_all 20 plenty (make_reader (txt "<a b='c' d='e'></a>") 0)) as [[ts r']|] eqn:E; [|vm_compute in E; discriminate]. destruct (read_calls _ _ _ _ _ E) as (r1 & C & _).
  exists ts, r1, (firstn 3 ts), (nth 3 ts (make_error (Tk [] (Loc 0 0 0)))), (skipn 4 ts). split; [exact C|]. vm_compute in E. injection E as <- <-. repeat split; reflexivity.
Qed.
Theorem C117_column_refuted : exists doc ts r' a t b, calls plenty (make_reader doc 0) ts r' /\ ts = a ++ t :: b /\ doc = txt "<!-- x --><a></a>" /\ t_text t = txt "a" /\ t_type t = Topen /\ column (t_loc t) = 7.
Proof.
  exists (txt "<!-- x --><a></a>"). destruct (read_all 20 plenty (make_reader (txt "<!-- x --><a></a>") 0)) as [[ts r']|] eqn:E; [|vm_compute in E; discriminate]. destruct (read_calls _ _ _ _ _ E) as (r1 & C & _).
  exists ts, r1, (firstn 1 ts), (nth 1 ts (make_error (Tk [] (Loc 0 0 0)))), (skipn 2 ts). split; [exact C|]. vm_compute in E. injection E as <- <-. repeat split; reflexivity.
Qed.

(** ** C118 *)
Theorem C118_declaration_partial : forall alloc flags s v e sd doc evs, all_memory alloc -> quiet flags -> declaration true s v e sd -> document true doc evs ->
  exists r, read_prolog (make_reader (s ++ doc) flags) = Some (true, Prolog v e (match sd with Some _ => true | None => false end) true true false, r)
    /\ exists fuel ts r', read_all fuel alloc r = Some (ts, r') /\ map ev ts = evs ++ [(Teof, [])].
Proof. intros alloc flags s v e sd doc evs M Q D H. destruct (prolog_read s v e sd doc evs flags D H) as [l E]. eexists. split; [exact E|]. exact (after_prolog alloc flags doc evs l M Q H _). Qed.
Theorem C118_doctype_partial : forall alloc flags s v e sd a dt doc evs, all_memory alloc -> quiet flags -> declaration true s v e sd -> remarks a -> doctype dt -> document true doc evs ->
  exists r, read_prolog (make_reader (s ++ a ++ dt ++ doc) flags) = Some (true, Prolog v e (match sd with Some _ => true | None => false end) true true true, r)
    /\ exists fuel ts r', read_all fuel alloc r = Some (ts, r') /\ map ev ts = evs ++ [(Teof, [])].
Proof. intros alloc flags s v e sd a dt doc evs M Q D R T H. destruct (prolog_type_read s v e sd a dt doc flags D R T) as [l E]. eexists. split; [exact E|]. exact (after_prolog alloc flags doc evs l M Q H _). Qed.
Theorem C118_only_doctype_partial : forall alloc flags a dt doc evs, all_memory alloc -> quiet flags -> remarks a -> doctype dt -> document true doc evs ->
  exists r, read_prolog (make_reader (a ++ dt ++ doc) flags) = Some (true, Prolog [] [] false false false true, r)
    /\ exists fuel ts r', read_all fuel alloc r = Some (ts, r') /\ map ev ts = evs ++ [(Teof, [])].
Proof. intros alloc flags a dt doc evs M Q R T H. destruct (no_prolog_type_read a dt doc flags R T) as [l E]. eexists. split; [exact E|]. exact (after_prolog alloc flags doc evs l M Q H _). Qed.
Theorem C118_absent_partial : forall flags doc evs, document true doc evs -> ~ begins [60; 63] doc -> read_prolog (make_reader doc flags) = Some (true, Prolog [] [] false false false false, make_reader doc flags).
Proof. exact (fun flags doc evs H B => no_prolog_read doc evs flags H B). Qed.
Lemma ps : forall nm v, pseudo nm v ([32] ++ nm ++ [] ++ [61] ++ [] ++ [34] ++ v ++ [34]).
Proof. intros nm v. apply (Pseudo nm v [32] [] [] 34); [split; [discriminate|repeat constructor]|constructor|constructor|left; reflexivity]. Qed.
Definition declared (b : bool) : list N := [60; 63; 120; 109; 108] ++ ([32] ++ txt "version" ++ [] ++ [61] ++ [] ++ [34] ++ txt "1.0" ++ [34]) ++ ([32] ++ txt "encoding" ++ [] ++ [61] ++ [] ++ [34] ++ txt "UTF-8" ++ [34]) ++ ([32] ++ txt "standalone" ++ [] ++ [61] ++ [] ++ [34] ++ yes_no b ++ [34]) ++ [] ++ [63; 62].
Lemma declared_is : forall b, declaration (b : bool) (declared b) (txt "1.0") (txt "UTF-8") (Some b).
Proof.
  intros b. apply X_declaration; [apply ps| | | |constructor|intros -> K; discriminate].
  - split; [discriminate|]. apply Forall_forall. intros c K. vm_compute in K. unfold letter, dec_digit. cbn [In]. intuition (subst; lia).
  - right. split; [|apply ps]. exists 85, (txt "TF-8"). split; [reflexivity|]. split; [unfold letter; lia|]. apply Forall_forall. intros c K. vm_compute in K. unfold letter, dec_digit. cbn [In]. intuition (subst; lia).
  - right. exists b. split; [reflexivity|apply ps].
Qed.
Example C118_example_hypotheses : declaration true (declared true) (txt "1.0") (txt "UTF-8") (Some true) /\ doctype (txt "<!DOCTYPE a [<!ELEMENT a ANY>]>").
Proof.
  split; [exact (declared_is true)|]. change (txt "<!DOCTYPE a [<!ELEMENT a ANY>]>") with ([60; 33; 68; 79; 67; 84; 89; 80; 69] ++ txt " a [<!ELEMENT a ANY>]" ++ [62]). constructor.
  change (txt " a [<!ELEMENT a ANY>]") with (32 :: 97 :: 32 :: 91 :: 60 :: txt "!ELEMENT a ANY" ++ 62 :: [93]). repeat (apply BA_char; [discriminate|discriminate|]). apply BA_nest; repeat (apply BA_char; [discriminate|discriminate|]); constructor.
Qed.
Example C118_example : option_map (fun x => (fst x, cur (r_tk (snd x)))) (read_prolog (make_reader (declared true ++ txt " <!-- x --><!DOCTYPE a [<!ELEMENT a ANY>]><a/>") 0)) = Some (true, Prolog (txt "1.0") (txt "UTF-8") true true true true, txt "<a/>").
Proof. vm_compute. reflexivity. Qed.
Lemma a_document : document true (txt "<a/>") [(Topen, txt "a"); (Tclose, txt "a")].
Proof. apply one_element. exact (empty_element true 97 ltac:(lia)). Qed.
(** standalone="no" is rejected. *)
Theorem C118_standalone_refuted : exists s v e sd doc evs, declaration false s v e sd /\ document true doc evs /\ option_map (fun x => fst (fst x)) (read_prolog (make_reader (s ++ doc) 0)) = Some false.
Proof. exists (declared false). do 5 eexists. split; [exact (declared_is false)|]. split; [exact a_document|]. vm_compute. reflexivity. Qed.
(** A declaration that is not one. *)
Theorem C118_garbage_refuted : option_map (fun x => fst (fst x)) (read_prolog (make_reader (txt "<?xml version='1.0' 1?><a/>") 0)) = Some true /\ ~ exists s v e sd doc, declaration false s v e sd /\ txt "<?xml version='1.0' 1?><a/>" = s ++ doc.
Proof.
  split; [vm_compute; reflexivity|]. intros (s & v & e & sd & doc & D & E).
  destruct D as [v s1 e s2 sd s3 w P1 V1 P2 P3 W _]. destruct P1 as [w0 w1 w2 q [W0 W0'] W1 W2 Q].
  assert (Sp : forall x, spaces x -> Forall (fun c => In c [32; 9; 13; 10]) x) by (intros x Hx; eapply Forall_impl; [|exact Hx]; intros c Hc; unfold space in Hc; cbn [In]; intuition).
  change (txt "<?xml version='1.0' 1?><a/>") with ([60; 63; 120; 109; 108] ++ [32; 118; 101; 114; 115; 105; 111; 110; 61; 39; 49; 46; 48; 39; 32; 49; 63; 62; 60; 97; 47; 62]) in E. rewrite <- !app_assoc in E. apply app_inv_head in E.
  destruct w0 as [|c0 w0]; [contradiction|]. destruct w0 as [|c1 w0]; [|exfalso; cbn [app] in E; injection E as _ E1 _; apply Forall_inv_tail, Forall_inv in W0'; unfold space in W0'; lia].
  cbn [app] in E. injection E as _ E. destruct w1 as [|c1 w1]; [|exfalso; cbn [app] in E; injection E as E1 _; apply Forall_inv in W1; unfold space in W1; lia].
  cbn [app] in E. injection E as E. destruct w2 as [|c1 w2]; [|exfalso; cbn [app] in E; injection E as E1 _; apply Forall_inv in W2; unfold space in W2; lia].
  cbn [app] in E. injection E as Eq E. subst q. destruct V1 as [V0 V1].
  assert (Nq : ~ In 39 v) by (intros K; rewrite Forall_forall in V1; specialize (V1 39 K); unfold letter, dec_digit in V1; cbn [In] in V1; lia).
  assert (Ev : v = [49; 46; 48] /\ s2 ++ s3 ++ w ++ [63; 62] ++ doc = [32; 49; 63; 62; 60; 97; 47; 62]).
  { destruct v as [|a1 [|a2 [|a3 [|a4 v]]]]; cbn [app] in E; try contradiction; try (exfalso; congruence).
    - split; [congruence|]. cbn [app]. congruence.
    - exfalso. apply Nq. cbn [In]. right. right. right. left. congruence. }
  destruct Ev as [-> Ev]. clear E.
  assert (G2 : s2 = []). { destruct P2 as [[_ ->]|[_ P2]]; [reflexivity|]. exfalso. destruct P2 as [w0 w1 w2' q [X0 X0'] _ _ _]. destruct w0 as [|d0 [|d1 w0]]; [contradiction| |]; cbn [app] in Ev; injection Ev; intros; subst; try discriminate. apply Forall_inv_tail, Forall_inv in X0'. unfold space in X0'. lia. }
  assert (G3 : s3 = []). { subst s2. destruct P3 as [[_ ->]|(b & _ & P3)]; [reflexivity|]. exfalso. destruct P3 as [w0 w1 w2' q [X0 X0'] _ _ _]. destruct w0 as [|d0 [|d1 w0]]; [contradiction| |]; cbn [app] in Ev; injection Ev; intros; subst; try discriminate. apply Forall_inv_tail, Forall_inv in X0'. unfold space in X0'. lia. }
  subst s2 s3. cbn [app] in Ev. destruct w as [|d0 [|d1 w]]; cbn [app] in Ev; injection Ev; intros; subst; try discriminate. apply Forall_inv_tail, Forall_inv in W. unfold space in W. lia.
Qed.
(** Another instruction in front of the document or of the document type. *)
Theorem C118_instruction_refuted : option_map (fun x => fst (fst x)) (read_prolog (make_reader (txt "<?p q?><a/>") 0)) = Some false /\ option_map (fun x => fst (fst x)) (read_prolog (make_reader (txt "<?xml version='1.0'?><?p q?><!DOCTYPE a><a/>") 0)) = Some true
  /\ option_map (fun x => p_doctype (snd (fst x))) (read_prolog (make_reader (txt "<?xml version='1.0'?><?p q?><!DOCTYPE a><a/>") 0)) = Some false.
Proof. repeat split; vm_compute; reflexivity. Qed.

(** ** C119 *)
Theorem C119_copy_partial : forall alloc s, (forall n, alloc n = true) -> exists b, copy_string alloc s = Some b /\ firstn (length s) b = s /\ (s = [] -> b = [0]).
Proof. intros alloc s M. unfold copy_string. destruct s as [|c s]; rewrite M; eexists; (split; [reflexivity|]); (split; [|try reflexivity; discriminate]); [reflexivity|]. apply firstn_all. Qed.
Theorem C119_memory : forall s, copy_string (fun _ => false) s = None.
Proof. intros [|c s]; reflexivity. Qed.
(** The copy of a text that is not empty has no terminator. *)
Theorem C119_terminator_refuted : forall alloc s b, s <> [] -> ~ In 0 s -> copy_string alloc s = Some b -> ~ In 0 b.
Proof. intros alloc s b N0 N1 H. unfold copy_string in H. destruct s as [|c s]; [contradiction|]. destruct (alloc _); [|discriminate]. congruence. Qed.
Example C119_example : copy_string plenty (txt "abc") = Some (txt "abc") /\ copy_string plenty [] = Some [0].
Proof. split; vm_compute; reflexivity. Qed.

(** ** C120 *)
Lemma walk_end : forall s l, walk s l SEnd -> s <> SEnd -> exists a, l = a ++ [Teof].
Proof.
  intros s l W. remember SEnd as e eqn:Ee. induction W as [s|s t s1 ts s2 F W IH|ts]; intros N0; [contradiction| |discriminate]. subst s2. destruct s1.
  6:{ assert (t = Teof) as ->. { inversion F as [s0 t0 I0 I1| | | |d0 s0 t0 I0 I1|d0 s0 I0|d0 s0 I0 E1|d0| |]; subst; try reflexivity; [cbn [In] in I0; repeat destruct I0 as [I0|I0]; try discriminate; destruct I0|unfold closed in *; destruct (d0 =? 0); discriminate]. }
      inversion W as [s3|s3 t3 s4 ts3 s5 F3 W3|]; subst; [exists []; reflexivity|]. apply end_follows in F3. subst. apply stop_walk in W3. discriminate. }
  all: destruct (IH eq_refl ltac:(discriminate)) as [a ->]; exists (t :: a); reflexivity.
Qed.
(** How the loop ends: with the token for the end of the document, nothing being left, or in the state of an error, or
    there was an error token or a stray end tag. *)
Theorem C120_end_partial : forall alloc doc flags fuel ts r', read_all fuel alloc (make_reader doc flags) = Some (ts, r') ->
  (exists a t s, ts = a ++ [t] /\ t_type t = Teof /\ cur (r_tk r') = s /\ chr s = 0) \/ r_context r' = Xerror \/ In Terror (types ts) \/ stray (types ts).
Proof.
  intros alloc doc flags fuel ts r' H. destruct (read_calls _ _ _ _ _ H) as (r1 & C & E). destruct (run alloc doc _ _ _ C SProlog 0 (nest_start doc flags) (stands_start doc flags)) as (st & W & K & _).
  destruct (classic_error (types ts)) as [De|De]; [right; right; left; exact De|].
  destruct K as [-> |[X|[Ne Sd]]].
  - right. right. right. destruct (classic_stray (types ts)) as [Q|Q]; [exact Q|]. exfalso. fold (types ts) in W. apply (walk_on _ _ _ W); try discriminate; auto.
  - right. left. unfold next_token in E. rewrite X in E. assert (r' = with_current (with_context r1 Xerror) (make_error (r_tk r1))) as -> by congruence. reflexivity.
  - left. assert (st = SEnd) as ->. { destruct st; try reflexivity; exfalso; destruct (call_good alloc doc _ _ _ _ _ Ne ltac:(discriminate) Sd E) as [Q _]; discriminate. }
    destruct (walk_end _ _ W ltac:(discriminate)) as [a Ea]. destruct (exists_last (l := ts)) as (ts0 & t & ->); [intros ->; destruct a; discriminate|]. exists ts0, t, (cur (r_tk r')). split; [reflexivity|]. rewrite map_app in Ea. cbn [map] in Ea. apply app_inj_tail in Ea. split; [apply Ea|]. split; [reflexivity|].
    destruct Ne as (X & Z & _). unfold next_token in E. rewrite X in E. assert (r' = with_context (with_current (with_context r1 Xerror) (make_error (r_tk r1))) Xeof) as -> by congruence. exact Z.
Qed.
Example C120_example : option_map (fun x => types (fst x)) (read_all 20 plenty (make_reader (txt "<a>b</a> ") 0)) = Some [Topen; Tcontents; Tclose; Teof].
Proof. vm_compute. reflexivity. Qed.
(** Neither the end of the document nor an error is reported. *)
Theorem C120_silent_refuted : exists doc ts r', read_all 20 plenty (make_reader doc 0) = Some (ts, r') /\ types ts = [Topen; Tclose] /\ doc = txt "<a></a".
Proof. do 3 eexists. split; [|split; [|reflexivity]]; [vm_compute; reflexivity|reflexivity]. Qed.

Print Assumptions C110_unescape_partial.
Print Assumptions C110_character_data_partial.
Print Assumptions C110_rejected_partial.
Print Assumptions C110_reference_modulo_refuted.
Print Assumptions C110_encoding_refuted.
Print Assumptions C110_long_reference_refuted.
Print Assumptions C111_memory_partial.
Print Assumptions C111_sizes_partial.
Print Assumptions C111_needed_size_refuted.
Print Assumptions C111_overread_refuted.
Print Assumptions C111_terminator_refuted.
Print Assumptions C112_flags_partial.
Print Assumptions C112_defined.
Print Assumptions C112_reference_refuted.
Print Assumptions C112_carriage_return_refuted.
Print Assumptions C112_control_refuted.
Print Assumptions C112_token_partial.
Print Assumptions C113_tokens_partial.
Print Assumptions C113_empty_element_refuted.
Print Assumptions C113_close_name_refuted.
Print Assumptions C113_comment_refuted.
Print Assumptions C113_bracket_refuted.
Print Assumptions C114_order_partial.
Print Assumptions C114_balance_partial.
Print Assumptions C114_stray_refuted.
Print Assumptions C115_defined_partial.
Print Assumptions C115_assertion_refuted.
Print Assumptions C116_bound_partial.
Print Assumptions C116_ends_partial.
Print Assumptions C116_stray_refuted.
Print Assumptions C116_comment_refuted.
Print Assumptions C117_place_partial.
Print Assumptions C117_offset_refuted.
Print Assumptions C117_column_refuted.
Print Assumptions C118_declaration_partial.
Print Assumptions C118_doctype_partial.
Print Assumptions C118_only_doctype_partial.
Print Assumptions C118_absent_partial.
Print Assumptions C118_standalone_refuted.
Print Assumptions C118_garbage_refuted.
Print Assumptions C118_instruction_refuted.
Print Assumptions C119_copy_partial.
Print Assumptions C119_memory.
Print Assumptions C119_terminator_refuted.
Print Assumptions C120_end_partial.
Print Assumptions C120_silent_refuted.
