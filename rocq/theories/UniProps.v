(** Properties of the UTF-8 / UTF-16 functions of tm_unicode.h. *)
From Coq Require Import Arith NArith ZArith List Bool Lia ZifyBool ZifyNat ZifyN.
From Verif Require Import Base CodecModel CodecProofs UniModel UniSpec UniProofs UniValid UniConv UniTop UniText UniMore.
Import ListNotations.
Local Open Scope N_scope.

(** The loop of a client: extract until it fails; the codepoints and the stream. *)
Fixpoint extract_all (extract : list N -> option (bool * N * list N)) (fuel : nat) (s : list N) : option (list N * list N) :=
  match fuel with
  | O => None
  | S fuel' =>
      ' (ok, cp, s') <- extract s ;;
      if (ok : bool) then ' (vs, rest) <- extract_all extract fuel' s' ;; Some (cp :: vs, rest) else Some ([], s')
  end.
Lemma extract_all_spec : forall (seq : N -> list N -> Prop) extract vs us fuel, (forall v ch rest, seq v ch -> extract (ch ++ rest) = Some (true, v, rest)) ->
  (exists cp, extract [] = Some (false, cp, [])) -> seq_nonempty seq -> encodes seq vs us -> (length us < fuel)%nat -> extract_all extract fuel us = Some (vs, []).
Proof.
  intros seq extract vs us fuel X [cp X0] ne E. revert fuel. induction E as [|v vs ch us S E IH]; intros fuel Hf; (destruct fuel as [|fuel]; [lia|]); cbn [extract_all].
  - rewrite X0. reflexivity.
  - rewrite (X v ch us S). pose proof (ne v ch S). rewrite app_length in Hf. rewrite IH by lia. reflexivity.
Qed.
Definition fits (us out : list N) : Prop := (length us <= length out)%nat.

(** C28 *)
Theorem C28_one_codepoint : forall v, scalar v -> exists ch, utf8_seq v ch /\ table37 ch /\ (1 <= length ch <= 4)%nat
  /\ (forall out, tmu_utf8_encode v out 0 (length out) = Some (length ch, if (length out <? length ch)%nat then out else ch ++ skipn (length ch) out))
  /\ (forall rest, tmu_utf8_extract (ch ++ rest) = Some (true, v, rest)).
Proof.
  intros v Sv. destruct (scalar_seq v Sv) as [ch H]. exists ch. split; [exact H|]. split; [apply (seq_table v ch H)|].
  split; [apply (seq_ne v ch H)|]. split; [|intros rest; apply extract_seq; exact H].
  intros out. destruct (utf8_encode_spec v out 0 (length out) Sv (le_n _)) as (ch' & H' & E). rewrite (seq_fun v ch' ch H' H) in E. exact E.
Qed.
Theorem C28_sequences : forall vs, Forall scalar vs -> exists us, encodes utf8_seq vs us
  /\ (forall out, fits us out -> exists o, append_all tmu_utf8_append vs (OStream out 0 0 OK) = Some (true, o)
        /\ o_size o = length us /\ firstn (o_size o) (o_data o) = us /\ skipn (o_size o) (o_data o) = skipn (length us) out)
  /\ (forall fuel, (length us < fuel)%nat -> extract_all tmu_utf8_extract fuel us = Some (vs, [])).
Proof.
  intros vs F. destruct (encodes_exists utf8_seq vs scalar_seq F) as [us E]. exists us. split; [exact E|]. split.
  - intros out Hf. unfold fits in Hf. destruct (append_all_spec utf8_seq tmu_utf8_encode utf8_encode_spec seq_fun utf8_ne seq_scalar vs us (OStream out 0 0 OK) E) as (o & A & _ & _ & R); [cbn; lia|].
    cbn [o_size o_data o_ec] in R. rewrite (proj2 (Nat.leb_le _ _)) in R by (cbn; lia). destruct R as (R1 & R2 & R3). exists o.
    split; [unfold tmu_utf8_append; rewrite A, R1; reflexivity|]. cbn [Nat.add] in R2. split; [exact R2|]. rewrite R2, R3. unfold splice. cbn [firstn app Nat.add].
    split; [rewrite firstn_app, Nat.sub_diag, firstn_all; cbn [firstn]; apply app_nil_r|rewrite skipn_app, Nat.sub_diag, skipn_all; reflexivity].
  - intros fuel Hf. apply (extract_all_spec utf8_seq); [intros; apply extract_seq; assumption|eexists; reflexivity|exact utf8_ne|exact E|exact Hf].
Qed.
(** Distinct texts have distinct encodings. *)
Theorem C28_injective : forall vs ws us, encodes utf8_seq vs us -> encodes utf8_seq ws us -> vs = ws.
Proof. intros vs ws us. apply (encodes_unique utf8_seq utf8_prefix utf8_ne). Qed.
Example C28_example : Forall scalar [0x24; 0xA3; 0x20AC; 0x10348]
  /\ append_all tmu_utf8_append [0x24; 0xA3; 0x20AC; 0x10348] (OStream (repeat 0 12) 0 0 OK)
     = Some (true, OStream [0x24; 0xC2; 0xA3; 0xE2; 0x82; 0xAC; 0xF0; 0x90; 0x8D; 0x88; 0; 0] 10 10 OK)
  /\ extract_all tmu_utf8_extract 20 [0x24; 0xC2; 0xA3; 0xE2; 0x82; 0xAC; 0xF0; 0x90; 0x8D; 0x88] = Some ([0x24; 0xA3; 0x20AC; 0x10348], []).
Proof. split; [repeat constructor; unfold scalar; lia|]. split; vm_compute; reflexivity. Qed.

(** C29 *)
Theorem C29_one_codepoint : forall v, scalar v -> exists ch, utf16_seq v ch /\ (1 <= length ch <= 2)%nat
  /\ (forall out, tmu_utf16_encode v out 0 (length out) = Some (length ch, if (length out <? length ch)%nat then out else ch ++ skipn (length ch) out))
  /\ (forall rest, tmu_utf16_extract (ch ++ rest) = Some (true, v, rest)).
Proof.
  intros v Sv. destruct (utf16_ex v Sv) as [ch H]. exists ch. split; [exact H|].
  split; [apply (utf16_ne v ch H)|]. split; [|intros rest; apply extract16_seq; exact H].
  intros out. destruct (utf16_encode_spec v out 0 (length out) Sv (le_n _)) as (ch' & H' & E). rewrite (utf16_fun v ch' ch H' H) in E. exact E.
Qed.
Theorem C29_sequences : forall vs, Forall scalar vs -> exists us, encodes utf16_seq vs us
  /\ (forall out, fits us out -> exists o, append_all tmu_utf16_append vs (OStream out 0 0 OK) = Some (true, o)
        /\ o_size o = length us /\ firstn (o_size o) (o_data o) = us /\ skipn (o_size o) (o_data o) = skipn (length us) out)
  /\ (forall fuel, (length us < fuel)%nat -> extract_all tmu_utf16_extract fuel us = Some (vs, [])).
Proof.
  intros vs F. destruct (encodes_exists utf16_seq vs utf16_ex F) as [us E]. exists us. split; [exact E|]. split.
  - intros out Hf. unfold fits in Hf. destruct (append_all_spec utf16_seq tmu_utf16_encode utf16_encode_spec utf16_fun utf16_ne' utf16_scalar vs us (OStream out 0 0 OK) E) as (o & A & _ & _ & R); [cbn; lia|].
    cbn [o_size o_data o_ec] in R. rewrite (proj2 (Nat.leb_le _ _)) in R by (cbn; lia). destruct R as (R1 & R2 & R3). exists o.
    split; [unfold tmu_utf16_append; rewrite A, R1; reflexivity|]. cbn [Nat.add] in R2. split; [exact R2|]. rewrite R2, R3. unfold splice. cbn [firstn app Nat.add].
    split; [rewrite firstn_app, Nat.sub_diag, firstn_all; cbn [firstn]; apply app_nil_r|rewrite skipn_app, Nat.sub_diag, skipn_all; reflexivity].
  - intros fuel Hf. apply (extract_all_spec utf16_seq); [intros; apply extract16_seq; assumption|eexists; reflexivity|exact utf16_ne'|exact E|exact Hf].
Qed.
Theorem C29_injective : forall vs ws us, encodes utf16_seq vs us -> encodes utf16_seq ws us -> vs = ws.
Proof. intros vs ws us. apply (encodes_unique utf16_seq utf16_prefix utf16_ne'). Qed.
(** UTF-16 extraction accepts nothing but well-formed sequences and does not move when it fails. *)
Theorem C29_extract_exact : forall s, units16 s ->
  (exists v ch rest, utf16_seq v ch /\ s = ch ++ rest /\ tmu_utf16_extract s = Some (true, v, rest))
  \/ (ill_formed_at utf16_seq s /\ exists cp, tmu_utf16_extract s = Some (false, cp, s)).
Proof.
  intros s U. destruct (extract16_cases s U) as [(v & ch & rest & H & ->)|Q]; [left|right; exact Q].
  exists v, ch, rest. split; [exact H|]. split; [reflexivity|]. apply extract16_seq. exact H.
Qed.
Example C29_example : Forall scalar [0x24; 0x20AC; 0x10437]
  /\ append_all tmu_utf16_append [0x24; 0x20AC; 0x10437] (OStream (repeat 0 5) 0 0 OK) = Some (true, OStream [0x24; 0x20AC; 0xD801; 0xDC37; 0] 4 4 OK)
  /\ tmu_utf16_extract [0xD801; 0x41] = Some (false, TMU_INVALID_CODEPOINT, [0xD801; 0x41]).
Proof. split; [repeat constructor; unfold scalar; lia|]. split; vm_compute; reflexivity. Qed.

(** C30 *)
Definition well_formed_utf8 (us : list N) : Prop := exists pieces, Forall table37 pieces /\ us = concat pieces.
Lemma wf_table : forall us, well_formed utf8_seq us <-> well_formed_utf8 us.
Proof.
  intros us. split.
  - intros [vs E]. induction E as [|v vs ch us S E [ps [F ->]]]; [exists []; split; [constructor|reflexivity]|].
    exists (ch :: ps). split; [constructor; [apply (seq_table v ch S)|exact F]|reflexivity].
  - intros [ps [F ->]]. induction F as [|p ps T F [vs IH]]; [exists []; constructor|]. destruct (table_seq p T) as [v Hv]. exists (v :: vs). cbn [concat]. constructor; assumption.
Qed.
Theorem C30_valid_range : forall s, octets s -> exists r, tmu_utf8_valid_range s = Some r /\ longest_prefix well_formed_utf8 s r.
Proof.
  intros s U. destruct (utf8_valid_range_spec s U) as (r & E & L & W & M). exists r. split; [exact E|]. split; [exact L|].
  split; [apply wf_table; exact W|]. intros k Hk Wk. apply M; [exact Hk|apply wf_table; exact Wk].
Qed.
Theorem C30_whole_text : forall s, octets s -> (tmu_utf8_valid_range s = Some (length s) <-> well_formed_utf8 s).
Proof.
  intros s U. destruct (C30_valid_range s U) as (r & E & L & W & M). rewrite E. split.
  - intros Q. injection Q as Q. rewrite Q, firstn_all in W. exact W.
  - intros Q. f_equal. specialize (M (length s) (le_n _)). rewrite firstn_all in M. specialize (M Q). lia.
Qed.
Example C30_example : octets [0x61; 0xE2; 0x82; 0xAC; 0xED; 0xA0; 0x80] /\ tmu_utf8_valid_range [0x61; 0xE2; 0x82; 0xAC; 0xED; 0xA0; 0x80] = Some 4%nat
  /\ tmu_utf8_valid_range [0xC0; 0x80] = Some 0%nat /\ tmu_utf8_valid_range [0xF4; 0x90; 0x80; 0x80] = Some 0%nat /\ tmu_utf8_valid_range [0xF4; 0x8F; 0xBF; 0xBF] = Some 4%nat.
Proof. split; [repeat constructor; lia|]. repeat split; vm_compute; reflexivity. Qed.

(** C31 *)
Theorem C31_valid_range : forall s, units16 s -> exists r, tmu_utf16_valid_range s = Some r /\ longest_prefix (well_formed utf16_seq) s r.
Proof. exact utf16_valid_range_spec. Qed.
(** A text is well-formed UTF-16 if and only if no surrogate is unpaired. *)
Inductive paired : list N -> Prop :=
| P_nil : paired []
| P_unit c s : c < 65536 -> ~ (0xD800 <= c <= 0xDFFF) -> paired s -> paired (c :: s)
| P_pair a b s : 0xD800 <= a <= 0xDBFF -> 0xDC00 <= b <= 0xDFFF -> paired s -> paired (a :: b :: s).
Theorem C31_no_unpaired_surrogates : forall s, well_formed utf16_seq s <-> paired s.
Proof.
  intros s. split.
  - intros [vs E]. induction E as [|v vs ch us S E IH]; [constructor|]. destruct S as [v L Sc|v L]; cbn [app].
    + apply P_unit; [lia|unfold scalar in Sc; lia|exact IH].
    + assert (M : (v - 0x10000) mod 1024 < 1024) by (apply N.mod_upper_bound; discriminate).
      assert (D : (v - 0x10000) / 1024 < 1024) by (apply N.div_lt_upper_bound; lia).
      set (q := (v - 0x10000) / 1024) in *. set (r := (v - 0x10000) mod 1024) in *. clearbody q r. apply P_pair; [lia|lia|exact IH].
  - intros P. induction P as [|c s L Ns P [vs IH]|a b s A B P [vs IH]]; [exists []; constructor|..].
    + exists (c :: vs). change (c :: s) with ([c] ++ s). constructor; [apply U16_1; [lia|unfold scalar; lia]|exact IH].
    + exists (((a - 0xD800) * 1024 + (b - 0xDC00) + 0x10000) :: vs). change (a :: b :: s) with ([a; b] ++ s). constructor; [apply mk16; assumption|exact IH].
Qed.
Example C31_example : units16 [0x41; 0xD83D; 0xDE00; 0xDC00] /\ tmu_utf16_valid_range [0x41; 0xD83D; 0xDE00; 0xDC00] = Some 3%nat
  /\ tmu_utf16_valid_range [0xD800] = Some 0%nat /\ paired [0x41; 0xD83D; 0xDE00].
Proof. split; [repeat constructor; lia|]. split; [vm_compute; reflexivity|]. split; [vm_compute; reflexivity|]. apply P_unit; [lia|lia|]. apply P_pair; [lia|lia|constructor]. Qed.

(** C32 *)
Lemma lone_trail : forall s, ill_formed_at utf16_seq (0xDC00 :: s).
Proof.
  intros s (v & ch & r & S & E). apply (f_equal (hd 0)) in E. destruct S as [v L Sc|v L]; cbn [app hd] in E.
  - subst v. unfold scalar in Sc. lia.
  - assert (D : (v - 0x10000) / 1024 < 1024) by (apply N.div_lt_upper_bound; [discriminate|clear E; lia]). set (q := (v - 0x10000) / 1024) in *. clearbody q. lia.
Qed.
(** The text after the first invalid unit is lost: for "\xFFa" the answer is the empty string, "a" is what should remain;
    likewise for a lone trailing surrogate in UTF-16. *)
Theorem C32_skip_invalid_refuted :
  (exists str vs us n str', octets str /\ kept utf8_seq str vs /\ encodes utf8_seq vs us /\ tmu_utf8_skip_invalid str = Some (n, str') /\ firstn n str' <> us)
  /\ (exists str vs us n str', units16 str /\ kept utf16_seq str vs /\ encodes utf16_seq vs us /\ tmu_utf16_skip_invalid str = Some (n, str') /\ firstn n str' <> us).
Proof.
  split.
  - exists [0xFF; 0x61], [0x61], [0x61], 0%nat, [0xFF; 0x61]. split; [repeat constructor; lia|].
    split; [apply K_drop; [intros (v & ch & r & S & E); apply seq_table in S; destruct S; cbn [app] in E; try discriminate; injection E; intros; subst; lia|]; change [0x61] with ([0x61] ++ []) at 1; apply K_seq; [apply U8_1; lia|constructor]|].
    split; [change [0x61] with ([0x61] ++ []) at 2; constructor; [apply U8_1; lia|constructor]|]. split; [vm_compute; reflexivity|discriminate].
  - exists [0xDC00; 0x61], [0x61], [0x61], 0%nat, [0xDC00; 0x61]. split; [repeat constructor; lia|].
    split; [apply K_drop; [exact (lone_trail _)|]; change [0x61] with ([0x61] ++ []) at 1; apply K_seq; [apply U16_1; [lia|unfold scalar; lia]|constructor]|].
    split; [change [0x61] with ([0x61] ++ []) at 2; constructor; [apply U16_1; [lia|unfold scalar; lia]|constructor]|]. split; [vm_compute; reflexivity|discriminate].
Qed.
(** What is true: the buffer is left alone and the answer is the length of its longest well-formed prefix. *)
Theorem C32_skip_invalid_partial : forall str,
  (octets str -> exists r, tmu_utf8_skip_invalid str = Some (r, str) /\ longest_prefix (well_formed utf8_seq) str r)
  /\ (units16 str -> exists r, tmu_utf16_skip_invalid str = Some (r, str) /\ longest_prefix (well_formed utf16_seq) str r).
Proof.
  intros str. split; intros U.
  - apply (skip_spec utf8_seq utf8_ne tmu_utf8_valid_range octets); [intros s n Us; split; [apply skipn_octets|apply firstn_octets]; exact Us|exact utf8_valid_range_spec|exact U].
  - apply (skip_spec utf16_seq utf16_ne' tmu_utf16_valid_range units16); [intros s n Us; rewrite <- (firstn_skipn n s) in Us; apply Forall_app in Us; split; apply Us|exact utf16_valid_range_spec|exact U].
Qed.
Theorem C32_valid_text_is_kept : forall str,
  (well_formed utf8_seq str -> tmu_utf8_skip_invalid str = Some (length str, str))
  /\ (well_formed utf16_seq str -> tmu_utf16_skip_invalid str = Some (length str, str)).
Proof.
  intros str. split; intros [vs E].
  - destruct (proj1 (C32_skip_invalid_partial str) (encodes_units utf8_seq _ vs str seq_octets E)) as (r & Q & L & _ & M). rewrite Q. repeat f_equal.
    specialize (M (length str) (le_n _)). rewrite firstn_all in M. specialize (M (ex_intro _ vs E)). lia.
  - destruct (proj2 (C32_skip_invalid_partial str) (encodes_units utf16_seq _ vs str utf16_units E)) as (r & Q & L & _ & M). rewrite Q. repeat f_equal.
    specialize (M (length str) (le_n _)). rewrite firstn_all in M. specialize (M (ex_intro _ vs E)). lia.
Qed.
Example C32_example : octets [0x61; 0x80; 0x62] /\ tmu_utf8_skip_invalid [0x61; 0x80; 0x62] = Some (1%nat, [0x61; 0x80; 0x62])
  /\ tmu_utf8_skip_invalid [0x61; 0xC2; 0xA3] = Some (3%nat, [0x61; 0xC2; 0xA3]).
Proof. split; [repeat constructor; lia|]. split; vm_compute; reflexivity. Qed.

(** C33 *)
(** An overlong zero, and a lead octet followed by a letter, are accepted; both are ill-formed. *)
Theorem C33_extract_refuted : exists s v rest, octets s /\ ill_formed_at utf8_seq s /\ tmu_utf8_extract s = Some (true, v, rest)
  /\ exists s' v' rest', octets s' /\ ill_formed_at utf8_seq s' /\ tmu_utf8_extract s' = Some (true, v', rest') /\ s' <> s.
Proof.
  exists [0xC0; 0x80], 0, []. split; [repeat constructor; lia|].
  split; [intros (v & ch & r & S & E); apply seq_table in S; destruct S; unfold trail_octet in *; cbn [app] in E; try discriminate; injection E; intros; subst; lia|].
  split; [vm_compute; reflexivity|]. exists [0xC3; 0x41], 0xC1, []. split; [repeat constructor; lia|].
  split; [intros (v & ch & r & S & E); apply seq_table in S; destruct S; unfold trail_octet in *; cbn [app] in E; try discriminate; injection E; intros; subst; lia|].
  split; [vm_compute; reflexivity|discriminate].
Qed.
(** What is accepted exactly; the value is always a scalar value, nothing past the end is read (the model answers) and on
    failure the stream does not move. *)
Theorem C33_extract_partial : forall s, octets s ->
  (exists v ch rest, lenient v ch /\ scalar v /\ s = ch ++ rest /\ tmu_utf8_extract s = Some (true, v, rest))
  \/ (ill_formed_at lenient s /\ ill_formed_at utf8_seq s /\ exists cp, tmu_utf8_extract s = Some (false, cp, s)).
Proof.
  intros s U. destruct (extract8_cases s U) as [(v & ch & rest & H & ->)|[I Q]]; [left|right].
  - exists v, ch, rest. split; [exact H|]. split; [apply (lenient_scalar v ch H)|]. split; [reflexivity|]. apply extract_lenient. exact H.
  - split; [exact I|]. split; [|exact Q]. intros (v & ch & rest & H & E). apply I. exists v, ch, rest. split; [apply seq_lenient; exact H|exact E].
Qed.
(** On validated text the extraction is the decoding. *)
Theorem C33_valid_text : forall s v s', well_formed utf8_seq s -> tmu_utf8_extract s = Some (true, v, s') ->
  exists ch, utf8_seq v ch /\ s = ch ++ s' /\ well_formed utf8_seq s'.
Proof.
  intros s v s' [vs E] X. destruct E as [|w vs ch us S E]; [discriminate|]. rewrite (extract_seq w ch us S) in X. injection X as -> ->.
  exists ch. split; [exact S|]. split; [reflexivity|exists vs; exact E].
Qed.
Example C33_example : tmu_utf8_extract [0xE2; 0x82; 0xAC; 0x61] = Some (true, 0x20AC, [0x61]) /\ tmu_utf8_extract [0xE2; 0x82] = Some (false, TMU_INVALID_CODEPOINT, [0xE2; 0x82])
  /\ tmu_utf8_extract [0x80] = Some (false, TMU_INVALID_CODEPOINT, [0x80]) /\ tmu_utf8_extract [0xED; 0xA0; 0x80] = Some (false, 0xD800, [0xED; 0xA0; 0x80]).
Proof. repeat split; vm_compute; reflexivity. Qed.

Print Assumptions C28_one_codepoint.
Print Assumptions C28_sequences.
Print Assumptions C28_injective.
Print Assumptions C29_one_codepoint.
Print Assumptions C29_sequences.
Print Assumptions C29_injective.
Print Assumptions C29_extract_exact.
Print Assumptions C30_valid_range.
Print Assumptions C30_whole_text.
Print Assumptions C31_valid_range.
Print Assumptions C31_no_unpaired_surrogates.
Print Assumptions C32_skip_invalid_refuted.
Print Assumptions C32_skip_invalid_partial.
Print Assumptions C32_valid_text_is_kept.
Print Assumptions C33_extract_refuted.
Print Assumptions C33_extract_partial.
Print Assumptions C33_valid_text.
