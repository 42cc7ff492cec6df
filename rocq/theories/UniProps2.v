(** Properties of the conversions, of truncation, of counting and of octet-wise comparison in tm_unicode.h. *)
From Coq Require Import Arith NArith ZArith List Bool Lia ZifyBool ZifyNat ZifyN.
From Verif Require Import Base CodecModel CodecProofs StrSpec StrMore UniModel UniSpec UniProofs UniValid UniConv UniTop UniText UniCompare UniMore UniProps.
Import ListNotations.
Local Open Scope N_scope.

(** C34 *)
(** Valid UTF-16 to UTF-8, in every mode and for every buffer. *)
Theorem C34_utf8_from_utf16 : forall vs us bs v rep nt out fuel, encodes utf16_seq vs us -> encodes utf8_seq vs bs ->
  (v = V_replace -> rep <> []) -> (length us <= fuel)%nat ->
  exists size ec buf, tmu_utf8_from_utf16_ex fuel us v rep nt out = Done (Result size ec false, buf) /\ delivered bs nt out size ec buf.
Proof. intros. eapply (convert_valid utf16_seq utf8_seq); try eassumption; [exact utf8_encode_spec|exact seq_fun|exact zero8|exact extract16_seq|exact utf16_ne'|exact utf8_ne|exact seq_scalar]. Qed.
Theorem C34_utf16_from_utf8 : forall vs us bs v rep nt out fuel, encodes utf8_seq vs us -> encodes utf16_seq vs bs ->
  (v = V_replace -> rep <> []) -> (length us <= fuel)%nat ->
  exists size ec buf, tmu_utf16_from_utf8_ex fuel us v rep nt out = Done (Result size ec false, buf) /\ delivered bs nt out size ec buf.
Proof. intros. eapply (convert_valid utf8_seq utf16_seq); try eassumption; [exact utf16_encode_spec|exact utf16_fun|exact zero16|exact extract_seq|exact utf8_ne|exact utf16_ne'|exact utf16_scalar]. Qed.
(** The two calls: whatever the first buffer, a second one of the reported size takes the whole text. *)
Theorem C34_two_calls : forall vs us bs v rep nt out fuel, encodes utf16_seq vs us -> encodes utf8_seq vs bs ->
  (v = V_replace -> rep <> []) -> (length us <= fuel)%nat ->
  exists size ec buf, tmu_utf8_from_utf16_ex fuel us v rep nt out = Done (Result size ec false, buf) /\ length buf = length out
    /\ (ec = OK \/ ec = ERANGE)
    /\ (ec = ERANGE -> (length out < size)%nat /\
        forall out', length out' = size -> tmu_utf8_from_utf16_ex fuel us v rep nt out' = Done (Result (length bs) OK false, bs ++ (if nt then [0] else []))).
Proof.
  intros vs us bs v rep nt out fuel E8 E16 R F. destruct (C34_utf8_from_utf16 vs us bs v rep nt out fuel E8 E16 R F) as (size & ec & buf & Q & D).
  exists size, ec, buf. split; [exact Q|]. pose proof (delivered_ec _ _ _ _ _ _ D) as Ec. unfold delivered in D.
  destruct (Nat.leb_spec (length (bs ++ (if nt then [0] else []))) (length out)) as [L|L].
  - destruct D as (-> & -> & ->). split; [rewrite app_length, skipn_length; lia|]. split; [exact Ec|discriminate].
  - destruct D as (-> & -> & Lb). split; [exact Lb|]. split; [exact Ec|]. intros _. split; [lia|]. intros out' L'.
    destruct (C34_utf8_from_utf16 vs us bs v rep nt out' fuel E8 E16 R F) as (size' & ec' & buf' & Q' & D'). unfold delivered in D'.
    rewrite L', Nat.leb_refl in D'. destruct D' as (-> & -> & ->). rewrite Q', <- L', skipn_all, app_nil_r. reflexivity.
Qed.
(** Converting back gives the text. *)
Theorem C34_round_trip : forall us, well_formed utf16_seq us -> exists bs, well_formed utf8_seq bs
  /\ (forall fuel out, (length us <= fuel)%nat -> length out = length bs -> tmu_utf8_from_utf16 fuel us out = Done (Result (length bs) OK false, bs))
  /\ (forall fuel out, (length bs <= fuel)%nat -> length out = length us -> tmu_utf16_from_utf8 fuel bs out = Done (Result (length us) OK false, us)).
Proof.
  intros us [vs E]. destruct (encodes_exists utf8_seq vs scalar_seq (encodes_scalars utf16_seq vs us utf16_scalar E)) as [bs E8]. exists bs. split; [exists vs; exact E8|]. split.
  - intros fuel out F L. destruct (C34_utf8_from_utf16 vs us bs V_error [] false out fuel E E8 ltac:(discriminate) F) as (size & ec & buf & Q & D). unfold tmu_utf8_from_utf16. rewrite Q.
    unfold delivered in D. rewrite app_nil_r, L, Nat.leb_refl in D. destruct D as (-> & -> & ->). rewrite <- L, skipn_all, app_nil_r. reflexivity.
  - intros fuel out F L. destruct (C34_utf16_from_utf8 vs bs us V_error [] false out fuel E8 E ltac:(discriminate) F) as (size & ec & buf & Q & D). unfold tmu_utf16_from_utf8. rewrite Q.
    unfold delivered in D. rewrite app_nil_r, L, Nat.leb_refl in D. destruct D as (-> & -> & ->). rewrite <- L, skipn_all, app_nil_r. reflexivity.
Qed.
(** The growing variant: it never fails but by running out of memory, and leaves the converted text in its buffer. *)
Theorem C34_dynamic : forall vs us bs v rep nt fresh out fuel, encodes utf16_seq vs us -> encodes utf8_seq vs bs ->
  (v = V_replace -> rep <> []) -> (length us <= fuel)%nat -> (forall n block, fresh n = Some block -> length block = n) ->
  exists r k, tmu_utf8_from_utf16_dynamic_ex fuel fresh us v rep nt out = Done (r, k) /\ r_invalid r = false
    /\ (r_ec r = OK /\ r_size r = length bs /\ k_size k = length bs /\ firstn (length bs + if nt then 1 else 0) (k_data k) = bs ++ (if nt then [0] else [])
        \/ r_ec r = ENOMEM /\ k_size k = k_size out /\ fresh (length (bs ++ (if nt then [0] else []))) = None).
Proof.
  intros vs us bs v rep nt fresh out fuel E8 E16 R F Hfresh.
  destruct (dynamic_spec fuel us v rep nt bs false (fun out => C34_utf8_from_utf16 vs us bs v rep nt out fuel E8 E16 R F) fresh out Hfresh) as (r & k & Q & I & D).
  exists r, k. split; [exact Q|]. split; [exact I|]. assert (Lt : length (bs ++ (if nt then [0] else [])) = (length bs + if nt then 1 else 0)%nat) by (rewrite app_length; destruct nt; reflexivity).
  destruct (_ <=? _)%nat.
  - left. destruct D as (D1 & D2 & ->). split; [exact D1|]. split; [exact D2|]. split; [reflexivity|]. cbn [k_data]. rewrite <- Lt, firstn_app, Nat.sub_diag, firstn_all. apply app_nil_r.
  - destruct (fresh _) as [b|] eqn:Fr.
    + left. destruct D as (D1 & D2 & ->). split; [exact D1|]. split; [exact D2|]. split; [reflexivity|]. cbn [k_data]. rewrite <- Lt, firstn_all. reflexivity.
    + right. destruct D as (D1 & _ & D2 & _). split; [exact D1|]. split; [exact D2|reflexivity].
Qed.
(** In the mode that reports errors an ill-formed text is rejected. *)
Theorem C34_errors_are_reported : forall vs us rest rep nt out fuel, rest <> [] -> (length us < fuel)%nat ->
  (units16 rest -> encodes utf16_seq vs us -> ill_formed_at utf16_seq rest ->
    exists size buf, tmu_utf8_from_utf16_ex fuel (us ++ rest) V_error rep nt out = Done (Result size EINVAL true, buf) /\ length buf = length out)
  /\ (octets rest -> encodes utf8_seq vs us -> ill_formed_at lenient rest ->
    exists size buf, tmu_utf16_from_utf8_ex fuel (us ++ rest) V_error rep nt out = Done (Result size EINVAL true, buf) /\ length buf = length out).
Proof.
  intros vs us rest rep nt out fuel Ne F. split; intros U E I.
  - destruct (encodes_exists utf8_seq vs scalar_seq (encodes_scalars utf16_seq vs us utf16_scalar E)) as [bs E8].
    apply (convert_error utf16_seq utf8_seq tmu_utf16_extract tmu_utf8_encode utf8_encode_spec seq_fun zero8 extract16_seq utf16_ne' utf8_ne seq_scalar units16 units16_tail bad16 vs us bs rest); assumption.
  - destruct (encodes_exists utf16_seq vs utf16_ex (encodes_scalars utf8_seq vs us seq_scalar E)) as [bs E16]. apply encodes_lenient in E.
    apply (convert_error lenient utf16_seq tmu_utf8_extract tmu_utf16_encode utf16_encode_spec utf16_fun zero16 extract_lenient lenient_ne utf16_ne' utf16_scalar octets octets_tail lenient_octets_only vs us bs rest); assumption.
Qed.
Example C34_example : encodes utf16_seq [0x20AC; 0x10437] [0x20AC; 0xD801; 0xDC37] /\ encodes utf8_seq [0x20AC; 0x10437] [0xE2; 0x82; 0xAC; 0xF0; 0x90; 0x90; 0xB7]
  /\ tmu_utf8_from_utf16_ex 9 [0x20AC; 0xD801; 0xDC37] V_error [] true [1; 1; 1; 1] = Done (Result 8 ERANGE false, [0xE2; 0x82; 0xAC; 1])
  /\ tmu_utf8_from_utf16_ex 9 [0x20AC; 0xD801; 0xDC37] V_error [] true (repeat 1 8) = Done (Result 7 OK false, [0xE2; 0x82; 0xAC; 0xF0; 0x90; 0x90; 0xB7; 0])
  /\ tmu_utf16_from_utf8 9 [0xE2; 0x82; 0xAC; 0xF0; 0x90; 0x90; 0xB7] [1; 1; 1; 1] = Done (Result 3 OK false, [0x20AC; 0xD801; 0xDC37; 1])
  /\ tmu_utf8_from_utf16 9 [0x61; 0xDC00] [1; 1] = Done (Result 1 EINVAL true, [0x61; 1]).
Proof.
  split; [change [0x20AC; 0xD801; 0xDC37] with ([0x20AC] ++ [0xD800 + (0x10437 - 0x10000) / 1024; 0xDC00 + (0x10437 - 0x10000) mod 1024] ++ []); repeat constructor; unfold scalar; lia|].
  split; [change [0xE2; 0x82; 0xAC; 0xF0; 0x90; 0x90; 0xB7] with ([0xE0 + 0x20AC / 4096; 0x80 + 0x20AC / 64 mod 64; 0x80 + 0x20AC mod 64] ++ [0xF0 + 0x10437 / 262144; 0x80 + 0x10437 / 4096 mod 64; 0x80 + 0x10437 / 64 mod 64; 0x80 + 0x10437 mod 64] ++ []); constructor; [apply U8_3; unfold scalar; lia|constructor; [apply U8_4; lia|constructor]]|].
  repeat split; vm_compute; reflexivity.
Qed.

(** C35 *)
(** With replacement the conversion of any text that is not valid never ends: it writes the replacement again and again. *)
Theorem C35_replacement_refuted : forall vs us rest rep nt out, rest <> [] -> rep <> [] ->
  (units16 rest -> encodes utf16_seq vs us -> ill_formed_at utf16_seq rest -> forall fuel, tmu_utf8_from_utf16_ex fuel (us ++ rest) V_replace rep nt out = Running)
  /\ (octets rest -> encodes utf8_seq vs us -> ill_formed_at lenient rest -> forall fuel, tmu_utf16_from_utf8_ex fuel (us ++ rest) V_replace rep nt out = Running).
Proof.
  intros vs us rest rep nt out Ne Nr. split; intros U E I fuel.
  - destruct (encodes_exists utf8_seq vs scalar_seq (encodes_scalars utf16_seq vs us utf16_scalar E)) as [bs E8].
    apply (convert_replace_runs utf16_seq utf8_seq tmu_utf16_extract tmu_utf8_encode utf8_encode_spec seq_fun zero8 extract16_seq utf16_ne' utf8_ne seq_scalar units16 units16_tail bad16 vs us bs rest); assumption.
  - destruct (encodes_exists utf16_seq vs utf16_ex (encodes_scalars utf8_seq vs us seq_scalar E)) as [bs E16]. apply encodes_lenient in E.
    apply (convert_replace_runs lenient utf16_seq tmu_utf8_extract tmu_utf16_encode utf16_encode_spec utf16_fun zero16 extract_lenient lenient_ne utf16_ne' utf16_scalar octets octets_tail lenient_octets_only vs us bs rest); assumption.
Qed.
(** On valid text it ends and the replacement is not used. *)
Theorem C35_replacement_partial : forall vs us bs rep nt out fuel, encodes utf16_seq vs us -> encodes utf8_seq vs bs -> rep <> [] -> (length us <= fuel)%nat ->
  exists size ec buf, tmu_utf8_from_utf16_ex fuel us V_replace rep nt out = Done (Result size ec false, buf) /\ delivered bs nt out size ec buf.
Proof. intros vs us bs rep nt out fuel E E8 R F. apply (C34_utf8_from_utf16 vs us bs); auto. Qed.
(** A string of one lone surrogate: after 1000 iterations the conversion is still running. *)
Example C35_example : units16 [0xDC00] /\ ill_formed_at utf16_seq [0xDC00]
  /\ tmu_utf8_from_utf16_ex 1000 [0xDC00] V_replace [0x3F] false [0; 0; 0; 0] = Running
  /\ tmu_utf8_from_utf16_ex 9 [0x61] V_replace [0x3F] false [0; 0] = Done (Result 1 OK false, [0x61; 0]).
Proof. split; [repeat constructor; lia|]. split; [exact (lone_trail _)|]. split; vm_compute; reflexivity. Qed.

(** C36 *)
Theorem C36_within_the_buffer : forall str out, octets str -> exists n, (n <= length str)%nat /\ (n <= length out)%nat
  /\ tmu_utf8_copy_truncated str out = Some (n, firstn n str ++ skipn n out).
Proof. exact truncated_any. Qed.
Theorem C36_well_formed_and_maximal : forall str out, well_formed utf8_seq str -> exists n,
  tmu_utf8_copy_truncated str out = Some (n, firstn n str ++ skipn n out) /\ longest_prefix (well_formed utf8_seq) (firstn (length out) str) n.
Proof. intros str out [vs E]. apply (truncated_wf vs str out E). Qed.
Example C36_example : well_formed utf8_seq [0x61; 0xE2; 0x82; 0xAC] /\ tmu_utf8_copy_truncated [0x61; 0xE2; 0x82; 0xAC] [7; 7; 7] = Some (1%nat, [0x61; 7; 7])
  /\ tmu_utf8_copy_truncated [0x61; 0xE2; 0x82; 0xAC] [7; 7; 7; 7] = Some (4%nat, [0x61; 0xE2; 0x82; 0xAC]) /\ tmu_utf8_copy_truncated [0x61; 0x62] [7] = Some (1%nat, [0x61]).
Proof.
  split; [apply wf_table; exists [[0x61]; [0xE2; 0x82; 0xAC]]; split; [constructor; [apply T_00_7F; lia|constructor; [apply T_E1_EC; unfold trail_octet; lia|constructor]]|reflexivity]|].
  repeat split; vm_compute; reflexivity.
Qed.

(** C77 *)
(** In the skipping mode exactly the units at which no sequence starts are dropped, and the result says whether there were any.
    For UTF-8 sources a sequence is what the extraction takes for one (C33). *)
Lemma kept_scalars : forall (seq : N -> list N -> Prop) us vs, seq_scalars seq -> kept seq us vs -> Forall scalar vs.
Proof. intros seq us vs Sc K. induction K as [|v vs ch us S K IH|c us vs I K IH]; [constructor|constructor; [apply (Sc v ch S)|exact IH]|exact IH]. Qed.
Lemma kept_encodes_dec : forall (seq : N -> list N -> Prop) us vs, seq_nonempty seq ->
  (forall v v' ch ch' r r', seq v ch -> seq v' ch' -> ch ++ r = ch' ++ r' -> v = v' /\ ch = ch' /\ r = r') -> kept seq us vs -> encodes seq vs us \/ ~ well_formed seq us.
Proof.
  intros seq us vs ne pc K. induction K as [|v vs ch us S K IH|c us vs I K IH].
  - left. constructor.
  - destruct IH as [E|E]; [left; constructor; assumption|]. right. intros [ws W].
    destruct (encodes_split seq pc ne ws (ch ++ us) v ch us W eq_refl S) as (ws' & _ & W'). apply E. exists ws'. exact W'.
  - right. intros [ws W]. apply I. inversion W as [|w ws' ch' us' S' W' Q1 Q2]; subst. exists w, ch', us'. auto.
Qed.
Theorem C77_skip_utf16 : forall us, units16 us -> exists vs bs, kept utf16_seq us vs /\ encodes utf8_seq vs bs /\
  forall rep nt out fuel, (length us <= fuel)%nat ->
  exists size ec inv buf, tmu_utf8_from_utf16_ex fuel us V_skip rep nt out = Done (Result size ec inv, buf) /\ delivered bs nt out size ec buf
    /\ (inv = false <-> well_formed utf16_seq us).
Proof.
  intros us U. destruct (kept_total utf16_seq units16 units16_tail utf16_ne' utf16_cases us U) as [vs K].
  destruct (encodes_exists utf8_seq vs scalar_seq (kept_scalars _ us vs utf16_scalar K)) as [bs E8]. exists vs, bs. split; [exact K|]. split; [exact E8|]. intros rep nt out fuel F.
  destruct (convert_skip utf16_seq utf8_seq tmu_utf16_extract tmu_utf8_encode utf8_encode_spec seq_fun zero8 extract16_seq utf16_ne' utf8_ne seq_scalar units16 units16_tail bad16 vs us bs rep nt out fuel U K E8 F) as (size & ec & inv & buf & Q & D & I).
  exists size, ec, inv, buf. split; [exact Q|]. split; [exact D|]. destruct (kept_encodes_dec _ us vs utf16_ne' utf16_prefix K) as [E|E].
  - split; [intros _; exists vs; exact E|]. intros _. destruct inv; [|reflexivity]. exfalso. apply (proj1 I); auto.
  - assert (inv = true) as -> by (apply I; intros W; apply E; exists vs; exact W). split; [discriminate|contradiction].
Qed.
Theorem C77_skip_utf8 : forall us, octets us -> exists vs bs, kept lenient us vs /\ encodes utf16_seq vs bs /\
  forall rep nt out fuel, (length us <= fuel)%nat ->
  exists size ec inv buf, tmu_utf16_from_utf8_ex fuel us V_skip rep nt out = Done (Result size ec inv, buf) /\ delivered bs nt out size ec buf
    /\ (inv = false <-> well_formed lenient us).
Proof.
  intros us U. destruct (kept_total lenient octets octets_tail lenient_ne lenient_cases us U) as [vs K].
  destruct (encodes_exists utf16_seq vs utf16_ex (kept_scalars _ us vs lenient_scalar K)) as [bs E8]. exists vs, bs. split; [exact K|]. split; [exact E8|]. intros rep nt out fuel F.
  destruct (convert_skip lenient utf16_seq tmu_utf8_extract tmu_utf16_encode utf16_encode_spec utf16_fun zero16 extract_lenient lenient_ne utf16_ne' utf16_scalar octets octets_tail lenient_octets_only vs us bs rep nt out fuel U K E8 F) as (size & ec & inv & buf & Q & D & I).
  exists size, ec, inv, buf. split; [exact Q|]. split; [exact D|]. destruct (kept_encodes_dec _ us vs lenient_ne lenient_prefix K) as [E|E].
  - split; [intros _; exists vs; exact E|]. intros _. destruct inv; [|reflexivity]. exfalso. apply (proj1 I); auto.
  - assert (inv = true) as -> by (apply I; intros W; apply E; exists vs; exact W). split; [discriminate|contradiction].
Qed.
(** What is kept is determined by the text. *)
Theorem C77_kept_is_unique : forall us vs ws, kept utf16_seq us vs -> kept utf16_seq us ws -> vs = ws.
Proof. intros us vs ws. apply (kept_fun utf16_seq us vs ws utf16_ne' utf16_prefix). Qed.
Example C77_example : units16 [0xDC00; 0x61; 0xD800; 0x62]
  /\ tmu_utf8_from_utf16_ex 9 [0xDC00; 0x61; 0xD800; 0x62] V_skip [] true [9; 9; 9; 9] = Done (Result 2 OK true, [0x61; 0x62; 0; 9])
  /\ tmu_utf16_from_utf8_ex 9 [0xFF; 0xE2; 0x82; 0xAC; 0x80] V_skip [] false [9; 9] = Done (Result 1 OK true, [0x20AC; 9])
  /\ kept utf16_seq [0xDC00; 0x61] [0x61].
Proof.
  split; [repeat constructor; lia|]. split; [vm_compute; reflexivity|]. split; [vm_compute; reflexivity|].
  apply K_drop; [exact (lone_trail _)|]. change [0x61] with ([0x61] ++ []) at 1. apply K_seq; [apply U16_1; [lia|unfold scalar; lia]|constructor].
Qed.

(** C78 *)
Theorem C78_equals : forall m a al b bl x y, text m a al = Some x -> text m b bl = Some y -> exists r, tmu_utf8_equals m a al b bl = Some r /\ (r = true <-> x = y).
Proof. exact uni_equals_spec. Qed.
Theorem C78_compare : forall m a al b bl x y, text m a al = Some x -> text m b bl = Some y -> exists r, tmu_utf8_compare m a al b bl = Some r /\ orders lex_lt x y r.
Proof. exact uni_compare_spec. Qed.
(** The octet order of well-formed texts is the order of their codepoints. *)
Lemma digit_order : forall x y, x < y -> x / 64 < y / 64 \/ x / 64 = y / 64 /\ x mod 64 < y mod 64.
Proof.
  intros x y L. pose proof (N.div_mod x 64 ltac:(discriminate)) as Dx. pose proof (N.div_mod y 64 ltac:(discriminate)) as Dy.
  pose proof (N.mod_lt x 64 ltac:(discriminate)) as Mx. pose proof (N.mod_lt y 64 ltac:(discriminate)) as My.
  set (p := x / 64) in *. set (q := y / 64) in *. set (r := x mod 64) in *. set (t := y mod 64) in *. clearbody p q r t. lia.
Qed.
Lemma div4096 : forall x, x / 4096 = x / 64 / 64. Proof. intros x. rewrite N.div_div by discriminate. reflexivity. Qed.
Lemma div262144 : forall x, x / 262144 = x / 64 / 64 / 64. Proof. intros x. rewrite !N.div_div by discriminate. reflexivity. Qed.
Lemma utf8_first : forall v w ch dh, utf8_seq v ch -> utf8_seq w dh -> v < w -> forall r s, lex_lt (ch ++ r) (dh ++ s).
Proof.
  intros v w ch dh Hv Hw L r s.
  assert (B2 : forall v, v < 0x800 -> v / 64 < 32) by (intros; apply N.div_lt_upper_bound; lia).
  assert (B3 : forall v, v < 0x10000 -> v / 4096 < 16) by (intros; apply N.div_lt_upper_bound; lia).
  destruct Hv as [v Hv|v Hv|v Hv Sv|v Hv]; destruct Hw as [w Hw|w Hw|w Hw Sw|w Hw]; try lia; cbn [app].
  - apply Lex_head. exact L.
  - apply Lex_head. lia.
  - apply Lex_head. lia.
  - apply Lex_head. lia.
  - destruct (digit_order v w L) as [Q|[Q1 Q2]]; [apply Lex_head; lia|rewrite Q1; apply Lex_tail, Lex_head; lia].
  - apply Lex_head. specialize (B2 v ltac:(lia)). lia.
  - apply Lex_head. specialize (B2 v ltac:(lia)). lia.
  - clear B2 B3. rewrite !div4096. destruct (digit_order v w L) as [Q|[Q1 Q2]].
    + destruct (digit_order _ _ Q) as [P|[P1 P2]]; [apply Lex_head; lia|rewrite P1; apply Lex_tail, Lex_head; lia].
    + rewrite Q1. apply Lex_tail, Lex_tail, Lex_head. lia.
  - apply Lex_head. specialize (B3 v ltac:(lia)). lia.
  - clear B2 B3. rewrite !div262144, !div4096. destruct (digit_order v w L) as [Q|[Q1 Q2]].
    + destruct (digit_order _ _ Q) as [P|[P1 P2]].
      * destruct (digit_order _ _ P) as [R|[R1 R2]]; [apply Lex_head; lia|rewrite R1; apply Lex_tail, Lex_head; lia].
      * rewrite P1. apply Lex_tail, Lex_tail, Lex_head. lia.
    + rewrite Q1. apply Lex_tail, Lex_tail, Lex_tail, Lex_head. lia.
Qed.
Lemma utf8_lex : forall vs x, encodes utf8_seq vs x -> forall ws y, encodes utf8_seq ws y -> lex_lt vs ws -> lex_lt x y.
Proof.
  intros vs x E. induction E as [|v vs ch us S E IH]; intros ws y E' L; inversion L as [w ws' Q1 Q2|v' w vs' ws' Lv Q1 Q2|v' vs' ws' Lv Q1 Q2]; subst; inversion E' as [|w' ws'' dh us' S' E'' Q3 Q4]; subst.
  - pose proof (seq_ne _ _ S') as Ne. destruct dh; [cbn in Ne; lia|constructor].
  - apply (utf8_first v w); assumption.
  - rewrite (seq_fun v dh ch S' S). apply lex_app. apply (IH ws'); assumption.
Qed.
Theorem C78_codepoint_order : forall m a al b bl x y vs ws, text m a al = Some x -> text m b bl = Some y -> encodes utf8_seq vs x -> encodes utf8_seq ws y ->
  exists r, tmu_utf8_compare m a al b bl = Some r /\ orders lex_lt vs ws r.
Proof.
  intros m a al b bl x y vs ws Tx Ty Ex Ey. destruct (uni_compare_spec m a al b bl x y Tx Ty) as (r & Q & O1 & O2 & O3). exists r. split; [exact Q|]. apply orders_intro.
  destruct (lex_total vs ws) as [L|[L|L]].
  - left. split; [apply O1, (utf8_lex vs x Ex ws y Ey L)|exact L].
  - right. left. subst ws. split; [apply O2, (encodes_fun utf8_seq vs x y seq_fun Ex Ey)|reflexivity].
  - right. right. split; [apply O3, (utf8_lex ws y Ey vs x Ex L)|exact L].
Qed.
Example C78_example : text [0x61; 0x62; 0x61; 0xC2; 0xA3] 0 2 = Some [0x61; 0x62] /\ text [0x61; 0x62; 0x61; 0xC2; 0xA3] 2 3 = Some [0x61; 0xC2; 0xA3]
  /\ tmu_utf8_compare [0x61; 0x62; 0x61; 0xC2; 0xA3] 0 2 2 3 = Some (-96)%Z /\ tmu_utf8_equals [0x61; 0x62; 0x61; 0xC2; 0xA3] 0 1 2 1 = Some true
  /\ tmu_utf8_equals [0x61; 0x62; 0x61; 0xC2; 0xA3] 0 1 0 2 = Some false.
Proof. repeat split; vm_compute; reflexivity. Qed.

(** C79 *)
Theorem C79_count_valid : forall vs s, encodes utf8_seq vs s -> tmu_utf8_count_codepoints s = Some (length vs).
Proof. intros vs s E. apply count_valid; [apply encodes_lenient; exact E|lia]. Qed.
(** On any octets counting stops at the first place where extraction fails. *)
Theorem C79_count_any : forall s, octets s -> exists vs us rest, s = us ++ rest /\ encodes lenient vs us /\ ill_formed_at lenient rest
  /\ tmu_utf8_count_codepoints s = Some (length vs).
Proof.
  intros s U. destruct (lenient_split s U) as (vs & us & rest & cp & E & -> & X). exists vs, us, rest. split; [reflexivity|]. split; [exact E|].
  split; [apply (extract_false rest cp X)|]. apply (count_prefix vs us rest _ cp E X). rewrite app_length. lia.
Qed.
Example C79_example : tmu_utf8_count_codepoints [0x61; 0xE2; 0x82; 0xAC; 0xF0; 0x90; 0x90; 0xB7] = Some 3%nat /\ tmu_utf8_count_codepoints [0x61; 0x62; 0xFF; 0x63] = Some 2%nat.
Proof. split; vm_compute; reflexivity. Qed.

Print Assumptions C34_utf8_from_utf16.
Print Assumptions C34_utf16_from_utf8.
Print Assumptions C34_two_calls.
Print Assumptions C34_round_trip.
Print Assumptions C34_dynamic.
Print Assumptions C34_errors_are_reported.
Print Assumptions C35_replacement_refuted.
Print Assumptions C35_replacement_partial.
Print Assumptions C36_within_the_buffer.
Print Assumptions C36_well_formed_and_maximal.
Print Assumptions C77_skip_utf16.
Print Assumptions C77_skip_utf8.
Print Assumptions C77_kept_is_unique.
Print Assumptions C78_equals.
Print Assumptions C78_compare.
Print Assumptions C78_codepoint_order.
Print Assumptions C79_count_valid.
Print Assumptions C79_count_any.
