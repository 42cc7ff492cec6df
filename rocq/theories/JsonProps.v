(** JSON documents and token streams: C97 to C104. *)
From Coq Require Import Arith NArith Bool Lia ZifyBool ZifyNat ZifyN Ascii String List.
From Verif Require Import Base DigitsSpec UniSpec JsonModel JsonSpec.
From Verif Require JsonString JsonLex JsonTok JsonSkip JsonCopy JsonDom JsonBuild JsonTotal JsonStream.
Import ListNotations.
Local Open Scope N_scope.

Definition txt (s : string) : list N := bytes_of s.

(** A text used in the examples: an object with a string, an array and a number. *)
Definition sample : list N := txt "{""a"" : [1, -2.5e+3, true], ""b"":""x\ty""}".
Definition sample_tree : tree :=
  Obj [(txt "a", Arr [Scalar YUInt (txt "1"); Scalar YFloat (txt "-2.5e+3"); Scalar YBool (txt "true")]);
       (txt "b", Str (txt "x\ty"))].

Lemma plain_0 : plain_flags 0.
Proof. repeat split. Qed.

Ltac wsd := repeat constructor; unfold wsp; auto.
Ltac dig := repeat constructor; try discriminate; unfold digit; lia.

Lemma sample_text : json_text rfc8259 sample sample_tree.
Proof.
  exists [], sample, []. split; [reflexivity|]. split; [constructor|]. split; [constructor|].
  apply (V_object _ (txt """a"" : [1, -2.5e+3, true]") _ (txt ", ""b"":""x\ty""}")).
  - apply (Member _ [] (txt "a") (txt "a") [32] 58 [32] (txt "[1, -2.5e+3, true]")); try solve [wsd].
    + apply J_plain; try (vm_compute; first [discriminate|lia]). constructor.
    + apply (V_array _ [] (txt "1") _ (txt ", -2.5e+3, true]")); try solve [wsd].
      * apply V_number. apply (N_pos _ (txt "1") true). constructor. right. split; [dig|discriminate].
      * apply (AT_next _ [] [32] (txt "-2.5e+3") _ (txt ", true]")); try solve [wsd].
        -- apply V_number. apply (N_neg _ (txt "2.5e+3") false).
           apply (M_frac_exp _ (txt "2") (txt ".5") (txt "e+3")).
           ++ right. split; [dig|discriminate].
           ++ exists (txt "5"). split; [reflexivity|dig].
           ++ exists 101, [43], (txt "3"). repeat split; auto; dig.
        -- apply (AT_next _ [] [32] (txt "true") _ (txt "]")); try solve [wsd].
           apply (AT_end _ []). wsd.
  - apply (OT_next _ [] (txt " ""b"":""x\ty""") _ (txt "}")); try solve [wsd].
    + apply (Member _ [32] (txt "b") (txt "b") [] 58 [] (txt """x\ty""")); try solve [wsd].
      * apply J_plain; try (vm_compute; first [discriminate|lia]). constructor.
      * apply (V_string _ (txt "x\ty") [120; 9; 121]). apply J_plain; try (vm_compute; first [discriminate|lia]).
        eapply (J_escape 116 9); [constructor|]. apply J_plain; try (vm_compute; first [discriminate|lia]). constructor.
    + apply (OT_end _ []). wsd.
Qed.

Lemma fits_allocated buf t d : json_text d buf t -> 32 * N.of_nat (length buf) < 2 ^ 64 ->
  forall ptr, JsonBuild.fits (Alloc ptr 0 (w64 (N.of_nat (length buf) * sizeof_value))) (cost t).
Proof.
  intros (w & s & w' & EB & _ & _ & V) L ptr. apply (JsonBuild.cost_bound d) in V.
  assert (LB : N.of_nat (length s) <= N.of_nat (length buf)) by (rewrite EB, !app_length; lia).
  assert (EQ : w64 (N.of_nat (length buf) * sizeof_value) = 32 * N.of_nat (length buf)).
  { unfold sizeof_value. unfold w64. rewrite N.mod_small; [lia|]. rewrite N.mul_comm. exact L. }
  unfold JsonBuild.fits. cbn [a_size a_cap]. rewrite EQ. split; [|exact L].
  revert V LB. generalize (cost t), (N.of_nat (length s)), (N.of_nat (length buf)). intros. lia.
Qed.

(** ** C97: exactly the JSON texts are accepted *)

(** jsonAllocateDocument reports no error exactly for the texts of the dialect the flags select. *)
Theorem C97_exact fl buf ptr : plain_flags fl -> 32 * N.of_nat (length buf) < 2 ^ 64 ->
  (exists d, allocate_document fl buf ptr = Some d /\ doc_err d = JOk)
  <-> exists t, json_text (dialect_of fl) buf t.
Proof.
  intros PF L. unfold allocate_document. cbv zeta. split.
  - intros (d & H & E).
    destruct (make_document fl buf _) as [[d' a']|] eqn:MD; [|discriminate].
    assert (d' = d) by congruence. subst d'. eapply JsonDom.document_sound; eauto.
  - intros (t & J).
    destruct (JsonBuild.document_accepts fl buf t _ PF J (fits_allocated buf t _ J L ptr)) as (v & a' & MD).
    rewrite MD. eexists. split; reflexivity.
Qed.

(** Without flags: RFC 8259. *)
Theorem C97_strict buf ptr : 32 * N.of_nat (length buf) < 2 ^ 64 ->
  (exists d, allocate_document 0 buf ptr = Some d /\ doc_err d = JOk)
  <-> exists t, json_text rfc8259 buf t.
Proof. intros L. exact (C97_exact 0 buf ptr plain_0 L). Qed.

(** With a pool of any size: an accepted text is a JSON text. *)
Theorem C97_sound fl buf a d a' : plain_flags fl -> make_document fl buf a = Some (d, a') ->
  doc_err d = JOk -> exists t, json_text (dialect_of fl) buf t.
Proof. apply JsonDom.document_sound. Qed.

(** The text determines the value. *)
Theorem C97_unambiguous d buf t1 t2 : json_text d buf t1 -> json_text d buf t2 -> t1 = t2.
Proof. apply JsonStream.text_unambiguous. Qed.

Example C97_case : exists d, allocate_document 0 sample 4096 = Some d /\ doc_err d = JOk.
Proof. eexists. split; [vm_compute; reflexivity|reflexivity]. Qed.
Example C97_case_text : json_text rfc8259 sample sample_tree.
Proof. exact sample_text. Qed.
(** Trailing commas, '=', plus signs and hexadecimal numbers. *)
Example C97_case_flags : let fl := 2 ^ 3 + 2 ^ 7 + 2 ^ 13 + 2 ^ 14 in
  plain_flags fl
  /\ (exists d, allocate_document fl (txt "{""a""=+0x1F,}") 4096 = Some d /\ doc_err d = JOk)
  /\ (exists d, allocate_document 0 (txt "{""a""=+0x1F,}") 4096 = Some d /\ doc_err d = JUnexpectedToken).
Proof.
  repeat split; eexists; (split; [vm_compute; reflexivity|reflexivity]).
Qed.
Example C97_case_rejected : Forall (fun s => exists d, allocate_document 0 (txt s) 4096 = Some d /\ doc_err d <> JOk)
  [""; " "; "01"; "1."; "[1,]"; "[1 2]"; "{""a"" 1}"; "{""a"":}"; """a"" ""b"""; "nul"; "[1]]"; "{]"; "-"; """\x"""]%string.
Proof. repeat constructor; eexists; (split; [vm_compute; reflexivity|discriminate]). Qed.

(** ** C100: unescaping strings *)

(** A string that ends with an escape sequence of two characters. *)
Definition final_escape (raw : list N) : Prop := exists p e x, raw = p ++ [92; e] /\ simple_escape e x.

(** jsonCopyUnescapedString with a buffer at least as long as the string: the meaning of the string,
    unless it ends with an escape sequence of two characters. *)
Lemma unescape_stored_same raw o : unescape raw o -> ~ final_escape raw -> stored raw o.
Proof.
  induction 1 as [|c s o C1 C2 C3 _ IH|e x s o SE U IH|v us t bs s o U E B _ IH]; intro NF.
  - constructor.
  - constructor; auto. apply IH. intros (p & e & x & -> & SE). apply NF. exists (c :: p), e, x. auto.
  - destruct s as [|y s]; [contradiction NF; exists [], e, x; auto|].
    constructor; auto; [discriminate|]. apply IH. intros (p & e' & x' & EQ & SE'). apply NF.
    exists (92 :: e :: p), e', x'. rewrite EQ. auto.
  - econstructor; eauto. apply IH. intros (p & e & x & -> & SE). apply NF. exists (t ++ p), e, x.
    now rewrite <- app_assoc.
Qed.

Theorem C100_unescape_partial raw o size : unescape raw o -> ~ final_escape raw -> (length raw <= size)%nat ->
  copy_unescaped_string raw size = Some o.
Proof.
  intros U NF L. apply JsonCopy.copy_string_stored; auto. now apply unescape_stored_same.
Qed.

(** Any bytes, well-formed or not: with a buffer at least as long as the string nothing is written
    behind the buffer, and not more bytes are reported than the string has. *)
Theorem C100_in_bounds_partial raw size : (length raw <= size)%nat ->
  exists o, copy_unescaped_string raw size = Some o /\ (length o <= length raw)%nat.
Proof. apply JsonCopy.copy_string_some. Qed.

(** The meaning of a string is unique. *)
Theorem C100_unique raw o1 o2 : unescape raw o1 -> unescape raw o2 -> o1 = o2.
Proof.
  assert (PAD : forall raw o, unescape raw o -> unescape (raw ++ [65]) (o ++ [65])).
  { induction 1; cbn [app].
    - apply J_plain; try (vm_compute; first [discriminate|lia]). constructor.
    - now constructor.
    - now constructor.
    - rewrite <- !app_assoc. econstructor; eauto. }
  intros H1 H2. apply PAD in H1, H2.
  assert (NF : ~ final_escape (raw ++ [65])).
  { intros (p & e & x & E & SE). change [92; e] with ([92] ++ [e]) in E. rewrite app_assoc in E.
    apply app_inj_tail in E. destruct E as [_ <-]. inversion SE. }
  pose proof (C100_unescape_partial _ _ (length (raw ++ [65])) H1 NF (Nat.le_refl _)) as C1.
  pose proof (C100_unescape_partial _ _ (length (raw ++ [65])) H2 NF (Nat.le_refl _)) as C2.
  rewrite C1 in C2. assert (o1 ++ [65] = o2 ++ [65]) as E by congruence. now apply app_inj_tail in E.
Qed.

(** A final two-character escape is copied as its letter, into any buffer that is large enough. *)
Theorem C100_final_escape_refuted : exists raw o, unescape raw o /\
  forall size, (length raw <= size)%nat -> copy_unescaped_string raw size = Some (txt "an") /\ o <> txt "an".
Proof.
  exists (txt "a\n"), [97; 10]. split.
  - apply J_plain; try (vm_compute; first [discriminate|lia]). eapply (J_escape 110 10); constructor.
  - intros size L. split; [|discriminate]. apply JsonCopy.copy_string_stored; auto.
    apply S_plain; try (vm_compute; first [discriminate|lia]). eapply S_escape_last. constructor.
Qed.
(** With a shorter buffer escapes of two characters are written behind it. *)
Theorem C100_short_buffer_refuted : exists raw o size, unescape raw o /\ copy_unescaped_string raw size = None.
Proof.
  exists (txt "\n\n\nx"), [10; 10; 10; 120], 2%nat. split; [|vm_compute; reflexivity].
  do 3 (eapply (J_escape 110 10); [constructor|]). apply J_plain; try (vm_compute; first [discriminate|lia]). constructor.
Qed.

(** U+1D11E as a pair of escapes. *)
Example C100_case : let raw := txt "x\t\ud834\uDD1E." in
  unescape raw [120; 9; 0xF0; 0x9D; 0x84; 0x9E; 46] /\ ~ final_escape raw
  /\ copy_unescaped_string raw (length raw) = Some [120; 9; 0xF0; 0x9D; 0x84; 0x9E; 46].
Proof.
  cbv zeta. split; [|split; [|vm_compute; reflexivity]].
  - apply J_plain; try (vm_compute; first [discriminate|lia]).
    eapply (J_escape 116 9); [constructor|].
    apply (J_unicode 0x1D11E [0xD834; 0xDD1E] (txt "\ud834\uDD1E") [0xF0; 0x9D; 0x84; 0x9E] [46] [46]).
    + apply (U16_2 0x1D11E). vm_compute. split; discriminate.
    + apply (UE_cons 100 56 51 52 13 8 3 4); [apply (H_lower 100)|apply (H_dec 56)|apply (H_dec 51)|apply (H_dec 52)|];
        try (vm_compute; split; discriminate).
      apply (UE_cons 68 68 49 69 13 13 1 14); [apply (H_upper 68)|apply (H_upper 68)|apply (H_dec 49)|apply (H_upper 69)|];
        try (vm_compute; split; discriminate). constructor.
    + apply (U8_4 0x1D11E). vm_compute. split; discriminate.
    + apply J_plain; try (vm_compute; first [discriminate|lia]). constructor.
  - intros (p & e & x & E & SE). apply (f_equal (@rev N)) in E. rewrite rev_app_distr in E.
    vm_compute in E. injection E as E1 E2. discriminate.
Qed.

(** ** C98: the document represents the text *)

Definition document_is (fl : N) (buf : list N) (t : tree) : Prop := forall ptr, exists d v,
  allocate_document fl buf ptr = Some d /\ doc_err d = JOk /\ doc_root d = Some v /\ repr unescape t v.

Fixpoint no_final_escape (t : tree) : Prop :=
  match t with
  | Scalar _ _ => True
  | Str raw => ~ final_escape raw
  | Obj ms => fold_right (fun m P => no_final_escape (snd m) /\ P) True ms
  | Arr vs => fold_right (fun v P => no_final_escape v /\ P) True vs
  end.

Lemma repr_unescape t : no_final_escape t -> forall v, repr stored t v -> repr unescape t v.
Proof.
  induction t as [ty s|raw|ms IH|vs IH] using JsonStream.tree_ind'; intros NF v R; inversion R; subst.
  - constructor.
  - constructor. destruct (JsonCopy.stored_unescape _ _ H0) as [U|F]; [exact U|]. contradiction (NF F).
  - constructor. cbn [no_final_escape] in NF. clear R.
    match goal with X : Forall2 _ _ _ |- _ => revert IH NF; induction X as [|[k w] [k' w'] ? ? [H1 H2] _ IHX] end; intros IH NF; constructor.
    + inversion IH; subst. cbn [fst snd fold_right] in *. split; [exact H1|]. apply H3; tauto.
    + inversion IH; subst. cbn [fold_right] in NF. apply IHX; tauto.
  - constructor. cbn [no_final_escape] in NF. clear R.
    match goal with X : Forall2 _ _ _ |- _ => revert IH NF; induction X as [|? ? ? ? H1 _ IHX] end; intros IH NF; constructor.
    + inversion IH; subst. cbn [fold_right] in *. apply H2; tauto.
    + inversion IH; subst. cbn [fold_right] in NF. apply IHX; tauto.
Qed.

(** The document of a JSON text has its structure, names, numbers and strings, provided no string
    ends with an escape sequence of two characters and an integer at the root is not the last
    thing of the buffer. *)
Theorem C98_content_partial fl buf t : plain_flags fl -> 32 * N.of_nat (length buf) < 2 ^ 64 ->
  json_text (dialect_of fl) buf t -> no_final_escape t -> integer_ended buf t -> document_is fl buf t.
Proof.
  intros PF L J NF IE ptr.
  destruct (JsonBuild.document_complete fl buf t _ PF J IE (fits_allocated buf t _ J L ptr)) as (v & a' & MD & RP & _).
  exists (Doc (Some v) JOk 0 0 (Some 0%nat) 0), v. unfold allocate_document. cbv zeta. rewrite MD.
  repeat split; auto. now apply repr_unescape.
Qed.

(** Without the condition on strings: what is stored for a string with a final escape is known. *)
Theorem C98_stored_partial fl buf t ptr : plain_flags fl -> 32 * N.of_nat (length buf) < 2 ^ 64 ->
  json_text (dialect_of fl) buf t -> integer_ended buf t -> exists d v,
  allocate_document fl buf ptr = Some d /\ doc_err d = JOk /\ doc_root d = Some v /\ repr stored t v.
Proof.
  intros PF L J IE.
  destruct (JsonBuild.document_complete fl buf t _ PF J IE (fits_allocated buf t _ J L ptr)) as (v & a' & MD & RP & _).
  exists (Doc (Some v) JOk 0 0 (Some 0%nat) 0), v. unfold allocate_document. cbv zeta. rewrite MD. auto.
Qed.

(** The document of "12" has an empty text as content; "12 " is fine. *)
Theorem C98_root_integer_refuted : exists buf t, json_text rfc8259 buf t /\ no_final_escape t
  /\ ~ document_is 0 buf t.
Proof.
  exists (txt "12"), (Scalar YUInt (txt "12")). repeat split.
  - exists [], (txt "12"), []. repeat split; try constructor. apply (N_pos _ (txt "12") true). constructor.
    right. split; [dig|discriminate].
  - intros H. destruct (H 0) as (d & v & A & _ & R & X).
    assert (E : allocate_document 0 (txt "12") 0 = Some (Doc (Some (VScalar YUInt [])) JOk 0 0 (Some 0%nat) 0))
      by (vm_compute; reflexivity).
    rewrite E in A. injection A as <-. injection R as <-. inversion X.
Qed.
(** The document of "a\n" (with the two characters backslash and n) holds the string "an". *)
Theorem C98_final_escape_refuted : exists buf t, json_text rfc8259 buf t /\ integer_ended buf t
  /\ ~ document_is 0 buf t.
Proof.
  exists (txt """a\n"""), (Str (txt "a\n")). repeat split.
  - exists [], (txt """a\n"""), []. repeat split; try constructor. apply (V_string _ (txt "a\n") [97; 10]).
    apply J_plain; try (vm_compute; first [discriminate|lia]). eapply (J_escape 110 10); constructor.
  - intros H. destruct (H 0) as (d & v & A & _ & R & X).
    assert (E : allocate_document 0 (txt """a\n""") 0 = Some (Doc (Some (VString (txt "an"))) JOk 0 0 (Some 0%nat) 0))
      by (vm_compute; reflexivity).
    rewrite E in A. injection A as <-. injection R as <-. inversion X as [|? ? U| |]; subst.
    assert (U' : unescape (txt "a\n") [97; 10]).
    { apply J_plain; try (vm_compute; first [discriminate|lia]). eapply (J_escape 110 10); constructor. }
    pose proof (C100_unique _ _ _ U U') as K. discriminate.
Qed.

Example C98_case : no_final_escape sample_tree /\ integer_ended sample sample_tree
  /\ allocate_document 0 sample 4096 = Some (Doc (Some (VObject 2
       [(txt "a", VArray 3 [VScalar YUInt (txt "1"); VScalar YFloat (txt "-2.5e+3"); VScalar YBool (txt "true")]);
        (txt "b", VString [120; 9; 121])])) JOk 0 0 (Some 0%nat) 0).
Proof.
  split; [|split; [exact I|vm_compute; reflexivity]]. cbn. repeat split; auto.
  intros (p & e & x & E & SE). apply (f_equal (@rev N)) in E. rewrite rev_app_distr in E.
  vm_compute in E. injection E as E1 E2. discriminate.
Qed.

(** ** C99: no undefined behaviour *)

(** Whatever the buffer holds, the functions stay inside it, inside the pool and inside the arrays
    they allocate, and no assertion fails; unless the buffer ends in the middle of an exponent. *)
Theorem C99_in_bounds_partial fl buf a : plain_flags fl -> ~ open_exponent buf ->
  exists d a', make_document fl buf a = Some (d, a').
Proof. apply JsonTotal.document_total. Qed.

(** "1e": the byte behind the buffer is read. *)
Theorem C99_open_exponent_refuted : exists buf, allocate_document 0 buf 4096 = None.
Proof. exists (txt "1e"). vm_compute. reflexivity. Qed.
(** With comments enabled a bracket inside a comment makes jsonMakeDocument count one value and
    write three. *)
Theorem C99_comment_refuted : exists fl buf, fl = 2 ^ 0 /\ ~ open_exponent buf /\ allocate_document fl buf 4096 = None.
Proof.
  exists (2 ^ 0), (txt "[[ // ]" ++ [10] ++ txt " ], 2, 3]"). split; [reflexivity|].
  split; [|vm_compute; reflexivity].
  intros (p & d & e & sg & E & _ & EE & _).
  assert (IN : In e (txt "[[ // ]" ++ [10] ++ txt " ], 2, 3]")) by (rewrite E; apply in_or_app; cbn; auto).
  cbn in IN. destruct EE; subst e; intuition discriminate.
Qed.

Example C99_case : ~ open_exponent (txt "{""a"":[1,") /\ exists d, allocate_document 0 (txt "{""a"":[1,") 4096 = Some d
  /\ doc_err d <> JOk.
Proof.
  split; [|eexists; (split; [vm_compute; reflexivity|discriminate])].
  intros (p & d & e & sg & E & _ & EE & _).
  assert (IN : In e (txt "{""a"":[1,")) by (rewrite E; apply in_or_app; cbn; auto).
  cbn in IN. destruct EE; subst e; intuition discriminate.
Qed.


(** ** C101: memory of a document *)

(** A pool with [cost t] free bytes is enough for a document of the value [t], and not more of it is
    used; 32 bytes for each byte of the text are always enough. *)
Theorem C101_sufficient_partial fl buf t a : plain_flags fl -> json_text (dialect_of fl) buf t ->
  integer_ended buf t -> a_size a + cost t <= a_cap a -> a_cap a < 2 ^ 64 -> exists d v a',
  make_document fl buf a = Some (d, a') /\ doc_err d = JOk /\ doc_root d = Some v /\ repr stored t v
  /\ a_size a' <= a_size a + cost t /\ a_cap a' = a_cap a.
Proof.
  intros PF J IE F C.
  destruct (JsonBuild.document_complete fl buf t a PF J IE (conj F C)) as (v & a' & MD & RP & S1 & S2).
  exists (Doc (Some v) JOk 0 0 (Some 0%nat) 0), v, a'. auto 8.
Qed.
Theorem C101_bound d buf t : json_text d buf t -> cost t <= 32 * N.of_nat (length buf).
Proof.
  intros (w & s & w' & EB & _ & _ & V). apply (JsonBuild.cost_bound d) in V.
  assert (LB : N.of_nat (length s) <= N.of_nat (length buf)) by (rewrite EB, !app_length; lia).
  revert V LB. generalize (cost t), (N.of_nat (length s)), (N.of_nat (length buf)). intros. lia.
Qed.

(** Too little memory is not reported as such: with an empty pool "[1]" is an "unexpected token". *)
Theorem C101_masked_refuted : exists buf t d a', json_text rfc8259 buf t
  /\ make_document 0 buf (Alloc 4096 0 0) = Some (d, a') /\ doc_err d = JUnexpectedToken.
Proof.
  exists (txt "[1]"), (Arr [Scalar YUInt (txt "1")]).
  eexists _, _. split; [|split; [vm_compute; reflexivity|reflexivity]].
  exists [], (txt "[1]"), []. repeat split; try constructor.
  apply (V_array _ [] (txt "1") _ (txt "]")); [constructor| |apply (AT_end _ []); constructor].
  apply V_number. apply (N_pos _ (txt "1") true). constructor. right. split; [dig|discriminate].
Qed.
(** And a string without memory is silently replaced by a null string. *)
Theorem C101_lost_string_refuted : exists buf t d a', json_text rfc8259 buf t
  /\ make_document 0 buf (Alloc 4096 0 0) = Some (d, a') /\ doc_err d = JOk /\ doc_root d = Some VNoString.
Proof.
  exists (txt """a"""), (Str (txt "a")).
  eexists _, _. split; [|split; [vm_compute; reflexivity|split; reflexivity]].
  exists [], (txt """a"""), []. repeat split; try constructor.
  apply (V_string _ (txt "a") (txt "a")). apply J_plain; try (vm_compute; first [discriminate|lia]). constructor.
Qed.

Example C101_case : cost sample_tree = 214 /\ N.of_nat (length sample) = 38
  /\ exists d a', make_document 0 sample (Alloc 4096 0 214) = Some (d, a') /\ doc_err d = JOk /\ a_size a' = 197.
Proof. repeat split; try (vm_compute; reflexivity). eexists _, _. split; [vm_compute; reflexivity|split; reflexivity]. Qed.

(** ** C102: skipping *)

(** After the opening bracket of an object or array jsonSkipCurrent goes to the matching bracket:
    what is read next is what follows the value. *)
Theorem C102_skip_partial fl c (obj : bool) u t z r : plain_flags fl ->
  value (dialect_of fl) ((if obj then 123 else 91) :: u) t -> rest r = u ++ z -> err r = JOk ->
  last r = (if obj then TObjectStart else TArrayStart) ->
  exists r', skip_current fl c r = Some (true, r') /\ rest r' = z /\ err r' = JOk
    /\ last r' = (if obj then TObjectEnd else TArrayEnd).
Proof.
  intros PF V R E L. rewrite (JsonTotal.skip_current_start fl c obj r E L).
  assert (S : exists u', u = u' ++ [if obj then 125 else 93] /\ JsonSkip.skips fl obj u').
  { destruct obj; [eapply JsonTotal.object_value_skips|eapply JsonTotal.array_value_skips]; eauto. }
  destruct S as (u' & -> & SK). rewrite <- app_assoc in R.
  destruct (JsonSkip.skip_inner fl obj u' z r PF SK R) as (r' & H & R' & L' & E').
  exists r'. repeat split; auto. congruence.
Qed.

(** After the name of a member it skips the value, whatever it is. *)
Theorem C102_skip_member_partial fl w x w' s t z r : plain_flags fl -> ws w -> ws w' -> colon (dialect_of fl) x ->
  value (dialect_of fl) s t -> rest r = w ++ x :: w' ++ s ++ z -> err r = JOk -> last r = TPropertyName ->
  (exists c z', z = c :: z' /\ (wsp c \/ c = 44 \/ c = 125)) ->
  exists r', skip_current fl CObject r = Some (true, r') /\ rest r' = z /\ err r' = JOk.
Proof.
  intros PF W W' CO V R E L Z.
  assert (F : JsonLex.follow_ok z /\ z <> []).
  { destruct Z as (c & z' & -> & C). cbn. split; [tauto|discriminate]. }
  destruct F as [F ZN].
  destruct (JsonBuild.read_complete fl PF) as (RC & _).
  set (buf := rest r).
  assert (exists pre, JsonTok.inside (pre ++ buf) r /\ length pre = off r) as (pre & IN & _).
  { exists (repeat 0 (off r)). rewrite repeat_length. split; [|reflexivity]. unfold JsonTok.inside.
    rewrite <- (repeat_length 0 (off r)) at 1. now rewrite JsonTok.skipn_app_length. }
  destruct (RC s t V CObject (pre ++ buf) r (w ++ x :: w') TPropertyColon z) as (t0 & r1 & T & E1 & _ & L1 & H); auto.
  { rewrite L. now constructor. }
  { reflexivity. }
  { rewrite R. now rewrite <- app_assoc. }
  { left. exact ZN. }
  destruct (JsonTotal.skip_after_name fl r t0 r1 PF E L T E1 L1) as (S1 & S2 & S3).
  destruct H as [(-> & R1 & _)|[(-> & (r2 & SK & R2 & _ & E2) & _)|(-> & (r2 & SK & R2 & _ & E2) & _)]].
  - exists r1. rewrite S1; auto.
  - exists r2. rewrite S2, SK; auto.
  - exists r2. rewrite S3, SK; auto.
Qed.

(** With comments enabled the bracket of a comment ends the array too early. *)
Theorem C102_comment_refuted : exists buf r r',
  next_token (2 ^ 0) CNull (make_reader buf) = Some (TArrayStart, r)
  /\ buf = txt "[ // ]" ++ [10] ++ txt " 1 ]"
  /\ skip_current (2 ^ 0) CNull r = Some (true, r') /\ rest r' = [10] ++ txt " 1 ]".
Proof.
  exists (txt "[ // ]" ++ [10] ++ txt " 1 ]"). eexists _, _.
  split; [vm_compute; reflexivity|]. split; [reflexivity|]. split; vm_compute; reflexivity.
Qed.

Example C102_case : exists r r', next_token 0 CNull (make_reader sample) = Some (TObjectStart, r)
  /\ rest r = tl sample ++ [] /\ err r = JOk /\ last r = TObjectStart
  /\ value rfc8259 (123 :: tl sample) sample_tree
  /\ skip_current 0 CNull r = Some (true, r') /\ rest r' = [].
Proof.
  eexists _, _. split; [vm_compute; reflexivity|].
  split; [vm_compute; reflexivity|]. split; [reflexivity|]. split; [reflexivity|].
  split; [|split; vm_compute; reflexivity].
  destruct sample_text as (w & s & w' & EB & W & W' & V).
  assert (w = []) as ->.
  { destruct w as [|y w]; [reflexivity|]. inversion W as [|? ? Y]. subst. vm_compute in EB. injection EB as EB _.
    unfold wsp in Y. lia. }
  assert (w' = []) as ->.
  { destruct w' as [|y w'] using rev_ind; [reflexivity|]. apply Forall_app in W'. destruct W' as [_ Y]. inversion Y as [|? ? Y1]. subst.
    apply (f_equal (@rev N)) in EB. cbn [app] in EB. rewrite app_assoc, rev_app_distr in EB. vm_compute in EB. injection EB as EB _.
    unfold wsp in Y1. lia. }
  rewrite app_nil_r in EB. cbn [app] in EB. subst s. exact V.
Qed.

(** ** C103: the stack of contexts *)

(** The contexts a stack stands for, innermost first. *)
Definition contexts (st : cstack) : list ctx := flat_map (fun e => repeat (fst e) (N.to_nat (snd e))) (cs_entries st).

Lemma contexts_cons c n t cap : 1 <= n -> contexts (CStack ((c, n) :: t) cap)
  = c :: repeat c (N.to_nat (n - 1)) ++ contexts (CStack t cap).
Proof.
  intro H. unfold contexts. cbn [cs_entries flat_map fst snd].
  replace (N.to_nat n) with (S (N.to_nat (n - 1))) by lia. reflexivity.
Qed.

Lemma contexts_length st : JsonStream.wf st -> (length (cs_entries st) <= length (contexts st))%nat.
Proof.
  intros [F _]. destruct st as [es cap]. cbn [cs_entries] in *. unfold contexts. cbn [cs_entries].
  induction F as [|[c n] es H _ IH]; cbn [flat_map length fst snd]; [lia|].
  rewrite app_length, repeat_length. cbn [snd] in H. lia.
Qed.

(** Pushing works as long as fewer contexts are open than the stack has entries, and then it is the
    push of a plain stack. *)
Theorem C103_push st c : JsonStream.wf st ->
  ((length (contexts st) < cs_cap st)%nat -> exists st', push_context st c = Some st')
  /\ forall st', push_context st c = Some st' ->
       contexts st' = c :: contexts st /\ cs_cap st' = cs_cap st /\ JsonStream.wf st'
       /\ top_context st' = c /\ pop_context st' c = Some (Some st).
Proof.
  intros W. split.
  - intros L. apply JsonStream.push_some. pose proof (contexts_length st W). lia.
  - intros st' P. destruct (JsonStream.push_pop _ _ _ W P) as (W' & _ & C & PO).
    pose proof (JsonStream.push_top _ _ _ P) as T. split; [|auto].
    destruct st as [es cap]. unfold push_context in P. cbn [cs_entries cs_cap] in P.
    destruct W as [F _]. cbn [cs_entries] in F. destruct es as [|[c' n] es].
    + destruct (Nat.ltb 0 cap); [|discriminate]. assert (st' = CStack [(c, 1)] cap) by congruence. subst st'. reflexivity.
    + assert (N1 : 1 <= n) by (inversion F as [|? ? H]; cbn [snd] in H; lia).
      destruct (ctx_eqb c' c && (n <? 255)) eqn:EB.
      * apply andb_prop in EB. destruct EB as [EB _]. apply JsonStream.ctx_eqb_spec in EB. subst c'.
        assert (st' = CStack ((c, n + 1) :: es) cap) by congruence. subst st'.
        rewrite !contexts_cons by lia. replace (n + 1 - 1) with n by lia.
        replace (N.to_nat n) with (S (N.to_nat (n - 1))) by lia. reflexivity.
      * destruct (Nat.ltb _ _); [|discriminate].
        assert (st' = CStack ((c, 1) :: (c', n) :: es) cap) by congruence. subst st'. reflexivity.
Qed.

(** Popping never fails an assertion, succeeds exactly if the innermost context is the one asked
    for, and removes it. *)
Theorem C103_pop st c : JsonStream.wf st ->
  match contexts st with
  | [] => pop_context st c = Some None
  | c' :: cs =>
      (c' <> c -> pop_context st c = Some None)
      /\ (c' = c -> exists st', pop_context st c = Some (Some st') /\ contexts st' = cs
            /\ cs_cap st' = cs_cap st /\ JsonStream.wf st')
  end.
Proof.
  destruct st as [es cap]. intros [F L]. cbn [cs_entries cs_cap] in *. destruct es as [|[c' n] es]; [reflexivity|].
  inversion F as [|? ? H F']; subst. cbn [snd] in H. rewrite contexts_cons by lia.
  unfold pop_context. cbn [cs_entries cs_cap]. split.
  - intro NE. destruct (ctx_eqb c' c) eqn:EB; [apply JsonStream.ctx_eqb_spec in EB; contradiction|reflexivity].
  - intros <-. replace (ctx_eqb c' c') with true by (destruct c'; reflexivity). cbn [negb].
    destruct (N.ltb_spec 1 n).
    + eexists. split; [reflexivity|]. split; [|split; [reflexivity|split; [constructor; [cbn [snd]; lia|exact F']|exact L]]].
      rewrite contexts_cons by lia. replace (N.to_nat (n - 1)) with (S (N.to_nat (n - 1 - 1))) by lia. reflexivity.
    + replace n with 1 by lia. eexists. split; [reflexivity|]. split; [reflexivity|].
      split; [reflexivity|]. split; [exact F'|]. cbn [cs_entries cs_cap length] in *. lia.
Qed.

(** jsonNextToken: the array of entries is never overrun, and the open contexts are those of the
    tokens it reported. *)
Theorem C103_next_token fl r st t r' st' : JsonStream.wf st -> next_token_explicit fl r st = Some (t, r', st') ->
  JsonStream.wf st' /\ cs_cap st' = cs_cap st
  /\ match t with
     | TObjectStart => contexts st' = CObject :: contexts st
     | TArrayStart => contexts st' = CArray :: contexts st
     | TObjectEnd => contexts st = CObject :: contexts st'
     | TArrayEnd => contexts st = CArray :: contexts st'
     | _ => contexts st' = contexts st
     end.
Proof.
  intros W H. unfold next_token_explicit in H.
  destruct (next_token fl (top_context st) r) as [[t1 r1]|]; [|discriminate].
  assert (PUSH : forall c t1 e, (match push_context st c with
      | Some st => Some (t1, r1, st) | None => Some (TError, e, st) end) = Some (t, r', st') ->
    (t = TError /\ st' = st) \/ (t = t1 /\ push_context st c = Some st')).
  { intros c t2 e X. destruct (push_context st c); [right|left]; split; congruence. }
  assert (POP : forall c t1 e, (p <- pop_context st c;; match p with
      | Some st => Some (t1, r1, st) | None => Some (TError, e, st) end) = Some (t, r', st') ->
    (t = TError /\ st' = st) \/ (t = t1 /\ pop_context st c = Some (Some st'))).
  { intros c t2 e X. destruct (pop_context st c) as [[s|]|]; [right|left|discriminate]; split; congruence. }
  assert (PO : forall c, pop_context st c = Some (Some st') -> contexts st = c :: contexts st'
    /\ JsonStream.wf st' /\ cs_cap st' = cs_cap st).
  { intros c X. pose proof (C103_pop st c W) as K. destruct (contexts st) as [|c' cs]; [congruence|].
    destruct K as [K1 K2]. assert (c' = c).
    { destruct (ctx_eqb c' c) eqn:EB; [now apply JsonStream.ctx_eqb_spec|].
      assert (c' <> c) by (intro; subst; destruct c; discriminate). rewrite K1 in X by assumption. discriminate. }
    destruct (K2 H0) as (s & P1 & P2 & P3 & P4). assert (s = st') by congruence. subst. auto. }
  assert (PU : forall c, push_context st c = Some st' -> contexts st' = c :: contexts st
    /\ JsonStream.wf st' /\ cs_cap st' = cs_cap st).
  { intros c X. destruct (C103_push st c W) as [_ K]. destruct (K st' X) as (K1 & K2 & K3 & _). auto. }
  destruct t1; try (injection H as <- <- <-; now auto).
  - apply PUSH in H. destruct H as [[-> ->]|[-> H]]; [auto|]. apply PU in H. tauto.
  - apply PUSH in H. destruct H as [[-> ->]|[-> H]]; [auto|]. apply PU in H. tauto.
  - apply POP in H. destruct H as [[-> ->]|[-> H]]; [auto|]. apply PO in H. tauto.
  - apply POP in H. destruct H as [[-> ->]|[-> H]]; [auto|]. apply PO in H. tauto.
Qed.

(** 300 nested arrays need two entries. *)
Example C103_case : exists st, Nat.iter 300 (fun o => s <- o;; push_context s CArray) (Some (CStack [] 2)) = Some st
  /\ JsonStream.wf st /\ length (contexts st) = 300%nat /\ push_context st CObject = None.
Proof.
  exists (CStack [(CArray, 45); (CArray, 255)] 2). split; [vm_compute; reflexivity|].
  split; [split; [repeat constructor; cbn [snd]; lia|cbn; lia]|]. split; vm_compute; reflexivity.
Qed.

(** ** C104: the token stream *)

(** Calling jsonNextToken again and again on a JSON text reports the events of its value, in order,
    with names, types and texts, and then the end; a stack with an entry for each level is enough. *)
Theorem C104_stream_partial fl buf t cap : plain_flags fl -> json_text (dialect_of fl) buf t ->
  integer_ended buf t -> (depth t <= cap)%nat ->
  JsonStream.tokens (S (length (events t))) fl buf (make_reader buf) (CStack [] cap)
  = Some (events t ++ [(TEof, None)]).
Proof. apply JsonStream.stream_of_text. Qed.

(** The text of an integer at the end of the buffer is reported as empty. *)
Theorem C104_root_integer_refuted : exists buf t, json_text rfc8259 buf t
  /\ JsonStream.tokens (S (length (events t))) 0 buf (make_reader buf) (CStack [] 8)
     = Some [(TValue, Some (YUInt, [])); (TEof, None)] /\ events t = [(TValue, Some (YUInt, txt "7"))].
Proof.
  exists (txt "7"), (Scalar YUInt (txt "7")). split; [|split; vm_compute; reflexivity].
  exists [], (txt "7"), []. repeat split; try constructor. apply (N_pos _ (txt "7") true). constructor.
  right. split; [dig|discriminate].
Qed.
(** Two strings one after the other are not reported as an error. *)
Theorem C104_two_roots_refuted : exists buf es, ~ (exists t, json_text rfc8259 buf t)
  /\ JsonStream.tokens 3 0 buf (make_reader buf) (CStack [] 8) = Some es
  /\ es = [(TValue, Some (YString, txt "a")); (TValue, Some (YString, txt "b")); (TEof, None)].
Proof.
  exists (txt """a"" ""b"""). eexists. split; [|split; [vm_compute; reflexivity|reflexivity]].
  intros H. apply (C97_strict _ 4096) in H; [|vm_compute; reflexivity].
  destruct H as (d & A & E).
  assert (K : exists d', allocate_document 0 (txt """a"" ""b""") 4096 = Some d' /\ doc_err d' = JUnexpectedToken)
    by (eexists; split; [vm_compute; reflexivity|reflexivity]).
  destruct K as (d' & A' & E'). rewrite A in A'. assert (d = d') by congruence. subst. congruence.
Qed.

Example C104_case : depth sample_tree = 2%nat
  /\ JsonStream.tokens 20 0 sample (make_reader sample) (CStack [] 2) = Some (events sample_tree ++ [(TEof, None)]).
Proof. split; vm_compute; reflexivity. Qed.

Print Assumptions C97_exact.
Print Assumptions C97_strict.
Print Assumptions C97_sound.
Print Assumptions C97_unambiguous.
Print Assumptions C100_unescape_partial.
Print Assumptions C100_in_bounds_partial.
Print Assumptions C100_unique.
Print Assumptions C100_final_escape_refuted.
Print Assumptions C100_short_buffer_refuted.
Print Assumptions C98_content_partial.
Print Assumptions C98_stored_partial.
Print Assumptions C98_root_integer_refuted.
Print Assumptions C98_final_escape_refuted.
Print Assumptions C99_in_bounds_partial.
Print Assumptions C99_open_exponent_refuted.
Print Assumptions C99_comment_refuted.
Print Assumptions C101_sufficient_partial.
Print Assumptions C101_bound.
Print Assumptions C101_masked_refuted.
Print Assumptions C101_lost_string_refuted.
Print Assumptions C102_skip_partial.
Print Assumptions C102_skip_member_partial.
Print Assumptions C102_comment_refuted.
Print Assumptions C103_push.
Print Assumptions C103_pop.
Print Assumptions C103_next_token.
Print Assumptions C104_stream_partial.
Print Assumptions C104_root_integer_refuted.
Print Assumptions C104_two_roots_refuted.
