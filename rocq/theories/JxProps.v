(** The extended JSON reader (jsonNextTokenEx, jsonAllocateDocumentEx): C168 to C174. *)
From Coq Require Import Arith NArith Bool Lia Ascii String List.
From Verif Require Import Base DigitsSpec UniSpec JsonModel JsonSpec JsonProps JsonTok JsonStream JxModel JxSame JxSpec.
From Verif Require JxBuild JxStream JxTok JxConcat JxTotal.
Import ListNotations.
Local Open Scope N_scope.

(** A text with ` for the quotation mark. *)
Definition qtx (s : string) : list N := map (fun c => if c =? 96 then 34 else c) (bytes_of s).

(** ** C168: the extended reader reads what the plain reader reads *)

(** Every token of the plain reader is reported by the extended reader as well, whatever further
    extensions are enabled (other than escaped line breaks and concatenated strings). *)
Theorem C168_tokens_partial fl fl' c r t r' : extends fl fl' -> err r = JOk ->
  next_token fl c r = Some (t, r') -> t <> TError -> next_token_ex fl' c r = Some (t, r').
Proof. intro X. exact (next_token_mono fl fl' X c r t r'). Qed.

(** The token stream of a JSON text. *)
Theorem C168_stream_partial fl fl' buf t cap : extends fl fl' -> json_text (dialect_of fl) buf t ->
  integer_ended buf t -> (depth t <= cap)%nat ->
  JxStream.tokens_ex (S (List.length (events t))) fl' buf (make_reader buf) (CStack [] cap)
  = Some (events t ++ [(TEof, None)]).
Proof.
  intros X J IE D. apply (JxStream.tokens_mono fl fl' buf _ X); [reflexivity| |].
  - apply stream_of_text; auto. apply X.
  - apply Forall_app. split; [|repeat constructor; discriminate]. clear. unfold events.
    assert (G : forall t, Forall (fun e : event => fst e <> TError) (events t)).
    { fix IH 1. intros [ty s|raw|ms|vs]; cbn [events].
      - repeat constructor; discriminate.
      - repeat constructor; discriminate.
      - constructor; [discriminate|]. apply Forall_app. split; [|repeat constructor; discriminate].
        induction ms as [|[n v] ms IHm]; cbn; [constructor|]. constructor; [discriminate|].
        apply Forall_app. split; [apply IH|exact IHm].
      - constructor; [discriminate|]. apply Forall_app. split; [|repeat constructor; discriminate].
        induction vs as [|v vs IHv]; cbn; [constructor|]. apply Forall_app. split; [apply IH|exact IHv]. }
    apply G.
Qed.

(** A text that jsonAllocateDocument accepts is accepted by jsonAllocateDocumentEx. *)
Theorem C168_documents fl fl' buf ptr : extends fl fl' -> 32 * N.of_nat (List.length buf) < 2 ^ 64 ->
  (exists d, allocate_document fl buf ptr = Some d /\ doc_err d = JOk) ->
  exists d, allocate_document_ex fl' buf ptr = Some d /\ doc_err d = JOk.
Proof.
  intros X L H. apply C97_exact in H; [|apply X|exact L]. destruct H as (t & J).
  destruct (JxBuild.document_accepts fl' fl buf t _ X J (fits_allocated buf t _ J L ptr)) as (v & a' & MD).
  eexists. unfold allocate_document_ex. cbv zeta. rewrite MD. split; reflexivity.
Qed.

(** ... and the document has the same content as that of jsonAllocateDocument (C98). *)
Theorem C168_content_partial fl fl' buf t ptr : extends fl fl' -> 32 * N.of_nat (List.length buf) < 2 ^ 64 ->
  json_text (dialect_of fl) buf t -> integer_ended buf t -> exists d v,
  allocate_document_ex fl' buf ptr = Some d /\ doc_err d = JOk /\ doc_root d = Some v /\ repr stored t v
  /\ (no_final_escape t -> repr unescape t v).
Proof.
  intros X L J IE.
  destruct (JxBuild.document_complete fl' fl buf t _ X J IE (fits_allocated buf t _ J L ptr)) as (v & a' & MD & RP & _).
  exists (Doc (Some v) JOk 0 0 (Some 0%nat) 0), v. unfold allocate_document_ex. cbv zeta. rewrite MD.
  repeat split; auto. intro. now apply repr_unescape.
Qed.

(** The memory needed is the same (C101). *)
Theorem C168_memory_partial fl fl' buf t a : extends fl fl' -> json_text (dialect_of fl) buf t ->
  integer_ended buf t -> a_size a + cost t <= a_cap a -> a_cap a < 2 ^ 64 -> exists d a',
  make_document_ex fl' buf a = Some (d, a') /\ doc_err d = JOk
  /\ a_size a' <= a_size a + cost t /\ a_cap a' = a_cap a.
Proof.
  intros X J IE F C.
  destruct (JxBuild.document_complete fl' fl buf t a X J IE (conj F C)) as (v & a' & MD & RP & S1 & S2).
  eexists _, a'. split; [exact MD|]. auto.
Qed.

(** Not the other way round: without any extension jsonAllocateDocumentEx accepts a text that is
    not JSON, and a left over string makes the assertion at its end fail. *)
Theorem C168_trailing_refuted : exists buf d, allocate_document_ex 0 buf 4096 = Some d /\ doc_err d = JOk
  /\ ~ (exists t, json_text rfc8259 buf t).
Proof.
  exists (qtx "{} `x`"). eexists. split; [vm_compute; reflexivity|]. split; [reflexivity|].
  intros H. apply (C97_strict _ 4096) in H; [|vm_compute; reflexivity]. destruct H as (d & A & E).
  assert (K : exists d', allocate_document 0 (qtx "{} `x`") 4096 = Some d' /\ doc_err d' = JUnexpectedToken)
    by (eexists; split; [vm_compute; reflexivity|reflexivity]).
  destruct K as (d' & A' & E'). assert (d = d') by congruence. subst. congruence.
Qed.
Theorem C168_assertion_refuted : exists buf, allocate_document_ex 0 buf 4096 = None
  /\ exists d, allocate_document 0 buf 4096 = Some d /\ doc_err d = JUnexpectedToken.
Proof.
  exists (qtx "{}`x` "). split; [vm_compute; reflexivity|]. eexists. split; [vm_compute; reflexivity|reflexivity].
Qed.

(** Everything but escaped line breaks and concatenated strings. *)
Definition most_flags : N := 2 ^ 18 - 1 - 2 ^ 7 - 2 ^ 8 - 2 ^ 11 - 2 ^ 12.
Lemma extends_most : extends 0 most_flags.
Proof. constructor; try reflexivity; try discriminate. exact plain_0. Qed.
Example C168_case : exists d, allocate_document 0 sample 4096 = Some d
  /\ allocate_document_ex most_flags sample 4096 = Some d /\ doc_err d = JOk.
Proof. eexists. split; [vm_compute; reflexivity|]. split; [vm_compute; reflexivity|reflexivity]. Qed.
Example C168_case_stream :
  JxStream.tokens_ex 20 most_flags sample (make_reader sample) (CStack [] 2) = Some (events sample_tree ++ [(TEof, None)]).
Proof. vm_compute. reflexivity. Qed.

(** ** C169: names of values in any case, Infinity and NaN *)

(** true, false and null in any case are reported as values. *)
Theorem C169_any_case fl c buf r p l x k ty z : N.testbit fl 15 = true -> err r = JOk -> inside buf r ->
  prefix (dialect_of fl) c (last r) p l -> follows c (root r) l ->
  (k, ty) = (bytes_of "true", YBool) \/ (k, ty) = (bytes_of "false", YBool) \/ (k, ty) = (bytes_of "null", YNull) ->
  spells x k -> rest r = p ++ x ++ z -> exists r', reports fl c buf r TValue x z r' /\ vt r' = ty.
Proof.
  intros B OK I P F K S R. apply (JxTok.keyword_token fl c buf r p l x k ty z); auto.
  unfold JxTok.keyword. destruct K as [K|[K|K]]; injection K as -> ->; auto.
Qed.

(** Infinity and NaN, in any case if that is enabled, with a sign: reported as a floating point
    value, sign included. *)
Theorem C169_float_names fl c buf r p l sg x z : N.testbit fl 6 = true -> sign_ok fl sg ->
  (if N.testbit fl 15 then spells x (bytes_of "infinity") \/ spells x (bytes_of "nan")
   else x = bytes_of "Infinity" \/ x = bytes_of "NaN") ->
  err r = JOk -> inside buf r -> prefix (dialect_of fl) c (last r) p l -> follows c (root r) l ->
  rest r = p ++ (sg ++ x) ++ z -> exists r', reports fl c buf r TValue (sg ++ x) z r' /\ vt r' = YFloat.
Proof. exact (JxTok.float_name_token fl c buf r p l sg x z). Qed.

Example C169_case : exists d, allocate_document_ex (2 ^ 15 + 2 ^ 6) (qtx "[nAn, -INFINITY, TRUE, nulL]") 4096 = Some d
  /\ doc_root d = Some (VArray 4 [VScalar YFloat (qtx "nAn"); VScalar YFloat (qtx "-INFINITY");
       VScalar YBool (qtx "TRUE"); VScalar YNull (qtx "nulL")]).
Proof. eexists. split; vm_compute; reflexivity. Qed.
Example C169_case_spells : spells (qtx "nUlL") (bytes_of "null").
Proof. repeat constructor; vm_compute; intuition discriminate. Qed.

(** ** C170: names without quotation marks *)

(** An identifier in front of a colon is the name of a property. *)
Theorem C170_name fl buf r p l h y z : N.testbit fl 4 = true -> JxTok.name_start h -> Forall JxTok.name_char y ->
  (match z with c :: _ => ~ JxTok.name_char c | [] => True end) ->
  err r = JOk -> inside buf r -> prefix (dialect_of fl) CObject (last r) p l -> l = TObjectStart \/ l = TComma ->
  rest r = p ++ (h :: y) ++ z -> exists r', reports fl CObject buf r TPropertyName (h :: y) z r'.
Proof. exact (JxTok.unquoted_token fl buf r p l h y z). Qed.

Example C170_case : exists d, allocate_document_ex (2 ^ 4) (qtx "{abc:1, $d9_ : [2,3]}") 4096 = Some d
  /\ doc_root d = Some (VObject 2 [(qtx "abc", VScalar YUInt (qtx "1"));
       (qtx "$d9_", VArray 2 [VScalar YUInt (qtx "2"); VScalar YUInt (qtx "3")])]).
Proof. eexists. split; vm_compute; reflexivity. Qed.

(** ** C171: comments *)

(** A block comment ends at the first "*/"; its content is what is between; what may follow is what
    could follow before. *)
Theorem C171_block fl c buf r p l body z : N.testbit fl 1 = true -> free_of (bytes_of "*/") body ->
  err r = JOk -> inside buf r -> prefix (dialect_of fl) c (last r) p l ->
  rest r = p ++ bytes_of "/*" ++ body ++ bytes_of "*/" ++ z ->
  exists r', reports_comment fl c buf r l body z r'.
Proof. exact (JxTok.block_token fl c buf r p l body z). Qed.

(** A comment of one line, "//" or "#", ends at the line break or at the end of the text. *)
Theorem C171_line fl c buf r p l mark body t z :
  (mark = bytes_of "//" /\ N.testbit fl 0 = true) \/ (mark = bytes_of "#" /\ N.testbit fl 2 = true) ->
  JxTok.line_of fl body t z -> err r = JOk -> inside buf r -> prefix (dialect_of fl) c (last r) p l ->
  rest r = p ++ mark ++ t -> exists r', reports_comment fl c buf r l body z r'.
Proof. exact (JxTok.line_token fl c buf r p l mark body t z). Qed.

(** A block comment without an end is not an error: its text is read as the value. *)
Theorem C171_unterminated_refuted : exists d, allocate_document_ex (2 ^ 1) (bytes_of "/* true") 4096 = Some d
  /\ doc_err d = JOk /\ doc_root d = Some (VScalar YBool (bytes_of "true")).
Proof. eexists. split; [vm_compute; reflexivity|]. split; reflexivity. Qed.
(** Two kinds of comments: two values are counted, five written; memory is written outside. *)
Theorem C171_count_refuted :
  allocate_document_ex (2 ^ 0 + 2 ^ 1) (bytes_of "[{/*},//*/},3,4,5," ++ 10 :: bytes_of "1]") 4096 = None.
Proof. vm_compute. reflexivity. Qed.

Example C171_case : exists d, allocate_document_ex 7 (bytes_of "/* a */ [1, // b" ++ 10 :: bytes_of "2 # c" ++ 10 :: bytes_of ", /***/ 3]") 4096 = Some d
  /\ doc_root d = Some (VArray 3 [VScalar YUInt [49]; VScalar YUInt [50]; VScalar YUInt [51]]).
Proof. eexists. split; vm_compute; reflexivity. Qed.

(** ** C172: raw strings *)

(** A C++ raw string with an empty delimiter is a value; the content is everything up to the first
    closing parenthesis with a quotation mark behind it, verbatim. *)
Theorem C172_cpp_partial fl c buf r p l h body z : N.testbit fl 9 = true -> h = 114 \/ h = 82 -> c <> CNull ->
  free_of (qtx ")`") body -> err r = JOk -> inside buf r ->
  prefix (dialect_of fl) c (last r) p l -> follows c (root r) l ->
  rest r = p ++ h :: qtx "`(" ++ body ++ qtx ")`" ++ z ->
  exists r', reports fl c buf r TValue body z r' /\ vt r' = YRaw.
Proof. exact (JxTok.cpp_raw_token fl c buf r p l h body z). Qed.

(** A Python raw string is a value; escapes are kept. *)
Theorem C172_python_partial fl c buf r p l h raw o z : N.testbit fl 10 = true -> N.testbit fl 9 = false ->
  N.testbit fl 8 = false -> h = 114 \/ h = 82 -> c <> CNull -> unescape raw o ->
  err r = JOk -> inside buf r -> prefix (dialect_of fl) c (last r) p l -> follows c (root r) l ->
  rest r = p ++ h :: quoted raw ++ z ->
  exists r', reports fl c buf r TValue raw z r' /\ vt r' = YRaw.
Proof. exact (JxTok.python_raw_token fl c buf r p l h raw o z). Qed.

(** What is stored for a raw string is its content. *)
Theorem C172_stored buf r a : vt r = YRaw -> token_value_ex buf r a = Some (VString (current buf r), a).
Proof. intro V. unfold token_value_ex. now rewrite V. Qed.

(** A delimiter is rejected, unless the closing one is shifted by one byte. *)
Theorem C172_delimiter_refuted : (exists d, allocate_document_ex (2 ^ 9) (qtx "[R`x(a)x`]") 4096 = Some d /\ doc_err d <> JOk)
  /\ exists d, allocate_document_ex (2 ^ 9) (qtx "[R`x(a)(`]") 4096 = Some d
     /\ doc_root d = Some (VArray 1 [VString (qtx "a")]).
Proof. split; eexists; (split; [vm_compute; reflexivity|]); [discriminate|reflexivity]. Qed.
(** In an array no comma is needed in front of a raw string. *)
Theorem C172_comma_refuted : exists d, allocate_document_ex (2 ^ 9) (qtx "[1 R`(a)`]") 4096 = Some d
  /\ doc_root d = Some (VArray 2 [VScalar YUInt (qtx "1"); VString (qtx "a")]).
Proof. eexists. split; [vm_compute; reflexivity|]. reflexivity. Qed.
(** The content of a Python raw string must have valid escapes. *)
Theorem C172_backslash_refuted : exists d, allocate_document_ex (2 ^ 10) (qtx "[r`C:\d`]") 4096 = Some d /\ doc_err d <> JOk.
Proof. eexists. split; [vm_compute; reflexivity|]. discriminate. Qed.
(** The byte behind the buffer is read. *)
Theorem C172_out_of_bounds_refuted : allocate_document_ex (2 ^ 9) (qtx "[R`x") 4096 = None.
Proof. vm_compute. reflexivity. Qed.

Example C172_case : exists d, allocate_document_ex (2 ^ 9 + 2 ^ 4) (qtx "{a : R`(x`y\n)z)`, b: [r`()`]}") 4096 = Some d
  /\ doc_root d = Some (VObject 2 [(qtx "a", VString (qtx "x`y\n)z"));
        (qtx "b", VArray 1 [VString []])]).
Proof. eexists. split; vm_compute; reflexivity. Qed.
Example C172_case_python : exists d, allocate_document_ex (2 ^ 10) (qtx "[r`a\n`]") 4096 = Some d
  /\ doc_root d = Some (VArray 1 [VString (qtx "a\n")]).
Proof. eexists. split; vm_compute; reflexivity. Qed.

(** ** C173: concatenated strings *)

(** Strings one behind the other are one value, if whitespace is only behind the first of them. *)
Theorem C173_token_partial fl c buf r p l a w bs y z :
  (c = CObject /\ N.testbit fl 11 = true) \/ (c = CArray /\ N.testbit fl 12 = true) -> N.testbit fl 8 = false ->
  err r = JOk -> inside buf r -> prefix (dialect_of fl) c (last r) p l -> follows c (root r) l ->
  JxConcat.is_text a -> ws w -> bs <> [] -> Forall JxConcat.is_text bs -> y <> 34 ->
  rest r = p ++ quoted a ++ w ++ concat (map quoted bs) ++ y :: z ->
  exists r', reports fl c buf r TValue (34 :: a ++ 34 :: w ++ JxConcat.joined bs) (y :: z) r' /\ vt r' = YConcat.
Proof. exact (JxConcat.concat_token fl c buf r p l a w bs y z). Qed.

(** If none of them has escapes the value stored is the concatenation, given enough memory. *)
Theorem C173_stored_partial a x w bs : JxConcat.plain_text x -> ~ In 34 w -> bs <> [] -> Forall JxConcat.plain_text bs ->
  let s := 34 :: x ++ 34 :: w ++ JxConcat.joined bs in
  a_size a + 2 * N.of_nat (List.length s) < a_cap a -> a_cap a < 2 ^ 64 ->
  exists a', allocate_concatenated a s = Some (VString (x ++ concat bs), a').
Proof. exact (JxConcat.allocate_concatenated_ok a x w bs). Qed.

(** Three strings with whitespace between them. *)
Theorem C173_three_refuted : exists d, allocate_document_ex (2 ^ 12) (qtx "[`a` `b` `c`]") 4096 = Some d /\ doc_err d <> JOk.
Proof. eexists. split; [vm_compute; reflexivity|]. discriminate. Qed.
(** Escapes of the last string are kept. *)
Theorem C173_escape_refuted : exists d, allocate_document_ex (2 ^ 12) (qtx "[`a\tz` `b\tc`]") 4096 = Some d
  /\ doc_root d = Some (VArray 1 [VString ([97; 9; 122] ++ qtx "b\tc")]).
Proof. eexists. split; [vm_compute; reflexivity|]. reflexivity. Qed.
(** jsonCopyConcatenatedString writes the terminating null behind a buffer that has room for it. *)
Theorem C173_terminator_refuted : exists s size, copy_concatenated s size (N.of_nat size) = None
  /\ copy_concatenated s size (N.of_nat size + 4) = Some (qtx "abcd").
Proof. exists (qtx "`ab` `cd"), 8%nat. split; vm_compute; reflexivity. Qed.
(** The byte behind the buffer is read. *)
Theorem C173_out_of_bounds_refuted : allocate_document_ex (2 ^ 12) (qtx "[`a` `b`") 4096 = None.
Proof. vm_compute. reflexivity. Qed.

Example C173_case : exists d, allocate_document_ex (2 ^ 11 + 2 ^ 12) (qtx "{`k`: `a` `bc``d`, `l`: [`x``y`]}") 4096 = Some d
  /\ doc_root d = Some (VObject 2 [(qtx "k", VString (qtx "abcd"));
       (qtx "l", VArray 1 [VString (qtx "xy")])]).
Proof. eexists. split; vm_compute; reflexivity. Qed.

(** ** C174: the extended token reader stays in the buffer and comes to an end *)

(** For every text: repeated calls of jsonNextTokenEx end with the end of the text or an error after
    at most one token per byte, and never read outside of the text.  Not for texts with an 'e' or
    'E' behind a digit at the very end (C99), nor for the flags of escaped line breaks, C++ raw
    strings, concatenated strings and numbers without digits next to the point. *)
Theorem C174_stream_partial fl buf cap : JxTotal.safe_flags fl -> ~ open_exponent buf -> exists es e,
  JxStream.tokens_ex (S (List.length buf)) fl buf (make_reader buf) (CStack [] cap) = Some (es ++ [e])
  /\ (fst e = TEof \/ fst e = TError) /\ (List.length es <= List.length buf)%nat.
Proof.
  intros SF NO. apply (JxTotal.tokens_total fl buf SF _ (make_reader buf)).
  - split; [constructor|cbn; lia].
  - exact NO.
  - cbn. lia.
Qed.

(** One call from any state. *)
Theorem C174_token_partial fl c r : JxTotal.safe_flags fl -> ~ open_exponent (rest r) -> exists t r',
  next_token_ex fl c r = Some (t, r') /\ (exists u, rest r = u ++ rest r')
  /\ (t = TError \/ t = TEof \/ (List.length (rest r') < List.length (rest r))%nat).
Proof.
  intros SF NO. pose proof (JxTotal.next_token_stays fl c r SF) as H.
  destruct (next_token_ex fl c r) as [[t r']|]; [|contradiction]. destruct H as [S C].
  exists t, r'. auto.
Qed.

Theorem C174_raw_refuted : exists buf, ~ open_exponent buf
  /\ JxStream.tokens_ex (S (List.length buf)) (2 ^ 9) buf (make_reader buf) (CStack [] 4) = None.
Proof.
  exists (qtx "[R`x"). split; [|vm_compute; reflexivity].
  intros (p & d & e & sg & E & _ & EE & _).
  assert (IN : In e (qtx "[R`x")) by (rewrite E; apply in_or_app; cbn; auto).
  cbn in IN. destruct EE; subst e; intuition discriminate.
Qed.

Example C174_case : let fl := 2 ^ 0 + 2 ^ 1 + 2 ^ 2 + 2 ^ 4 + 2 ^ 5 + 2 ^ 10 in
  JxTotal.safe_flags fl /\ exists es, JxStream.tokens_ex 40 fl (qtx "{a:'x',/*") (make_reader (qtx "{a:'x',/*")) (CStack [] 4) = Some es
  /\ List.length es = 4%nat.
Proof. cbv zeta. split; [repeat split|]. eexists. split; vm_compute; reflexivity. Qed.

Print Assumptions C168_tokens_partial.
Print Assumptions C168_stream_partial.
Print Assumptions C168_documents.
Print Assumptions C168_content_partial.
Print Assumptions C168_memory_partial.
Print Assumptions C168_trailing_refuted.
Print Assumptions C168_assertion_refuted.
Print Assumptions C169_any_case.
Print Assumptions C169_float_names.
Print Assumptions C170_name.
Print Assumptions C171_block.
Print Assumptions C171_line.
Print Assumptions C171_unterminated_refuted.
Print Assumptions C171_count_refuted.
Print Assumptions C172_cpp_partial.
Print Assumptions C172_python_partial.
Print Assumptions C172_stored.
Print Assumptions C172_delimiter_refuted.
Print Assumptions C172_comma_refuted.
Print Assumptions C172_backslash_refuted.
Print Assumptions C172_out_of_bounds_refuted.
Print Assumptions C173_token_partial.
Print Assumptions C173_stored_partial.
Print Assumptions C173_three_refuted.
Print Assumptions C173_escape_refuted.
Print Assumptions C173_terminator_refuted.
Print Assumptions C173_out_of_bounds_refuted.
Print Assumptions C174_stream_partial.
Print Assumptions C174_token_partial.
Print Assumptions C174_raw_refuted.
