(** JSON queries, conversions and pointers: C156 to C161. *)
From Coq Require Import Arith NArith ZArith Bool Lia ZifyBool ZifyNat ZifyN Ascii String List.
Import ListNotations.
From Verif Require Import Base DigitsSpec JsonModel.
From Verif Require JsonSpec JsonBuild JsonProps.
Import JsonSpec (digit, hexdigit, H_dec, H_upper, H_lower, digits, int_part, tree, Scalar, Str, Obj, Arr).
From Verif Require Import JqModel JqSpec.
From Verif Require JqConv JqPointer JqResolve.
Local Open Scope N_scope.

Definition txt (s : string) : list N := bytes_of s.

Lemma all_digits ds : forallb (fun c => (48 <=? c) && (c <=? 57)) ds = true -> Forall digit ds.
Proof. rewrite forallb_forall, Forall_forall. intros H c I. specialize (H c I). unfold digit. lia. Qed.
Ltac ints := right; split; [split; [discriminate|apply all_digits; vm_compute; reflexivity]|vm_compute; discriminate].

(** ** C156: integers are converted exactly *)

Theorem C156_int64 s z def : integer_text s z ->
  (fits_s64 z -> to_int64 s def = Some z) /\ (~ fits_s64 z -> to_int64 s def = Some def).
Proof. intros H. split; intros F; [now apply JqConv.to_int64_in|eapply JqConv.to_int64_out; eassumption]. Qed.

Theorem C156_uint64 s z def : integer_text s z ->
  ((0 <= z < 2 ^ 64)%Z -> to_uint64 s def = Some (Z.to_N z))
  /\ (~ (0 <= z < 2 ^ 64)%Z -> to_uint64 s def = Some def).
Proof.
  intros H. change (2 ^ 64)%Z with 18446744073709551616%Z. unfold to_uint64. destruct H as [ds H|ds H].
  - rewrite JqConv.to_unsigned_digits by (apply JqConv.int_digits, H). split; intros F.
    + rewrite JqConv.conv_uint64_in by (auto; lia). f_equal. lia.
    + rewrite JqConv.conv_uint64_out by (auto; lia). reflexivity.
  - rewrite JqConv.to_unsigned_neg by exact H. split; intros F.
    + replace (dec_value ds =? 0) with true by lia. f_equal. lia.
    + replace (dec_value ds =? 0) with false by lia. reflexivity.
Qed.

(** For the 32 bit versions nothing is claimed for integers that fit 64 bits but not 32. *)
Theorem C156_int_partial s z def : integer_text s z ->
  (fits_s32 z -> to_int s def = Some z) /\ (~ fits_s64 z -> to_int s def = Some def).
Proof.
  intros H. split; intros F; [|eapply JqConv.to_int_out; eassumption].
  rewrite (JqConv.to_int_in s z def H); [now rewrite JqConv.to_s32_id|].
  unfold fits_s32, fits_s64 in *. change (2 ^ 31)%Z with 2147483648%Z in F. change (2 ^ 63)%Z with 9223372036854775808%Z. lia.
Qed.
Theorem C156_uint_partial s z def : integer_text s z ->
  ((0 <= z < 2 ^ 32)%Z -> to_uint s def = Some (Z.to_N z))
  /\ ((z < 0 \/ 2 ^ 64 <= z)%Z -> to_uint s def = Some def).
Proof.
  intros H. change (2 ^ 64)%Z with 18446744073709551616%Z. change (2 ^ 32)%Z with 4294967296%Z. unfold to_uint. destruct H as [ds H|ds H].
  - rewrite JqConv.to_unsigned_digits by (apply JqConv.int_digits, H). split; intros F.
    + rewrite JqConv.conv_uint_in by (auto; lia). unfold w32. rewrite N.mod_small by lia. f_equal. lia.
    + rewrite JqConv.conv_uint_out by (auto; lia). reflexivity.
  - rewrite JqConv.to_unsigned_neg by exact H. split; intros F.
    + replace (dec_value ds =? 0) with true by lia. f_equal. lia.
    + replace (dec_value ds =? 0) with false by lia. reflexivity.
Qed.

(** 4294967296 is neither an int nor reported by the default: the result is 0. *)
Theorem C156_truncated_refuted : exists s z, integer_text s z /\ ~ fits_s32 z
  /\ to_int s 7 <> Some 7%Z /\ to_uint s 7 <> Some 7.
Proof.
  exists (txt "4294967296"), (Z.of_N (dec_value (txt "4294967296"))). split; [|split; [|split]].
  - constructor. ints.
  - vm_compute. intros [_ H]. discriminate.
  - vm_compute. discriminate.
  - vm_compute. discriminate.
Qed.
(** The last two digits of hexadecimal integers are dropped. *)
Theorem C156_hexadecimal_refuted : exists s n, hex_text s n /\ n = 43981
  /\ to_int s 7 <> Some 43981%Z /\ to_uint s 7 <> Some 43981
  /\ to_int64 s 7 <> Some 43981%Z /\ to_uint64 s 7 <> Some 43981.
Proof.
  exists (txt "0xABCD"), 43981. split; [|repeat split; vm_compute; discriminate].
  exists 120, (txt "ABCD"), [10; 11; 12; 13]. repeat split; auto; [discriminate|].
  constructor; [apply (H_upper 65); lia|]. constructor; [apply (H_upper 66); lia|].
  constructor; [apply (H_upper 67); lia|]. constructor; [apply (H_upper 68); lia|]. constructor.
Qed.
(** A single hexadecimal digit violates an assertion. *)
Theorem C156_hexadecimal_assertion_refuted : exists s n, hex_text s n
  /\ to_int s 7 = None /\ to_uint s 7 = None /\ to_int64 s 7 = None /\ to_uint64 s 7 = None.
Proof.
  exists (txt "0x5"), 5. split; [|repeat split].
  exists 120, (txt "5"), [5]. repeat split; auto; [discriminate|]. constructor; [apply (H_dec 53); lia|constructor].
Qed.
(** A text that is not a number gives 0, not the default. *)
Theorem C156_no_number_refuted : exists s, (forall z, ~ integer_text s z) /\ (forall c, In c s -> ~ digit c)
  /\ to_int s 7 <> Some 7%Z /\ to_int64 s 7 <> Some 7%Z.
Proof.
  exists (txt "abc"). split; [|split; [|split; vm_compute; discriminate]].
  - intros z H. inversion H; subst; match goal with X : int_part _ |- _ => apply JqConv.int_digits in X; destruct X as [_ X] end;
      inversion H0; subst; unfold digit in *; lia.
  - intros c H. vm_compute in H. unfold digit. intuition lia.
Qed.

Example C156_case : integer_text (txt "-9223372036854775808") (- 2 ^ 63)
  /\ to_int64 (txt "-9223372036854775808") 7 = Some (- 2 ^ 63)%Z
  /\ integer_text (txt "9223372036854775808") (2 ^ 63)
  /\ to_int64 (txt "9223372036854775808") 7 = Some 7%Z
  /\ to_uint64 (txt "9223372036854775808") 7 = Some (2 ^ 63)
  /\ to_int (txt "-2147483648") 7 = Some (- 2 ^ 31)%Z
  /\ to_uint (txt "-0") 7 = Some 0.
Proof.
  split; [|split; [|split; [|repeat split]]]; try (vm_compute; reflexivity).
  - apply (I_neg (txt "9223372036854775808")). ints.
  - apply (I_pos (txt "9223372036854775808")). ints.
Qed.

(** ** C157: booleans, nil values and defaults *)

Theorem C157_bool s def :
  (ignoring_case s (txt "true") \/ s = txt "1" -> to_bool s def = true)
  /\ (ignoring_case s (txt "false") \/ s = txt "0" -> to_bool s def = false)
  /\ (~ (ignoring_case s (txt "true") \/ s = txt "1" \/ ignoring_case s (txt "false") \/ s = txt "0") -> to_bool s def = def).
Proof.
  assert (LT : Forall (fun l => 97 <= l <= 122) (txt "true")) by (apply Forall_forall; intros l H; vm_compute in H; intuition lia).
  assert (LF : Forall (fun l => 97 <= l <= 122) (txt "false")) by (apply Forall_forall; intros l H; vm_compute in H; intuition lia).
  assert (X : forall l w, ignoring_case l w -> length l = length w).
  { intros l w H. induction H; cbn [length]; congruence. }
  destruct s as [|c [|c2 s]].
  - split; [intros [H|H]; [apply X in H|]; discriminate|]. split; [intros [H|H]; [apply X in H|]; discriminate|reflexivity].
  - cbn [to_bool]. split; [|split].
    + intros [H|H]; [apply X in H; discriminate|]. injection H as ->. reflexivity.
    + intros [H|H]; [apply X in H; discriminate|]. injection H as ->. reflexivity.
    + intros N. destruct (N.eqb_spec c 48) as [->|]; [contradiction N; auto|]. destruct (N.eqb_spec c 49) as [->|]; [contradiction N; auto|reflexivity].
  - rewrite (JqConv.ignore_case _ _ LT), (JqConv.ignore_case _ _ LF). cbn [to_bool].
    change [116; 114; 117; 101] with (txt "true"). change [102; 97; 108; 115; 101] with (txt "false").
    assert (NL : (2 <= length (c :: c2 :: s))%nat) by (cbn [length]; lia). revert NL.
    generalize (c :: c2 :: s). intros l NL. split; [|split].
    + intros [->|H]; [reflexivity|]. subst l. vm_compute in NL. lia.
    + intros [H|H]; [|subst l; vm_compute in NL; lia].
      destruct (equals_ignore_case l (txt "true")) eqn:E; [|now rewrite H].
      apply (JqConv.ignore_case _ _ LT) in E. apply (JqConv.ignore_case _ _ LF) in H. apply X in E, H. rewrite E in H. discriminate.
    + intros N. destruct (equals_ignore_case l (txt "true")); [contradiction N; auto|].
      destruct (equals_ignore_case l (txt "false")); [contradiction N; auto|reflexivity].
Qed.

(** Values without a content: nil and null, objects, arrays. *)
Definition without_content (v : qv) : Prop := forall t c, v = QContent t c -> t = YNull.

Theorem C157_defaults v di du db dl dul : without_content v ->
  get_int v di = Some di /\ get_uint v du = Some du /\ get_bool v db = db
  /\ get_int64 v dl = Some dl /\ get_uint64 v dul = Some dul.
Proof.
  intros H. assert (E : converted v = None).
  { destruct v as [t c| |]; [|reflexivity|reflexivity]. now rewrite (H t c eq_refl). }
  unfold get_int, get_uint, get_bool, get_int64, get_uint64. rewrite E. auto.
Qed.

(** Members that are not there, and members of what is not an object, are nil: they convert to the
    defaults, and they are not null. *)
Theorem C157_missing v name : in_range v ->
  (forall l ns, v = QObject l ns -> ~ In name (map fst ns)) ->
  exists w last, get_member (get_object v) name = Some (w, last) /\ without_content w
  /\ is_null w = false /\ is_valid_value w = false
  /\ is_valid_object (get_object w) = false /\ is_valid_array (get_array w) = false
  /\ forall def, get_string w def = def.
Proof.
  intros IR H. exists nil_value. assert (R : without_content nil_value).
  { intros t c E. now injection E as <- <-. }
  destruct v as [t c|l ns|vs]; try (exists O; repeat split; auto; fail).
  destruct (JqConv.get_member_found l ns name) as (w & last & G & _ & [I|[_ ->]]); [apply IR| |].
  - contradiction (H l ns eq_refl). now apply (in_map fst) in I.
  - exists last. cbn [get_object]. rewrite G. repeat split; auto.
Qed.

(** Indexing a nil array is not harmless: it violates an assertion. *)
Theorem C157_nil_array_refuted : exists v, get_array v = None /\ get_entry (get_array v) 0 = None.
Proof. exists nil_value. split; reflexivity. Qed.

Example C157_case : to_bool (txt "TrUe") false = true /\ ignoring_case (txt "TrUe") (txt "true")
  /\ get_member (get_object (QObject 1 [(txt "a", QArray []); (txt "b", nil_value)])) (txt "c") = Some (nil_value, 1%nat).
Proof.
  split; [reflexivity|]. split; [|vm_compute; reflexivity]. vm_compute.
  repeat (apply Forall2_cons; [first [left; reflexivity|right; reflexivity]|]). apply Forall2_nil.
Qed.

(** ** C158: looking up members *)

(** Any history of lookups is defined; every lookup gives a member of that name, or the nil value
    if there is none. *)
Theorem C158_lookup last ns names : (last <= length ns)%nat ->
  exists vs, get_members (last, Some ns) names = Some vs /\ Forall2 (found ns) names vs.
Proof. apply JqConv.get_members_found. Qed.
(** If names are distinct, the history does not matter. *)
Theorem C158_history ns names last last' : NoDup (map fst ns) -> (last <= length ns)%nat -> (last' <= length ns)%nat ->
  get_members (last, Some ns) names = get_members (last', Some ns) names.
Proof.
  intros ND L L'. destruct (JqConv.get_members_found ns names last L) as (vs & -> & F).
  destruct (JqConv.get_members_found ns names last' L') as (vs' & -> & F'). f_equal.
  revert vs' F'. induction F as [|n v names vs H F IH]; intros vs' F'; inversion F' as [|? v' ? vs2 H' F2]; subst; [reflexivity|].
  f_equal; [exact (JqConv.found_unique ns n v v' ND H H')|exact (IH _ F2)].
Qed.
(** With a name that occurs twice, the lookup of another name decides which one is found. *)
Theorem C158_duplicates_refuted : exists ns n1 n2 v w1 w2,
  get_members (O, Some ns) [n1] = Some [v] /\ get_members (O, Some ns) [n2; n1] = Some [w1; w2] /\ v <> w2.
Proof.
  exists [(txt "a", QArray []); (txt "b", nil_value); (txt "a", nil_value)], (txt "a"), (txt "b"). eexists. eexists. eexists.
  split; [vm_compute; reflexivity|]. split; [vm_compute; reflexivity|]. discriminate.
Qed.
(** The operators == and != of JsonObjectArrayIterator are the same. *)
Theorem C158_iterator_refuted : exists a b, a = b /\ iter_eq a b = false.
Proof. exists O, O. split; reflexivity. Qed.

Definition abc : list (list N * qv) :=
  [(txt "a", QContent YUInt (Some (txt "1"))); (txt "b", QArray []); (txt "c", QContent YBool (Some (txt "true")))].
Example C158_case : NoDup (map fst abc) /\ get_members (2%nat, Some abc) [txt "b"; txt "a"; txt "x"; txt "c"]
  = Some [QArray []; QContent YUInt (Some (txt "1")); nil_value; QContent YBool (Some (txt "true"))].
Proof.
  split; [|vm_compute; reflexivity]. repeat constructor; intros H; vm_compute in H; intuition discriminate.
Qed.

(** ** C159: JSON pointers *)

(** Memory is available, or no segment needs it. *)
Definition enough (or : nat -> bool) (p : list N) : Prop := (forall k, or k = true) \/ short_segments p.

Lemma enough_room or frag segs toks : enough or (if frag : bool then 35 :: JqResolve.slashed segs else JqResolve.slashed segs) ->
  Forall2 (JqResolve.seg_tok frag) segs toks -> JqResolve.room or segs.
Proof.
  intros [E|E] F; [now apply JqResolve.room_success|]. apply (JqResolve.room_short or (if frag then [35] else [])).
  - destruct frag; exact E.
  - clear E. induction F as [|s t segs toks H F IH]; constructor; [apply H|exact IH].
Qed.

(** The value a pointer refers to by RFC 6901, in a value without duplicate names and without names
    that begin with a digit. *)
Theorem C159_resolve_partial or v p toks w : in_range v -> distinct_names v -> no_digit_names v ->
  pointer_text p toks -> Forall any_byte p -> Forall proper_index toks -> enough or p -> points v toks w ->
  exists es, resolve or v p = Some (w, es).
Proof.
  intros IR DN ND PT Z PI EN P. destruct (JqResolve.pointer_segments p toks PT Z) as (segs & -> & F).
  destruct (JqResolve.resolve_segments or v false segs toks) as (r & es & E & A & _); auto.
  - split; auto.
  - exact (enough_room or false segs toks EN F).
  - exists es. rewrite E. now rewrite (A w P).
Qed.
(** The nil value if it refers to nothing. *)
Theorem C159_nowhere_partial or v p toks : in_range v -> distinct_names v -> no_digit_names v ->
  pointer_text p toks -> Forall any_byte p -> Forall proper_index toks -> enough or p -> (~ exists w, points v toks w) ->
  exists es, resolve or v p = Some (nil_value, es).
Proof.
  intros IR DN ND PT Z PI EN P. destruct (JqResolve.pointer_segments p toks PT Z) as (segs & -> & F).
  destruct (JqResolve.resolve_segments or v false segs toks) as (r & es & E & _ & B); auto.
  - split; auto.
  - exact (enough_room or false segs toks EN F).
  - exists es. rewrite E. now rewrite (B P).
Qed.
(** The same in the form of a URI fragment, if slashes, tildes and digits are not percent-encoded. *)
Theorem C159_fragment_partial or v q p toks w : in_range v -> distinct_names v -> no_digit_names v ->
  percent inert_byte q p -> pointer_text p toks -> Forall any_byte p -> Forall proper_index toks -> enough or (35 :: q) ->
  points v toks w -> exists es, resolve or v (35 :: q) = Some (w, es).
Proof.
  intros IR DN ND PC PT Z PI EN P. destruct (JqResolve.fragment_segments p toks PT Z q PC) as (segs & -> & F).
  destruct (JqResolve.resolve_segments or v true segs toks) as (r & es & E & A & _); auto.
  - split; auto.
  - eapply JqResolve.percent_nonzero; eassumption.
  - exact (enough_room or true segs toks EN F).
  - exists es. rewrite E. now rewrite (A w P).
Qed.

Definition one : qv := QContent YUInt (Some (txt "1")).
Ltac plain := repeat (apply E_plain; [discriminate|discriminate|]); apply E_nil.

(** A member whose name begins with a digit cannot be reached. *)
Theorem C159_digit_name_refuted : exists v p toks w, pointer_text p toks /\ points v toks w /\ distinct_names v
  /\ resolve (fun _ => true) v p = Some (nil_value, []) /\ w <> nil_value.
Proof.
  exists (QObject 0 [(txt "2d", one)]), (txt "/2d"), [txt "2d"], one. split; [|split; [|split; [|split]]].
  - apply (PT_cons (txt "2d") (txt "2d") []); [plain|constructor].
  - eapply P_member; [left; reflexivity|constructor].
  - split; [repeat constructor; intros []|repeat split].
  - vm_compute. reflexivity.
  - discriminate.
Qed.
(** An index that does not fit 64 bits refers to the first element. *)
Theorem C159_large_index_refuted : exists v p toks, pointer_text p toks /\ (~ exists w, points v toks w)
  /\ resolve (fun _ => true) v p = Some (one, []).
Proof.
  exists (QArray [one]), (txt "/18446744073709551616"), [txt "18446744073709551616"]. split; [|split].
  - apply (PT_cons (txt "18446744073709551616") (txt "18446744073709551616") []); [plain|constructor].
  - intros (w & P). inversion P as [| |? ? ? ? ? _ NE _]; subst.
    assert (X : (N.to_nat (dec_value (txt "18446744073709551616")) < length [one])%nat) by (apply nth_error_Some; congruence).
    cbn [length] in X. assert (Y : dec_value (txt "18446744073709551616") = W64) by (vm_compute; reflexivity). rewrite Y in X. lia.
  - vm_compute. reflexivity.
Qed.
(** Leading zeros, and anything behind the digits, are accepted. *)
Theorem C159_loose_index_refuted : exists v p1 p2 t1 t2, pointer_text p1 t1 /\ pointer_text p2 t2
  /\ (~ exists w, points v t1 w) /\ (~ exists w, points v t2 w)
  /\ resolve (fun _ => true) v p1 = Some (one, []) /\ resolve (fun _ => true) v p2 = Some (one, []).
Proof.
  exists (QArray [one]), (txt "/00"), (txt "/0x"), [txt "00"], [txt "0x"].
  assert (N : forall k, ~ int_part k -> ~ exists w, points (QArray [one]) [k] w).
  { intros k NI (w & P). inversion P. contradiction. }
  split; [apply (PT_cons (txt "00") (txt "00") []); [plain|constructor]|].
  split; [apply (PT_cons (txt "0x") (txt "0x") []); [plain|constructor]|].
  split; [apply N; intros [H|[_ H]]; [discriminate|contradiction H; reflexivity]|].
  split; [apply N; intros [H|[_ H]]; [discriminate|contradiction H; reflexivity]|].
  split; vm_compute; reflexivity.
Qed.
(** Text in front of the first slash is ignored, although it is not a pointer. *)
Theorem C159_leading_text_refuted : exists v p, (forall toks, ~ pointer_text p toks)
  /\ resolve (fun _ => true) v p = Some (one, []).
Proof.
  exists (QArray [one]), (txt "junk/0"). split; [|vm_compute; reflexivity]. intros toks H. inversion H.
Qed.
(** In a fragment the percent-encoding has to be undone first: %7E1 is an escaped slash. *)
Theorem C159_encoded_tilde_refuted : exists v q p toks w, percent any_byte q p /\ pointer_text p toks
  /\ points v toks w /\ distinct_names v /\ no_digit_names v
  /\ resolve (fun _ => true) v (35 :: q) = Some (nil_value, []) /\ w <> nil_value.
Proof.
  exists (QObject 0 [(txt "a/b", one)]), (txt "/a%7E1b"), (txt "/a~1b"), [txt "a/b"], one.
  split; [|split; [|split; [|split; [|split; [|split]]]]].
  - apply PC_plain; [discriminate|]. apply PC_plain; [discriminate|].
    apply (PC_encoded _ 55 69 7 14); [apply (H_dec 55); lia|apply (H_upper 69); lia|vm_compute; discriminate|].
    apply PC_plain; [discriminate|]. apply PC_plain; [discriminate|]. constructor.
  - apply (PT_cons (txt "a~1b") (txt "a/b") []); [|constructor].
    apply E_plain; [discriminate|discriminate|]. apply E_slash. plain.
  - eapply P_member; [left; reflexivity|constructor].
  - split; [repeat constructor; intros []|repeat split].
  - split; [|repeat split]. repeat constructor. intros (c & t & E & D). injection E as <- <-. vm_compute in D. intuition discriminate.
  - vm_compute. reflexivity.
  - discriminate.
Qed.

(** The example of RFC 6901. *)
Definition rfc_document : qv := QObject 0
  [(txt "foo", QArray [QContent YString (Some (txt "bar")); QContent YString (Some (txt "baz"))]);
   (txt "", QContent YUInt (Some (txt "0"))); (txt "a/b", one);
   (txt "c%d", QContent YUInt (Some (txt "2"))); (txt "m~n", QContent YUInt (Some (txt "8")))].
Example C159_case :
  pointer_text (txt "/a~1b") [txt "a/b"] /\ points rfc_document [txt "a/b"] one
  /\ in_range rfc_document /\ distinct_names rfc_document /\ no_digit_names rfc_document
  /\ resolve (fun _ => true) rfc_document (txt "/a~1b") = Some (one, [])
  /\ resolve (fun _ => true) rfc_document (txt "/foo/1") = Some (QContent YString (Some (txt "baz")), [])
  /\ resolve (fun _ => true) rfc_document (txt "#/c%25d") = Some (QContent YUInt (Some (txt "2")), [])
  /\ resolve (fun _ => true) rfc_document (txt "/m~0n") = Some (QContent YUInt (Some (txt "8")), [])
  /\ resolve (fun _ => true) rfc_document (txt "/") = Some (QContent YUInt (Some (txt "0")), [])
  /\ resolve (fun _ => true) rfc_document (txt "/foo/2") = Some (nil_value, []).
Proof.
  split; [|split; [|split; [|split; [|split; [|repeat split; vm_compute; reflexivity]]]]].
  - apply (PT_cons (txt "a~1b") (txt "a/b") []); [|constructor].
    apply E_plain; [discriminate|discriminate|]. apply E_slash. plain.
  - eapply P_member; [do 2 right; left; reflexivity|constructor].
  - repeat split; vm_compute; lia.
  - split; [|repeat split]. repeat constructor; intros H; vm_compute in H; intuition discriminate.
  - split; [|repeat split]. repeat (constructor; [intros (c & t & E & D); vm_compute in E; try discriminate; injection E as <- <-; vm_compute in D; intuition discriminate|]).
    constructor.
Qed.

(** ** C160: JSON pointers are resolved safely *)

(** Whatever the value, the text and the allocator do: all accesses are in bounds, all bytes read have
    been written, and the block allocated is freed exactly once. *)
Theorem C160_safe or v p : in_range v -> exists w es, resolve or v p = Some (w, es) /\ orderly false es.
Proof. apply JqPointer.resolve_safe. Qed.
(** No memory is allocated for segments of less than 64 bytes. *)
Theorem C160_no_allocation or v p : in_range v -> short_segments p -> exists w, resolve or v p = Some (w, []).
Proof. apply JqPointer.resolve_small. Qed.

Example C160_case :
  let v := QObject 0 [(repeat 97 100, QObject 0 [(repeat 98 300, one)])] in
  resolve (fun _ => true) v (47 :: repeat 97 100 ++ 47 :: repeat 98 300)
    = Some (one, [EMalloc 128 true; ERealloc 2408 true; EFree])
  /\ resolve (fun k => Nat.eqb k 0) v (47 :: repeat 97 100 ++ 47 :: repeat 98 300)
    = Some (nil_value, [EMalloc 128 true; ERealloc 2408 false; EFree])
  /\ resolve (fun _ => false) v (47 :: repeat 97 100) = Some (nil_value, [EMalloc 128 false])
  /\ resolve (fun _ => true) v (txt "#/a%") = Some (nil_value, []).
Proof. repeat split; vm_compute; reflexivity. Qed.

(** ** C161: pointers into texts *)

(** From the text to the value: a document of a JSON text is queried with a JSON pointer. *)
Theorem C161_text_partial fl buf t ptr or p toks t' : JsonSpec.plain_flags fl -> 32 * N.of_nat (length buf) < 2 ^ 64 ->
  JsonSpec.json_text (JsonSpec.dialect_of fl) buf t -> JsonSpec.integer_ended buf t -> simple_names t ->
  pointer_text p toks -> Forall any_byte p -> Forall proper_index toks -> enough or p -> tpoints t toks t' ->
  exists d v q w es, allocate_document fl buf ptr = Some d /\ doc_root d = Some v /\ of_jv v = Some q
  /\ resolve or q p = Some (w, es)
  /\ match t' with
     | Scalar ty s => w = QContent ty (Some s)
     | Str raw => JsonProps.no_final_escape t' -> exists o, JsonSpec.unescape raw o /\ w = QContent YString (Some o)
     | Obj ms => exists ns, get_object w = (O, Some ns) /\ map fst ns = map fst ms
     | Arr vs => exists ws, get_array w = Some ws /\ length ws = length vs
     end.
Proof.
  intros PF L J IE SN PT Z PI EN TP.
  destruct (JsonProps.C98_stored_partial fl buf t ptr PF L J IE) as (d & v & A & _ & R & RP).
  destruct (JqResolve.repr_of_jv _ t v RP) as [q Q]. pose proof (JqResolve.repr_qrepr _ t v RP q Q) as QR.
  destruct (JqResolve.qrepr_points _ t toks t' TP SN q QR) as (w & P & QR').
  destruct (JqResolve.qrepr_good _ t q QR SN) as (G1 & G2 & G3).
  destruct (C159_resolve_partial or q p toks w G1 G3 G2 PT Z PI EN P) as (es & E).
  exists d, v, q, w, es. split; [exact A|]. split; [exact R|]. split; [exact Q|]. split; [exact E|].
  inversion QR' as [| |? ? F|? ? F]; subst.
  - reflexivity.
  - intros NF. exists o. split; [|reflexivity]. cbn [JsonProps.no_final_escape] in NF.
    match goal with X : JsonSpec.stored _ _ |- _ => destruct (JsonCopy.stored_unescape _ _ X) as [U|FE] end; [exact U|contradiction].
  - exists ns. split; [reflexivity|]. symmetry. exact (JqResolve.qrepr_names _ _ _ F).
  - exists ns. split; [reflexivity|]. clear -F. induction F; cbn [length]; congruence.
Qed.

(** With the conversion: the integer at a place of a text. *)
Theorem C161_integer_partial fl buf t ptr or p toks ty s z def : JsonSpec.plain_flags fl -> 32 * N.of_nat (length buf) < 2 ^ 64 ->
  JsonSpec.json_text (JsonSpec.dialect_of fl) buf t -> JsonSpec.integer_ended buf t -> simple_names t ->
  pointer_text p toks -> Forall any_byte p -> Forall proper_index toks -> enough or p -> tpoints t toks (Scalar ty s) ->
  ty <> YNull -> integer_text s z ->
  exists d v q w es, allocate_document fl buf ptr = Some d /\ doc_root d = Some v /\ of_jv v = Some q
  /\ resolve or q p = Some (w, es)
  /\ (fits_s64 z -> get_int64 w def = Some z) /\ (~ fits_s64 z -> get_int64 w def = Some def).
Proof.
  intros PF L J IE SN PT Z PI EN TP NN IT.
  destruct (C161_text_partial fl buf t ptr or p toks _ PF L J IE SN PT Z PI EN TP) as (d & v & q & w & es & A & R & Q & E & ->).
  exists d, v, q, (QContent ty (Some s)), es. split; [exact A|]. split; [exact R|]. split; [exact Q|]. split; [exact E|].
  assert (C : converted (QContent ty (Some s)) = Some s) by (destruct ty; try reflexivity; congruence).
  unfold get_int64. rewrite C. apply C156_int64. exact IT.
Qed.

(** Names with escape sequences are not found: the document keeps them as they are written. *)
Theorem C161_escaped_name_refuted : exists buf t p toks t' v q,
  JsonSpec.json_text JsonSpec.rfc8259 buf t /\ tpoints t toks t' /\ pointer_text p toks
  /\ allocate_document 0 buf 4096 = Some (Doc (Some v) JOk 0 0 (Some 0%nat) 0) /\ of_jv v = Some q
  /\ t' = Scalar YUInt (txt "5") /\ resolve (fun _ => true) q p = Some (nil_value, []).
Proof.
  exists (txt "{""i\\j"":5}"), (Obj [(txt "i\\j", Scalar YUInt (txt "5"))]), (txt "/i\j"), [txt "i\j"], (Scalar YUInt (txt "5")).
  assert (U : JsonSpec.unescape (txt "i\\j") (txt "i\j")).
  { apply JsonSpec.J_plain; try (vm_compute; first [discriminate|lia]).
    eapply (JsonSpec.J_escape 92 92); [constructor|]. apply JsonSpec.J_plain; try (vm_compute; first [discriminate|lia]). constructor. }
  eexists. eexists. split; [|split; [|split; [|split; [vm_compute; reflexivity|split; [vm_compute; reflexivity|split; [reflexivity|vm_compute; reflexivity]]]]]].
  - exists [], (txt "{""i\\j"":5}"), []. split; [reflexivity|]. split; [constructor|]. split; [constructor|].
    apply (JsonSpec.V_object _ (txt """i\\j"":5") _ (txt "}")); [|apply (JsonSpec.OT_end _ []); constructor].
    apply (JsonSpec.Member _ [] (txt "i\\j") (txt "i\j") [] 58 [] (txt "5")); [constructor|exact U|constructor|left; reflexivity|constructor|].
    apply JsonSpec.V_number. apply (JsonSpec.N_pos _ (txt "5") true). constructor. ints.
  - eapply T_member; [left; reflexivity|exact U|constructor].
  - apply (PT_cons (txt "i\j") (txt "i\j") []); [plain|constructor].
Qed.

Example C161_case : simple_names JsonProps.sample_tree
  /\ tpoints JsonProps.sample_tree [txt "a"; txt "0"] (Scalar YUInt (txt "1"))
  /\ JsonSpec.json_text JsonSpec.rfc8259 JsonProps.sample JsonProps.sample_tree
  /\ match allocate_document 0 JsonProps.sample 4096 with
     | Some d => match doc_root d with
                 | Some v => match of_jv v with
                             | Some q => match resolve (fun _ => true) q (txt "/a/0") with
                                         | Some (w, []) => match get_int64 w 7 with Some 1%Z => true | _ => false end
                                         | _ => false
                                         end
                             | None => false
                             end
                 | None => false
                 end
     | None => false
     end = true.
Proof.
  split; [|split; [|split; [exact JsonProps.sample_text|vm_compute; reflexivity]]].
  - split; [|repeat split]. split; [repeat constructor; intros H; vm_compute in H; intuition discriminate|].
    repeat (constructor; [split; [intros H; vm_compute in H; intuition discriminate|intros (c & t & E & D); vm_compute in E; try discriminate; injection E as <- <-; vm_compute in D; intuition discriminate]|]).
    constructor.
  - eapply T_member; [left; reflexivity| |].
    + apply JsonSpec.J_plain; try (vm_compute; first [discriminate|lia]). constructor.
    + eapply T_element; [left; reflexivity|reflexivity|constructor].
Qed.

Print Assumptions C156_int64.
Print Assumptions C156_uint64.
Print Assumptions C156_int_partial.
Print Assumptions C156_uint_partial.
Print Assumptions C156_truncated_refuted.
Print Assumptions C156_hexadecimal_refuted.
Print Assumptions C156_hexadecimal_assertion_refuted.
Print Assumptions C156_no_number_refuted.
Print Assumptions C157_bool.
Print Assumptions C157_defaults.
Print Assumptions C157_missing.
Print Assumptions C157_nil_array_refuted.
Print Assumptions C158_lookup.
Print Assumptions C158_history.
Print Assumptions C158_duplicates_refuted.
Print Assumptions C158_iterator_refuted.
Print Assumptions C159_resolve_partial.
Print Assumptions C159_nowhere_partial.
Print Assumptions C159_fragment_partial.
Print Assumptions C159_digit_name_refuted.
Print Assumptions C159_large_index_refuted.
Print Assumptions C159_loose_index_refuted.
Print Assumptions C159_leading_text_refuted.
Print Assumptions C159_encoded_tilde_refuted.
Print Assumptions C160_safe.
Print Assumptions C160_no_allocation.
Print Assumptions C161_text_partial.
Print Assumptions C161_integer_partial.
Print Assumptions C161_escaped_name_refuted.
