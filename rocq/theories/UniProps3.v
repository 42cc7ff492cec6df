(** Properties of case folding, case-insensitive comparison and natural comparison in tm_unicode.h, with its tables. *)
From Coq Require Import Arith NArith ZArith List Bool Lia ZifyBool ZifyNat ZifyN.
From Verif Require Import Base CodecModel CodecProofs StrSpec StrMore UniModel UniSpec UniProofs UniValid UniConv UniTop UniText UniCompare UniFold UniMore UcdData UcdModel UcdProofs UcdFold UniProps UniProps2.
Import ListNotations.
Local Open Scope N_scope.

(** The folded text of a text: codepoint by codepoint. [sf] and [ff] are the table lookups (C38 says they succeed). *)
Definition folded_simple (vs : list N) : list N := map sf vs.
Definition folded (vs : list N) : list N := flat_map ff vs.

Lemma simple_T : forall vs s, encodes utf8_seq vs s -> yields (next_simple simple_fold) is_nil s (folded_simple vs).
Proof. intros vs s E. apply (simple_yields simple_fold sf simple_ok). apply encodes_lenient. exact E. Qed.
Lemma full_T : forall vs s, encodes utf8_seq vs s -> yields (next_full full_fold) end_full ([], s) (folded vs).
Proof. intros vs s E. apply (full_yields full_fold ff full_ok full_ne). apply encodes_lenient. exact E. Qed.
Lemma small_scalar : forall v, scalar v -> v < 0x80000000. Proof. unfold scalar. lia. Qed.
Lemma simple_small : forall vs, Forall scalar vs -> Forall (fun c => c < 0x80000000) (folded_simple vs).
Proof. intros vs F. induction F as [|v vs S F IH]; cbn; constructor; [apply small_scalar, sf_scalar; exact S|exact IH]. Qed.
Lemma full_small : forall vs, Forall scalar vs -> Forall (fun c => c < 0x80000000) (folded vs).
Proof.
  intros vs F. induction F as [|v vs S F IH]; cbn; [constructor|]. apply Forall_app. split; [|exact IH].
  eapply Forall_impl; [|apply (ff_scalar v S)]. exact small_scalar.
Qed.
Lemma full_nil : forall vs, Forall scalar vs -> folded vs = [] -> vs = [].
Proof. intros vs F E. destruct F as [|v vs S F]; [reflexivity|]. cbn in E. apply app_eq_nil in E as [E _]. exfalso. apply (full_ne v S E). Qed.
Lemma simple_nil : forall vs, Forall scalar vs -> folded_simple vs = [] -> vs = [].
Proof. intros [|v vs] _ E; [reflexivity|discriminate]. Qed.
Lemma ff_length : forall v, scalar v -> (length (ff v) <= 3)%nat.
Proof. intros v S. unfold ff. destruct (full_fold_facts v (scalar_le v S)) as [l [-> [_ [H _]]]]. exact H. Qed.
Lemma folded_length : forall vs, Forall scalar vs -> (length (folded vs) <= 3 * length vs)%nat.
Proof. intros vs F. induction F as [|v vs S F IH]; cbn [folded flat_map length]; [lia|]. rewrite app_length. pose proof (ff_length v S). unfold folded in IH. lia. Qed.
Lemma text_codepoints : forall m a al x vs, text m a al = Some x -> encodes utf8_seq vs x -> (length vs <= al)%nat.
Proof. intros m a al x vs T E. destruct (text_some _ _ _ _ T) as (<- & _). apply (encodes_len utf8_seq vs x utf8_ne E). Qed.

(** C37 *)
(** "ab" equals "a", but "a" does not equal "ab"; and a text that is not valid does not equal a copy of itself. *)
Theorem C37_equality_refuted :
  (exists m a al b bl, forall fuel, (10 <= fuel)%nat ->
     tmu_utf8_equals_ignore_case_simple simple_fold fuel m a al b bl = Some true /\ tmu_utf8_equals_ignore_case_simple simple_fold fuel m b bl a al = Some false
     /\ tmu_utf8_equals_ignore_case full_fold fuel m a al b bl = Some true /\ tmu_utf8_equals_ignore_case full_fold fuel m b bl a al = Some false
     /\ tmu_utf8_compare_ignore_case_simple simple_fold fuel m a al b bl = Some 0%Z /\ tmu_utf8_compare_ignore_case_simple simple_fold fuel m b bl a al = Some (-1)%Z)
  /\ (exists m a b len x, text m a len = Some x /\ text m b len = Some x /\ forall fuel, (10 <= fuel)%nat ->
     tmu_utf8_equals_ignore_case_simple simple_fold fuel m a len b len = Some false).
Proof.
  split.
  - exists [0x61; 0x62; 0x61], 0%nat, 2%nat, 2%nat, 1%nat. intros fuel F. do 10 (destruct fuel as [|fuel]; [lia|]). repeat split; vm_compute; reflexivity.
  - exists [0xFF; 0xFF], 0%nat, 1%nat, 1%nat, [0xFF]. split; [reflexivity|]. split; [reflexivity|]. intros fuel F. do 10 (destruct fuel as [|fuel]; [lia|]). vm_compute. reflexivity.
Qed.
(** Exactly: on valid texts the answer is equality of the folded texts, but for a first text whose folding is longer by
    one codepoint (and which starts at another address), which also counts as equal. *)
Theorem C37_equality_partial : forall m a al b bl x y vs ws fuel, text m a al = Some x -> text m b bl = Some y ->
  encodes utf8_seq vs x -> encodes utf8_seq ws y -> (3 * al < fuel)%nat ->
  (exists r, tmu_utf8_equals_ignore_case_simple simple_fold fuel m a al b bl = Some r
     /\ (r = true <-> folded_simple vs = folded_simple ws \/ (a <> b /\ exists c, folded_simple vs = folded_simple ws ++ [c])))
  /\ (exists r, tmu_utf8_equals_ignore_case full_fold fuel m a al b bl = Some r
     /\ (r = true <-> folded vs = folded ws \/ (a <> b /\ exists c, folded vs = folded ws ++ [c]))).
Proof.
  intros m a al b bl x y vs ws fuel Tx Ty Ex Ey F. pose proof (text_codepoints m a al x vs Tx Ex) as Lv.
  pose proof (encodes_scalars utf8_seq vs x seq_scalar Ex) as Sv. split.
  - apply (equals_addr _ (next_simple simple_fold) is_nil (fun s => s) folded_simple simple_T (map_app sf) simple_nil simple_small m a al b bl x y vs ws fuel Tx Ty Ex Ey).
    unfold folded_simple. rewrite map_length. lia.
  - apply (equals_addr _ (next_full full_fold) end_full (fun s => ([], s)) folded full_T (flat_map_app ff) full_nil full_small m a al b bl x y vs ws fuel Tx Ty Ex Ey).
    pose proof (folded_length vs Sv). lia.
Qed.
(** Comparison: the sign is that of the lexicographic order of the folded texts, with the same exception. *)
Theorem C37_comparison_partial : forall m a al b bl x y vs ws fuel, text m a al = Some x -> text m b bl = Some y ->
  encodes utf8_seq vs x -> encodes utf8_seq ws y -> (3 * al < fuel)%nat ->
  (exists r, tmu_utf8_compare_ignore_case_simple simple_fold fuel m a al b bl = Some r
     /\ (~ (exists c, folded_simple vs = folded_simple ws ++ [c]) -> orders lex_lt (folded_simple vs) (folded_simple ws) r))
  /\ (exists r, tmu_utf8_compare_ignore_case full_fold fuel m a al b bl = Some r
     /\ (~ (exists c, folded vs = folded ws ++ [c]) -> orders lex_lt (folded vs) (folded ws) r)).
Proof.
  intros m a al b bl x y vs ws fuel Tx Ty Ex Ey F. pose proof (text_codepoints m a al x vs Tx Ex) as Lv.
  pose proof (encodes_scalars utf8_seq vs x seq_scalar Ex) as Sv. split.
  - destruct (compare_addr _ (next_simple simple_fold) is_nil (fun s => s) folded_simple simple_T (map_app sf) simple_nil simple_small m a al b bl x y vs ws fuel Tx Ty Ex Ey) as (r & Q & D); [unfold folded_simple; rewrite map_length; lia|].
    exists r. split; [exact Q|]. intros Nc. destruct D as [[(_ & _ & C) _]|[_ O]]; [contradiction|exact O].
  - destruct (compare_addr _ (next_full full_fold) end_full (fun s => ([], s)) folded full_T (flat_map_app ff) full_nil full_small m a al b bl x y vs ws fuel Tx Ty Ex Ey) as (r & Q & D); [pose proof (folded_length vs Sv); lia|].
    exists r. split; [exact Q|]. intros Nc. destruct D as [[(_ & _ & C) _]|[_ O]]; [contradiction|exact O].
Qed.
(** So on valid texts no equality is missed, and among texts whose foldings have the same number of codepoints it is an
    equivalence. *)
Theorem C37_no_false_negatives : forall m a al b bl x y vs ws fuel, text m a al = Some x -> text m b bl = Some y ->
  encodes utf8_seq vs x -> encodes utf8_seq ws y -> (3 * al < fuel)%nat -> folded vs = folded ws ->
  tmu_utf8_equals_ignore_case full_fold fuel m a al b bl = Some true.
Proof.
  intros m a al b bl x y vs ws fuel Tx Ty Ex Ey F Q. destruct (C37_equality_partial m a al b bl x y vs ws fuel Tx Ty Ex Ey F) as [_ (r & -> & H)].
  f_equal. apply H. left. exact Q.
Qed.
Theorem C37_same_size : forall m a al b bl x y vs ws fuel, text m a al = Some x -> text m b bl = Some y ->
  encodes utf8_seq vs x -> encodes utf8_seq ws y -> (3 * al < fuel)%nat -> length (folded vs) = length (folded ws) ->
  (tmu_utf8_equals_ignore_case full_fold fuel m a al b bl = Some true <-> folded vs = folded ws).
Proof.
  intros m a al b bl x y vs ws fuel Tx Ty Ex Ey F L. destruct (C37_equality_partial m a al b bl x y vs ws fuel Tx Ty Ex Ey F) as [_ (r & -> & H)]. split.
  - intros Q. assert (R : r = true) by congruence. apply H in R as [R|[_ [c R]]]; [exact R|]. rewrite R, app_length in L. cbn in L. lia.
  - intros Q. f_equal. apply H. left. exact Q.
Qed.
Example C37_example : text [0x53; 0x53; 0xC3; 0x9F] 0 2 = Some [0x53; 0x53] /\ text [0x53; 0x53; 0xC3; 0x9F] 2 2 = Some [0xC3; 0x9F]
  /\ encodes utf8_seq [0x53; 0x53] [0x53; 0x53] /\ encodes utf8_seq [0xDF] [0xC3; 0x9F] /\ folded [0x53; 0x53] = folded [0xDF]
  /\ tmu_utf8_equals_ignore_case full_fold 20 [0x53; 0x53; 0xC3; 0x9F] 0 2 2 2 = Some true
  /\ tmu_utf8_equals_ignore_case_simple simple_fold 20 [0x53; 0x53; 0xC3; 0x9F] 0 2 2 2 = Some false.
Proof.
  split; [reflexivity|]. split; [reflexivity|].
  split; [change [0x53; 0x53] with ([0x53] ++ [0x53] ++ []) at 2; constructor; [apply U8_1; lia|constructor; [apply U8_1; lia|constructor]]|].
  split; [change [0xC3; 0x9F] with ([0xC0 + 0xDF / 64; 0x80 + 0xDF mod 64] ++ []); constructor; [apply U8_2; lia|constructor]|].
  repeat split; vm_compute; reflexivity.
Qed.

Lemma lenient_split : forall s, octets s -> exists vs us rest, s = us ++ rest /\ encodes lenient vs us /\ ill_formed_at lenient rest /\ exists cp, tmu_utf8_extract rest = Some (false, cp, rest).
Proof.
  intros s. remember (length s) as n eqn:L. revert s L. induction n as [n IH] using lt_wf_ind. intros s -> U.
  destruct (extract8_cases s U) as [(v & ch & rest & H & ->)|[I Q]].
  - pose proof (lenient_ne v ch H) as Ne. assert (U2 : octets rest) by (apply Forall_app in U; apply U).
    destruct (IH (length rest) ltac:(rewrite app_length; lia) rest eq_refl U2) as (vs & us & r & -> & E & I & Q).
    exists (v :: vs), (ch ++ us), r. split; [apply app_assoc|]. split; [constructor; assumption|]. split; assumption.
  - exists [], [], s. split; [reflexivity|]. split; [constructor|]. split; assumption.
Qed.
(** C80 *)
(** The functions that write the folded text: for the part of the input in front of the first place where extraction
    fails, they deliver the UTF-8 of the folded codepoints, the size needed, and EINVAL if something was left over. *)
(** tmu_utf8_to_case_fold_simple and tmu_utf8_to_case_fold, tm_unicode.h:4971-4987 and 5228-5251. *)
Definition to_case_fold_simple := transform (fun cp => f <- simple_fold cp ;; Some [f]).
Definition to_case_fold := transform full_fold.
Theorem C80_case_fold : forall s out, octets s -> exists vs us rest bs cs, s = us ++ rest /\ encodes lenient vs us /\ ill_formed_at lenient rest
  /\ encodes utf8_seq (folded_simple vs) bs /\ encodes utf8_seq (folded vs) cs
  /\ (exists ec buf, to_case_fold_simple s out = Some (length bs, ec, buf) /\ length buf = length out
        /\ if (length bs <=? length out)%nat then ec = (if is_nil rest then OK else EINVAL) /\ buf = bs ++ skipn (length bs) out else ec = ERANGE)
  /\ (exists ec buf, to_case_fold s out = Some (length cs, ec, buf) /\ length buf = length out
        /\ if (length cs <=? length out)%nat then ec = (if is_nil rest then OK else EINVAL) /\ buf = cs ++ skipn (length cs) out else ec = ERANGE).
Proof.
  intros s out U. destruct (lenient_split s U) as (vs & us & rest & -> & E & I & cp & X).
  pose proof (encodes_scalars lenient vs us lenient_scalar E) as Sv.
  assert (S1 : Forall scalar (folded_simple vs)) by (clear E; induction Sv; cbn; constructor; [apply sf_scalar|]; assumption).
  assert (S2 : Forall scalar (folded vs)) by (clear E S1; induction Sv; cbn; [constructor|apply Forall_app; split; [apply ff_scalar|]; assumption]).
  destruct (encodes_exists utf8_seq _ scalar_seq S1) as [bs B]. destruct (encodes_exists utf8_seq _ scalar_seq S2) as [cs C].
  exists vs, us, rest, bs, cs. split; [reflexivity|]. split; [exact E|]. split; [exact I|]. split; [exact B|]. split; [exact C|]. split.
  - apply (transform_spec (fun cp => f <- simple_fold cp ;; Some [f]) (fun v => [sf v])) with (vs := vs) (cp := cp); [|exact E|exact X|].
    + intros v S. rewrite (simple_ok v S). reflexivity.
    + assert (Q : flat_map (fun v => [sf v]) vs = map sf vs) by (clear; induction vs as [|v vs IH]; [reflexivity|cbn; f_equal; exact IH]). rewrite Q. exact B.
  - apply (transform_spec full_fold ff full_ok) with (vs := vs) (cp := cp); assumption.
Qed.
(** Folding a valid text again changes nothing. *)
Theorem C80_idempotent : forall vs, Forall scalar vs -> folded_simple (folded_simple vs) = folded_simple vs /\ folded (folded vs) = folded vs.
Proof.
  intros vs F. split; induction F as [|v vs S F IH]; [reflexivity| |reflexivity|].
  - cbn. f_equal; [apply sf_idem; exact S|exact IH].
  - change (folded (v :: vs)) with (ff v ++ folded vs). unfold folded at 1. rewrite flat_map_app. f_equal; [apply ff_idem; exact S|exact IH].
Qed.
Example C80_example : octets [0x41; 0xC3; 0x9F; 0xFF] /\ to_case_fold [0x41; 0xC3; 0x9F] (repeat 9 4) = Some (3%nat, OK, [0x61; 0x73; 0x73; 9])
  /\ to_case_fold [0x41; 0xC3; 0x9F; 0xFF] (repeat 9 3) = Some (3%nat, EINVAL, [0x61; 0x73; 0x73])
  /\ to_case_fold_simple [0x41; 0xC8; 0xBA] (repeat 9 1) = Some (4%nat, ERANGE, [0x61]).
Proof. split; [repeat constructor; lia|]. repeat split; vm_compute; reflexivity. Qed.

(** C76 *)
Lemma size_seq : forall v ch, utf8_seq v ch -> N.of_nat (length ch) = utf8_size v.
Proof. intros v ch S. unfold utf8_size. destruct S; cbn [length]; destruct (N.ltb_spec v 128); try lia; destruct (N.ltb_spec v 2048); try lia; destruct (N.ltb_spec v 65536); lia. Qed.
Lemma size_text : forall vs us, encodes utf8_seq vs us -> N.of_nat (length us) = sum (map utf8_size vs).
Proof. intros vs us E. induction E as [|v vs ch us S E IH]; [reflexivity|]. rewrite app_length. cbn [map sum fold_right]. pose proof (size_seq v ch S). fold (sum (map utf8_size vs)). lia. Qed.
Lemma size_lenient : forall v ch, lenient v ch -> utf8_size v <= N.of_nat (length ch).
Proof.
  intros v ch S. unfold utf8_size. destruct S as [a H|a b H|a b c v H E Sc|a b c d v H E Sc]; cbn [length].
  - destruct (N.ltb_spec a 128); lia.
  - assert (M1 := N.mod_lt a 32 ltac:(discriminate)). assert (M2 := N.mod_lt b 64 ltac:(discriminate)). set (p := a mod 32) in *. set (q := b mod 64) in *. clearbody p q.
    destruct (N.ltb_spec (p * 64 + q) 128); [lia|]. destruct (N.ltb_spec (p * 64 + q) 2048); lia.
  - assert (M1 := N.mod_lt a 16 ltac:(discriminate)). assert (M2 := N.mod_lt b 64 ltac:(discriminate)). assert (M3 := N.mod_lt c 64 ltac:(discriminate)).
    set (p := a mod 16) in *. set (q := b mod 64) in *. set (r := c mod 64) in *. clearbody p q r. subst v. set (w := p * 4096 + q * 64 + r) in *. assert (w < 65536) by (unfold w; lia). clearbody w. destruct (N.ltb_spec w 128); [lia|]. destruct (N.ltb_spec w 2048); [lia|]. destruct (N.ltb_spec w 65536); lia.
  - destruct (v <? 128); [lia|]. destruct (v <? 2048); [lia|]. destruct (v <? 65536); lia.
Qed.
Lemma size_lenient_text : forall vs us, encodes lenient vs us -> sum (map utf8_size vs) <= N.of_nat (length us).
Proof. intros vs us E. induction E as [|v vs ch us S E IH]; [cbn; lia|]. rewrite app_length. cbn [map sum fold_right]. pose proof (size_lenient v ch S). fold (sum (map utf8_size vs)). lia. Qed.
Lemma sum_app : forall a b, sum (a ++ b) = sum a + sum b.
Proof. induction a as [|x a IH]; intros b; [reflexivity|]. cbn [app sum fold_right]. fold (sum (a ++ b)). fold (sum a). rewrite IH. lia. Qed.
(** A buffer of three times the size of the text always takes its full folding, one of one and a half times its simple
    folding. *)
Theorem C76_buffer_sizes : forall s out, octets s -> exists n1 ec1 b1 n2 ec2 b2,
  to_case_fold_simple s out = Some (n1, ec1, b1) /\ to_case_fold s out = Some (n2, ec2, b2)
  /\ (2 * n1 <= 3 * length s)%nat /\ (n2 <= 3 * length s)%nat
  /\ ((3 * length s <= 2 * length out)%nat -> ec1 <> ERANGE) /\ ((3 * length s <= length out)%nat -> ec2 <> ERANGE).
Proof.
  intros s out U. destruct (C80_case_fold s out U) as (vs & us & rest & bs & cs & -> & E & _ & B & C & (ec1 & b1 & Q1 & _ & D1) & (ec2 & b2 & Q2 & _ & D2)).
  pose proof (encodes_scalars lenient vs us lenient_scalar E) as Sv. pose proof (size_lenient_text vs us E) as Z0.
  apply size_text in B. apply size_text in C. rewrite app_length.
  assert (Z1 : 2 * sum (map utf8_size (folded_simple vs)) <= 3 * sum (map utf8_size vs)).
  { clear E B C Z0. induction Sv as [|v vs S F IH]; [cbn; lia|]. cbn [folded_simple map sum fold_right]. fold (folded_simple vs).
    fold (sum (map utf8_size vs)). fold (sum (map utf8_size (folded_simple vs))).
    assert (H : 2 * utf8_size (sf v) <= 3 * utf8_size v) by (unfold sf; destruct (simple_fold_facts v (scalar_le v S)) as [f [-> [_ [_ [H _]]]]]; exact H). lia. }
  assert (Z2 : sum (map utf8_size (folded vs)) <= 3 * sum (map utf8_size vs)).
  { clear E B C Z0 Z1. induction Sv as [|v vs S F IH]; [cbn; lia|]. cbn [folded flat_map]. fold (folded vs). rewrite map_app, sum_app. cbn [map sum fold_right].
    fold (sum (map utf8_size vs)).
    assert (H : sum (map utf8_size (ff v)) <= 3 * utf8_size v) by (unfold ff; destruct (full_fold_facts v (scalar_le v S)) as [l [-> [_ [_ [_ [H _]]]]]]; exact H). lia. }
  exists (length bs), ec1, b1, (length cs), ec2, b2. split; [exact Q1|]. split; [exact Q2|].
  assert (L1 : (2 * length bs <= 3 * (length us + length rest))%nat) by lia. assert (L2 : (length cs <= 3 * (length us + length rest))%nat) by lia.
  split; [exact L1|]. split; [exact L2|]. split; intros L.
  - rewrite (proj2 (Nat.leb_le (length bs) (length out))) in D1 by lia. destruct D1 as [-> _]. destruct (is_nil rest); discriminate.
  - rewrite (proj2 (Nat.leb_le (length cs) (length out))) in D2 by lia. destruct D2 as [-> _]. destruct (is_nil rest); discriminate.
Qed.
(** Both bounds are reached: U+0390 (two octets) folds to six, U+023A (two octets) to three. *)
Example C76_example : to_case_fold [0xCE; 0x90] (repeat 9 5) = Some (6%nat, ERANGE, [0xCE; 0xB9; 0xCC; 0x88; 9])
  /\ to_case_fold [0xCE; 0x90] (repeat 9 6) = Some (6%nat, OK, [0xCE; 0xB9; 0xCC; 0x88; 0xCC; 0x81])
  /\ to_case_fold_simple [0xC8; 0xBA] (repeat 9 3) = Some (3%nat, OK, [0xE2; 0xB1; 0xA5]) /\ octets [0xCE; 0x90].
Proof. split; [vm_compute; reflexivity|]. split; [vm_compute; reflexivity|]. split; [vm_compute; reflexivity|]. repeat constructor; lia. Qed.

(** C81 *)
(** The order that natural comparison is to give: a run of digits counts as one symbol, numbers are ordered by their
    value and come behind every codepoint; everything else is folded. *)
Definition natural (vs ts : list N) : Prop := human_tokens ff (fun n => 0x110000 + n) vs ts.
Definition natural_simple (vs ts : list N) : Prop := human_tokens (fun v => [sf v]) (fun n => 0x110000 + n) vs ts.
(** "0" ties with the largest codepoint; 4294967296 ties with 0; 3000000000 comes before 1; comparing 2200000000 with
    2146000000 overflows an int; and "a0" at the same address as "a00" counts as smaller although "a0" and "a00" tie at
    different addresses. *)
Theorem C81_natural_order_refuted :
  (exists m a al b bl, forall fuel, (20 <= fuel)%nat -> text m a al = Some [48] /\ text m b bl = Some [0xF4; 0x8F; 0xBF; 0xBF] /\
     tmu_utf8_human_compare full_fold fuel m a al b bl = Some 0%Z)
  /\ (exists m a al b bl, forall fuel, (20 <= fuel)%nat -> text m a al = Some [52; 50; 57; 52; 57; 54; 55; 50; 57; 54] /\ text m b bl = Some [48] /\
     tmu_utf8_human_compare full_fold fuel m a al b bl = Some 0%Z)
  /\ (exists m a al b bl, forall fuel, (20 <= fuel)%nat -> text m a al = Some [51; 48; 48; 48; 48; 48; 48; 48; 48; 48] /\ text m b bl = Some [49] /\
     tmu_utf8_human_compare full_fold fuel m a al b bl = Some (-1)%Z)
  /\ (exists m a al b bl, forall fuel, (20 <= fuel)%nat -> text m a al = Some [50; 50; 48; 48; 48; 48; 48; 48; 48; 48] /\ text m b bl = Some [50; 49; 52; 54; 48; 48; 48; 48; 48; 48] /\
     tmu_utf8_human_compare full_fold fuel m a al b bl = None)
  /\ (exists m a al b bl c cl, forall fuel, (20 <= fuel)%nat -> text m a al = Some [97; 48] /\ text m b bl = Some [97; 48; 48] /\ text m c cl = Some [97; 48] /\
     tmu_utf8_human_compare full_fold fuel m a al b bl = Some (-1)%Z /\ tmu_utf8_human_compare full_fold fuel m c cl b bl = Some 0%Z).
Proof.
  split; [|split; [|split; [|split]]].
  - exists [48; 0xF4; 0x8F; 0xBF; 0xBF], 0%nat, 1%nat, 1%nat, 4%nat. intros fuel F. do 20 (destruct fuel as [|fuel]; [lia|]). repeat split; vm_compute; reflexivity.
  - exists [52; 50; 57; 52; 57; 54; 55; 50; 57; 54; 48], 0%nat, 10%nat, 10%nat, 1%nat. intros fuel F. do 20 (destruct fuel as [|fuel]; [lia|]). repeat split; vm_compute; reflexivity.
  - exists [51; 48; 48; 48; 48; 48; 48; 48; 48; 48; 49], 0%nat, 10%nat, 10%nat, 1%nat. intros fuel F. do 20 (destruct fuel as [|fuel]; [lia|]). repeat split; vm_compute; reflexivity.
  - exists [50; 50; 48; 48; 48; 48; 48; 48; 48; 48; 50; 49; 52; 54; 48; 48; 48; 48; 48; 48], 0%nat, 10%nat, 10%nat, 10%nat. intros fuel F. do 20 (destruct fuel as [|fuel]; [lia|]). repeat split; vm_compute; reflexivity.
  - exists [97; 48; 48; 97; 48], 0%nat, 2%nat, 0%nat, 3%nat, 3%nat, 2%nat. intros fuel F. do 20 (destruct fuel as [|fuel]; [lia|]). repeat split; vm_compute; reflexivity.
Qed.
(** Two overlong zeros are compared for ever: with any fuel the model runs out of it. *)
Theorem C81_endless_refuted : exists m a al b bl, text m a al = Some [0xC0; 0xB0] /\ text m b bl = Some [0xC0; 0xB0] /\
  forall fuel, token_loop (next_human_simple simple_fold) fuel [0xC0; 0xB0] [0xC0; 0xB0] = None /\ tmu_utf8_human_compare_simple simple_fold fuel m a al b bl = None.
Proof.
  exists [0xC0; 0xB0; 0xC0; 0xB0], 0%nat, 2%nat, 2%nat, 2%nat. split; [reflexivity|]. split; [reflexivity|].
  assert (H : forall fuel, token_loop (next_human_simple simple_fold) fuel [0xC0; 0xB0] [0xC0; 0xB0] = None).
  { induction fuel as [|fuel IH]; [reflexivity|]. cbn [token_loop].
    assert (E : next_human_simple simple_fold [0xC0; 0xB0] = Some (Some (0x10FFFF, [0xC0; 0xB0]))) by (vm_compute; reflexivity). rewrite E, N.eqb_refl. exact IH. }
  intros fuel. split; [apply H|]. unfold tmu_utf8_human_compare_simple, compare_at. cbn [text Nat.leb Nat.add length firstn skipn is_zero orb Nat.eqb]. unfold token_compare. rewrite H. reflexivity.
Qed.
Definition dec (t : N) : N := if t <=? 0x10FFFF then t else t - 1.
Lemma dec_small : forall t, t <= 0x10FFFF -> dec t = t.
Proof. intros t H. unfold dec. rewrite (proj2 (N.leb_le _ _) H). reflexivity. Qed.
Lemma dec_num : forall n, 0x110000 + n <= 0x80000000 -> dec (0x110000 + n) = code_num n.
Proof. intros n H. unfold dec, code_num, w32. rewrite (proj2 (N.leb_gt _ _)) by lia. rewrite N.mod_small by (unfold TMU_MAX_UTF32; lia). unfold TMU_MAX_UTF32. lia. Qed.
(** What keeps the order: no symbol is the largest codepoint, no number exceeds 2^31 - 0x110000. *)
Definition tame (ts : list N) : Prop := Forall (fun t => t <> 0x10FFFF /\ t <= 0x80000000) ts.
Lemma dec_mono : forall s t, s <> 0x10FFFF -> t <> 0x10FFFF -> (dec s < dec t <-> s < t) /\ (dec s = dec t <-> s = t).
Proof. intros s t Hs Ht. unfold dec. destruct (N.leb_spec s 0x10FFFF), (N.leb_spec t 0x10FFFF); lia. Qed.
Lemma code_tokens : forall fold vs ts, (forall v, scalar v -> Forall scalar (fold v)) -> Forall scalar vs -> tame ts ->
  human_tokens fold (fun n => 0x110000 + n) vs ts -> human_tokens fold code_num vs (map dec ts).
Proof.
  intros fold vs ts Hf F T H. induction H as [|v vs ts D H IH|d ds vs ts D Ds Nx H IH].
  - constructor.
  - inversion F as [|? ? Sv F']; subst. apply Forall_app in T as [T1 T2]. rewrite map_app.
    assert (E : map dec (fold v) = fold v). { rewrite <- (map_id (fold v)) at 2. apply map_ext_Forall. eapply Forall_impl; [|apply (Hf v Sv)]. intros t S. apply dec_small. apply scalar_le. exact S. }
    rewrite E. constructor; [exact D|]. apply IH; assumption.
  - inversion F as [|? ? Sv F']; subst. apply Forall_app in F' as [_ F']. apply Forall_cons_iff in T as [[_ T1] T2]. cbn [map]. rewrite dec_num by exact T1.
    constructor; [exact D|exact Ds|exact Nx|]. apply IH; assumption.
Qed.
Lemma lex_dec : forall ts us, tame ts -> tame us -> (lex_lt (map dec ts) (map dec us) <-> lex_lt ts us) /\ (map dec ts = map dec us <-> ts = us).
Proof.
  induction ts as [|t ts IH]; intros us Ht Hu; destruct us as [|u us]; cbn [map].
  - split; [split; intros H; inversion H|tauto].
  - split; [split; constructor|split; discriminate].
  - split; [split; intros H; inversion H|split; discriminate].
  - apply Forall_cons_iff in Ht as [[T1 _] Ht']. apply Forall_cons_iff in Hu as [[U1 _] Hu']. destruct (IH us Ht' Hu') as [L Q]. destruct (dec_mono t u T1 U1) as [M E]. split.
    + split; intros H.
      * inversion H as [|? ? ? ? X|? ? ? X Y]; subst; [apply Lex_head; apply M; assumption|].
        assert (t = u) by (apply E; congruence). subst u. apply Lex_tail. apply L. assumption.
      * inversion H; subst; [apply Lex_head; apply M; assumption|apply Lex_tail; apply L; assumption].
    + split; intros H; [|congruence]. assert (H1 : dec t = dec u) by congruence. assert (H2 : map dec ts = map dec us) by congruence. apply E in H1. apply Q in H2. congruence.
Qed.
Lemma tokens_length : forall fold num vs ts, (forall v, scalar v -> (length (fold v) <= 3)%nat) -> Forall scalar vs -> human_tokens fold num vs ts -> (length ts <= 3 * length vs)%nat.
Proof.
  intros fold num vs ts Hl F H. induction H as [|v vs ts D H IH|d ds vs ts D Ds Nx H IH]; [cbn; lia| |].
  - inversion F; subst. rewrite app_length. cbn [length]. specialize (Hl v ltac:(assumption)). specialize (IH ltac:(assumption)). lia.
  - inversion F as [|? ? Sv F']; subst. apply Forall_app in F' as [_ F']. specialize (IH F'). cbn [length]. rewrite app_length. lia.
Qed.
Lemma tokens_nil : forall fold num vs ts, (forall v, scalar v -> fold v <> []) -> Forall scalar vs -> human_tokens fold num vs ts -> ts = [] -> vs = [].
Proof. intros fold num vs ts Hn F H E. destruct H as [|v vs ts D H|]; [reflexivity| |discriminate]. inversion F; subst. apply app_eq_nil in E as [E _]. exfalso. apply (Hn v); assumption. Qed.
Lemma human_at : forall St next at_end (init : list N -> St) fold,
  (forall v, scalar v -> Forall scalar (fold v)) -> (forall v, scalar v -> (length (fold v) <= 3)%nat) -> (forall v, scalar v -> fold v <> []) ->
  (forall vs ts, human_tokens fold code_num vs ts -> forall s, encodes utf8_seq vs s -> yields next at_end (init s) ts) ->
  forall m a al b bl x y vs ws ts us fuel, text m a al = Some x -> text m b bl = Some y -> encodes utf8_seq vs x -> encodes utf8_seq ws y ->
  human_tokens fold (fun n => 0x110000 + n) vs ts -> human_tokens fold (fun n => 0x110000 + n) ws us -> tame ts -> tame us -> a <> b -> (3 * al < fuel)%nat ->
  exists r, compare_at (fun x y => token_compare next at_end fuel (init x) (init y)) m a al b bl = Some r /\ (~ (exists c, ts = us ++ [c]) -> orders lex_lt ts us r).
Proof.
  intros St next at_end init fold Hs Hl Hn Hy m a al b bl x y vs ws ts us fuel Tx Ty Ex Ey Nv Nw Tt Tu D F.
  pose proof (encodes_scalars utf8_seq vs x seq_scalar Ex) as Sv. pose proof (encodes_scalars utf8_seq ws y seq_scalar Ey) as Sw.
  destruct (text_some _ _ _ _ Tx) as (Lx & _). destruct (text_some _ _ _ _ Ty) as (Ly & _).
  unfold compare_at. rewrite Tx, Ty. destruct (is_zero al || is_zero bl) eqn:Z.
  - eexists. split; [reflexivity|]. intros _. apply orders_intro. destruct al as [|al], bl as [|bl]; try discriminate; cbn [is_zero b2z].
    + apply length_zero_iff_nil in Lx, Ly. subst. rewrite (empty_tokens vs Ex) in Nv. rewrite (empty_tokens ws Ey) in Nw. inversion Nv; inversion Nw. right. left. auto.
    + apply length_zero_iff_nil in Lx. subst x. rewrite (empty_tokens vs Ex) in Nv. inversion Nv; subst. left. split; [lia|]. destruct us as [|u us]; [|constructor].
      rewrite (tokens_nil _ _ _ _ Hn Sw Nw eq_refl) in Ey. inversion Ey; subst. discriminate.
    + apply length_zero_iff_nil in Ly. subst y. rewrite (empty_tokens ws Ey) in Nw. inversion Nw; subst. right. right. split; [lia|]. destruct ts as [|u us]; [|constructor].
      rewrite (tokens_nil _ _ _ _ Hn Sv Nv eq_refl) in Ex. inversion Ex; subst. discriminate.
  - rewrite (proj2 (Nat.eqb_neq a b) D).
    assert (sm : forall l, tame l -> Forall (fun c => c < 0x80000000) (map dec l)).
    { intros l T. induction T as [|t l [T1 T2] T IH]; cbn [map]; constructor; [unfold dec; destruct (N.leb_spec t 0x10FFFF); lia|exact IH]. }
    pose proof (tokens_length _ _ _ _ Hl Sv Nv) as Ll. pose proof (text_codepoints m a al x vs Tx Ex) as Lv.
    destruct (token_compare_spec St next at_end (map dec ts) (init x) (map dec us) (init y) fuel
       (Hy vs _ (code_tokens fold vs ts Hs Sv Tt Nv) x Ex) (Hy ws _ (code_tokens fold ws us Hs Sw Tu Nw) y Ey) ltac:(rewrite map_length; lia) (sm ts Tt) (sm us Tu)) as (r & E & _ & R).
    exists r. split; [exact E|]. intros Nc. destruct R as [[[c Q] _]|[_ O]].
    + exfalso. apply Nc. clear - Q Tt Tu. revert us Tu Q. induction ts as [|t ts IH]; intros us Tu Q; destruct us as [|u us]; cbn [map app] in Q; try discriminate.
      * exists t. destruct ts; [reflexivity|discriminate].
      * apply Forall_cons_iff in Tt as [[T1 _] Tt']. apply Forall_cons_iff in Tu as [[U1 _] Tu']. assert (Q1 : dec t = dec u) by congruence. assert (Q2 : map dec ts = map dec us ++ [c]) by congruence.
        destruct (dec_mono t u T1 U1) as [_ M]. apply M in Q1. subst u. destruct (IH Tt' us Tu' Q2) as [d ->]. exists d. reflexivity.
    + destruct O as (O1 & O2 & O3). destruct (lex_dec ts us Tt Tu) as [L1 Q1]. destruct (lex_dec us ts Tu Tt) as [L2 _].
      split; [rewrite O1; exact L1|]. split; [rewrite O2; exact Q1|rewrite O3; exact L2].
Qed.
(** Exactly the natural order for texts at different addresses, without the largest codepoint and without numbers beyond
    2^31 - 0x110000, but for a first text that is longer by one symbol, which ties. *)
Theorem C81_natural_order_partial : forall m a al b bl x y vs ws fuel, text m a al = Some x -> text m b bl = Some y ->
  encodes utf8_seq vs x -> encodes utf8_seq ws y -> a <> b -> (3 * al < fuel)%nat ->
  (forall ts us, natural_simple vs ts -> natural_simple ws us -> tame ts -> tame us ->
     exists r, tmu_utf8_human_compare_simple simple_fold fuel m a al b bl = Some r /\ (~ (exists c, ts = us ++ [c]) -> orders lex_lt ts us r))
  /\ (forall ts us, natural vs ts -> natural ws us -> tame ts -> tame us ->
     exists r, tmu_utf8_human_compare full_fold fuel m a al b bl = Some r /\ (~ (exists c, ts = us ++ [c]) -> orders lex_lt ts us r)).
Proof.
  intros m a al b bl x y vs ws fuel Tx Ty Ex Ey D F. split; intros ts us Nv Nw Tt Tu.
  - apply (human_at _ (next_human_simple simple_fold) is_nil (fun s => s) (fun v => [sf v])) with (x := x) (y := y) (vs := vs) (ws := ws); try assumption.
    + intros v S. constructor; [apply sf_scalar; exact S|constructor].
    + intros v _. cbn. lia.
    + discriminate.
    + intros vs' ts' H s E. apply (human_simple_yields simple_fold sf simple_ok) with (vs := vs'); assumption.
  - apply (human_at _ (next_human full_fold) end_full (fun s => ([], s)) ff) with (x := x) (y := y) (vs := vs) (ws := ws); try assumption.
    + exact ff_scalar.
    + exact ff_length.
    + exact full_ne.
    + intros vs' ts' H s E. apply (human_yields full_fold ff full_ok full_ne ff_digit ff_nodigit) with (vs := vs'); assumption.
Qed.
(** Every text has such a sequence of symbols. *)
Theorem C81_symbols_exist : forall vs, (exists ts, natural vs ts) /\ (exists ts, natural_simple vs ts).
Proof. intros vs. split; apply human_total. Qed.
(** "F9" before "f10", at addresses 0 and 2. *)
Example C81_example : let m := [0x46; 0x39; 0x66; 0x31; 0x30] in text m 0 2 = Some [0x46; 0x39] /\ text m 2 3 = Some [0x66; 0x31; 0x30]
  /\ natural [0x46; 0x39] [0x66; 0x110009] /\ natural [0x66; 0x31; 0x30] [0x66; 0x11000A] /\ tame [0x66; 0x110009] /\ tame [0x66; 0x11000A]
  /\ tmu_utf8_human_compare full_fold 20 m 0 2 2 3 = Some (-1)%Z /\ tmu_utf8_human_compare_simple simple_fold 20 m 2 3 0 2 = Some 1%Z
  /\ tmu_utf8_compare_ignore_case full_fold 20 m 0 2 2 3 = Some 1%Z.
Proof.
  cbv zeta. split; [reflexivity|]. split; [reflexivity|]. split; [|split; [|split; [|split]]].
  - apply (H_other ff (fun n => 0x110000 + n) 0x46 [0x39] [0x110009]); [unfold is_digit; lia|].
    apply (H_number ff (fun n => 0x110000 + n) 0x39 [] [] []); [unfold is_digit; lia|constructor|discriminate|constructor].
  - apply (H_other ff (fun n => 0x110000 + n) 0x66 [0x31; 0x30] [0x11000A]); [unfold is_digit; lia|].
    apply (H_number ff (fun n => 0x110000 + n) 0x31 [0x30] [] []); [unfold is_digit; lia|repeat constructor; unfold is_digit; lia|discriminate|constructor].
  - repeat constructor; lia.
  - repeat constructor; lia.
  - repeat split; vm_compute; reflexivity.
Qed.

Print Assumptions C37_equality_refuted.
Print Assumptions C37_equality_partial.
Print Assumptions C37_comparison_partial.
Print Assumptions C37_no_false_negatives.
Print Assumptions C37_same_size.
Print Assumptions C80_case_fold.
Print Assumptions C80_idempotent.
Print Assumptions C76_buffer_sizes.
Print Assumptions C81_natural_order_refuted.
Print Assumptions C81_endless_refuted.
Print Assumptions C81_natural_order_partial.
Print Assumptions C81_symbols_exist.
