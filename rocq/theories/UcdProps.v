(** Properties of the Unicode property lookup and of the two case foldings, for every codepoint. *)
From Coq Require Import Arith NArith ZArith List Bool Lia ZifyBool ZifyNat ZifyN.
From Verif Require Import Base UniSpec UcdData UcdModel UcdProofs UcdFold.
Import ListNotations.
Local Open Scope N_scope.

(** Specification, from the Unicode standard (chapter 3 and PropList.txt), independent of the tables. *)
Definition white_space (c : N) : Prop :=
  9 <= c <= 13 \/ c = 32 \/ c = 0x85 \/ c = 0xA0 \/ c = 0x1680 \/ 0x2000 <= c <= 0x200A
  \/ c = 0x2028 \/ c = 0x2029 \/ c = 0x202F \/ c = 0x205F \/ c = 0x3000.
(** The blocks that UnicodeData.txt gives by first and last codepoint and whose general category is Lo. *)
Definition letter_ranges : list (N * N) :=
  [(0x3400, 0x4DBF); (0x4E00, 0x9FFC); (0xAC00, 0xD7A3); (0x17000, 0x187F7); (0x18D00, 0x18D08); (0x20000, 0x2A6DD);
   (0x2A700, 0x2B734); (0x2B740, 0x2B81D); (0x2B820, 0x2CEA1); (0x2CEB0, 0x2EBE0); (0x30000, 0x3134A)].
Definition ideograph_or_hangul (c : N) : Prop := exists lo hi, In (lo, hi) letter_ranges /\ lo <= c <= hi.
(** The general category groups and the codes of the grapheme break classes, as the header's enumerations list them. *)
Notation Other := 0 (only parsing). Notation Letter := 1 (only parsing). Notation Number := 3 (only parsing).
Notation Punctuation := 4 (only parsing). Notation Symbol := 5 (only parsing). Notation Separator := 6 (only parsing).
Definition ascii_category (c : N) : N :=
  if (c <? 32) || (c =? 127) then Other
  else if c =? 32 then Separator
  else if ((65 <=? c) && (c <=? 90)) || ((97 <=? c) && (c <=? 122)) then Letter
  else if (48 <=? c) && (c <=? 57) then Number
  else if existsb (N.eqb c) [36; 43; 60; 61; 62; 94; 96; 124; 126] then Symbol
  else Punctuation.

(** C38 *)
Theorem C38_lookup_is_total_and_in_bounds : forall cp, cp <= 0x10FFFF ->
  exists e w, tmu_ucd_get_entry cp = Some e /\ tmu_ucd_is_whitespace cp = Some w
    /\ tmu_ucd_get_category cp = Some (category e) /\ tmu_ucd_get_case_info cp = Some (case_info e)
    /\ simple_fold cp = Some (simple_case_fold e)
    /\ category e <= 6 /\ case_info e <= 3 /\ grapheme_break e <= 14.
Proof.
  intros cp L. destruct (check_spec _ ucd_total_check cp L) as [[[[b0 b1] full] off] [E C]].
  repeat (apply andb_prop in C as [C ?]).
  unfold tmu_ucd_get_entry, tmu_ucd_is_whitespace, tmu_ucd_get_category, tmu_ucd_get_case_info, simple_fold. rewrite E.
  destruct (read_run _) as [run|]; [|discriminate].
  eexists. eexists. split; [reflexivity|]. split; [reflexivity|]. cbn [category case_info grapheme_break simple_case_fold].
  repeat (split; [first [reflexivity | lia]|]). lia.
Qed.
Theorem C38_simple_folding_is_idempotent : forall cp, scalar cp ->
  exists f, simple_fold cp = Some f /\ scalar f /\ simple_fold f = Some f.
Proof.
  intros cp S. destruct (simple_fold_facts cp (scalar_le cp S)) as [f [E [_ [H [_ [_ [_ I]]]]]]].
  exists f. split; [exact E|]. split; [tauto|exact I].
Qed.
Theorem C38_full_folding_is_idempotent : forall cp, scalar cp ->
  exists l, full_fold cp = Some l /\ l <> [] /\ (length l <= 3)%nat /\ Forall scalar l /\ Forall (fun c => full_fold c = Some [c]) l.
Proof.
  intros cp S. destruct (full_fold_facts cp (scalar_le cp S)) as [l [E [N0 [L [H [_ [_ [_ I]]]]]]]].
  exists l. split; [exact E|]. split; [exact N0|]. split; [exact L|]. split; [auto|exact I].
Qed.
(** A codepoint above the last one fails the assertion; one that is in range may be looked up even if it is a surrogate. *)
Theorem C38_only_codepoints : forall cp, 0x10FFFF < cp -> tmu_ucd_get_entry cp = None /\ tmu_ucd_get_category cp = None.
Proof.
  intros cp L. unfold tmu_ucd_get_entry, tmu_ucd_get_category, tmu_get_ucd_internal, assert_.
  assert (B : (cp <=? 1114111) = false) by lia. rewrite B. split; reflexivity.
Qed.
Example C38_example : tmu_ucd_get_entry 0xDF = Some (UcdEntry Letter 2 0 0xDF [115; 115])
  /\ full_fold 0xDF = Some [115; 115] /\ simple_fold 0x23A = Some 0x2C65 /\ simple_fold 0x10400 = Some 0x10428
  /\ tmu_ucd_get_category 0xD800 = Some Other /\ scalar 0x1E9E.
Proof. repeat split; try (vm_compute; reflexivity). unfold scalar. lia. Qed.

(** C72 *)
Definition flagged (c : N) : bool :=
  (c =? 12) || (c =? 32) || (c =? 0x1680) || ((0x2000 <=? c) && (c <=? 0x200A)) || (c =? 0x2028) || (c =? 0x205F) || (c =? 0x3000).
Lemma whitespace_check : check (fun cp x => let '(b0, b1, full, off) := x in Bool.eqb (negb (N.land b0 64 =? 0)) (flagged cp)) = true.
Proof. vm_compute. reflexivity. Qed.
(** Line feed, tab and no-break space are white space in the standard and are not reported. *)
Theorem C72_whitespace_refuted : exists c, white_space c /\ tmu_ucd_is_whitespace c = Some false.
Proof. exists 10. split; [unfold white_space; lia|]. vm_compute. reflexivity. Qed.
Theorem C72_whitespace_partial : forall cp, cp <= 0x10FFFF ->
  exists w, tmu_ucd_is_whitespace cp = Some w
    /\ (w = true -> white_space cp)
    /\ (w = true <-> cp = 12 \/ cp = 32 \/ cp = 0x1680 \/ 0x2000 <= cp <= 0x200A \/ cp = 0x2028 \/ cp = 0x205F \/ cp = 0x3000).
Proof.
  intros cp L. destruct (check_spec _ whitespace_check cp L) as [[[[b0 b1] full] off] [E C]].
  apply Bool.eqb_prop in C. unfold tmu_ucd_is_whitespace. rewrite E, C. eexists. split; [reflexivity|].
  unfold flagged, white_space. split; lia.
Qed.
Theorem C72_what_is_missed : forall cp, white_space cp -> tmu_ucd_is_whitespace cp = Some false ->
  9 <= cp <= 11 \/ cp = 13 \/ cp = 0x85 \/ cp = 0xA0 \/ cp = 0x2029 \/ cp = 0x202F.
Proof.
  intros cp W E. assert (L : cp <= 0x10FFFF) by (unfold white_space in W; lia).
  destruct (C72_whitespace_partial cp L) as [w [E' [_ H]]]. assert (w = false) by congruence. subst w.
  assert (NW : ~ (cp = 12 \/ cp = 32 \/ cp = 0x1680 \/ 0x2000 <= cp <= 0x200A \/ cp = 0x2028 \/ cp = 0x205F \/ cp = 0x3000)) by (intros Q; apply H in Q; discriminate).
  clear H E E'. unfold white_space in W. lia.
Qed.
Example C72_example : tmu_ucd_is_whitespace 32 = Some true /\ tmu_ucd_is_whitespace 9 = Some false /\ tmu_ucd_is_whitespace 65 = Some false
  /\ tmu_ucd_is_whitespace 0x3000 = Some true /\ white_space 0xA0 /\ tmu_ucd_is_whitespace 0xA0 = Some false.
Proof. repeat split; try (vm_compute; reflexivity). unfold white_space. lia. Qed.

(** C73 *)
Lemma letters_check : check (fun cp x => let '(b0, b1, full, off) := x in
  if cp <? 0x3400 then true else if 0x31350 <=? cp then true else
  forallb (fun r => if cp <? fst r then true else if snd r <? cp then true else
                    N.land b0 7 =? (if cp =? fst r then 1 else if cp =? snd r then 1 else 0)) letter_ranges) = true.
Proof. vm_compute. reflexivity. Qed.
(** U+4E8C (two) and the Hangul syllable U+AC01 are reported as control characters. *)
Theorem C73_letters_refuted : exists c d, ideograph_or_hangul c /\ ideograph_or_hangul d /\ c <> d
  /\ tmu_ucd_get_category c = Some Other /\ tmu_ucd_get_category d = Some Other.
Proof.
  exists 0x4E8C, 0xAC01. split; [exists 0x4E00, 0x9FFC; split; [cbn; tauto|lia]|].
  split; [exists 0xAC00, 0xD7A3; split; [cbn; tauto|lia]|]. split; [discriminate|].
  split; vm_compute; reflexivity.
Qed.
(** Only the first and the last codepoint of each block are reported as letters. *)
Theorem C73_letters_partial : forall lo hi cp, In (lo, hi) letter_ranges -> lo <= cp <= hi ->
  tmu_ucd_get_category cp = Some (if (cp =? lo) || (cp =? hi) then Letter else Other).
Proof.
  intros lo hi cp I H. assert (L : cp <= 0x10FFFF).
  { cbn in I. repeat (destruct I as [I|I]; [injection I as <- <-; lia|]). contradiction. }
  destruct (check_spec _ letters_check cp L) as [[[[b0 b1] full] off] [E C]].
  assert (B1 : (cp <? 0x3400) = false /\ (0x31350 <=? cp) = false).
  { cbn in I. repeat (destruct I as [I|I]; [injection I as <- <-; lia|]). contradiction. }
  destruct B1 as [B1 B2]. rewrite B1, B2 in C.
  rewrite forallb_forall in C. specialize (C (lo, hi) I). cbn [fst snd] in C.
  unfold tmu_ucd_get_category. rewrite E. assert (B3 : (cp <? lo) = false) by lia. assert (B4 : (hi <? cp) = false) by lia. rewrite B3, B4 in C.
  apply N.eqb_eq in C. rewrite C. destruct (cp =? lo); [reflexivity|]. reflexivity.
Qed.
Lemma cased_check : check (fun cp x => let '(b0, b1, full, off) := x in
  ((N.land (N.shiftr b0 3) 3 =? 0) || (N.land b0 7 =? 1))
  && (if (0xD800 <=? cp) && (cp <=? 0xF8FF) then N.land b0 7 =? 0 else true)
  && (if 0xF0000 <=? cp then N.land b0 7 =? 0 else true)) = true.
Proof. vm_compute. reflexivity. Qed.
(** Codepoints with a case are letters; surrogates and private use codepoints are in the group Other. *)
Theorem C73_cased_letters : forall cp k, cp <= 0x10FFFF -> tmu_ucd_get_case_info cp = Some k -> k <> 0 -> tmu_ucd_get_category cp = Some Letter.
Proof.
  intros cp k L. destruct (check_spec _ cased_check cp L) as [[[[b0 b1] full] off] [E C]].
  unfold tmu_ucd_get_case_info, tmu_ucd_get_category. rewrite E. intros Q. injection Q as <-. intros K.
  repeat (apply andb_prop in C as [C ?]). f_equal. apply orb_prop in C as [C|C]; apply N.eqb_eq in C; [contradiction|exact C].
Qed.
Theorem C73_surrogates_and_private_use : forall cp, 0xD800 <= cp <= 0xF8FF \/ 0xF0000 <= cp <= 0x10FFFF ->
  tmu_ucd_get_category cp = Some Other.
Proof.
  intros cp H. destruct (check_spec _ cased_check cp ltac:(lia)) as [[[[b0 b1] full] off] [E C]].
  unfold tmu_ucd_get_category. rewrite E. f_equal. apply andb_prop in C as [C C2]. apply andb_prop in C as [_ C1].
  destruct H as [H|H].
  - assert (B : (0xD800 <=? cp) && (cp <=? 0xF8FF) = true) by lia. rewrite B in C1. apply N.eqb_eq in C1. exact C1.
  - assert (B : (0xF0000 <=? cp) = true) by lia. rewrite B in C2. apply N.eqb_eq in C2. exact C2.
Qed.
Example C73_example : In (0x4E00, 0x9FFC) letter_ranges /\ tmu_ucd_get_category 0x4E00 = Some Letter /\ tmu_ucd_get_category 0x4E01 = Some Other
  /\ tmu_ucd_get_category 0x3042 = Some Letter /\ tmu_ucd_get_case_info 0x41 = Some 1 /\ tmu_ucd_get_category 0xE000 = Some Other.
Proof. repeat split; vm_compute; auto. Qed.

(** C74 *)
Notation CR := 1 (only parsing). Notation LF := 2 (only parsing). Notation Regional_Indicator := 6 (only parsing).
Notation LV := 11 (only parsing). Notation LVT := 12 (only parsing). Notation ZWJ := 13 (only parsing).
Definition in_hangul (cp : N) : bool := (0xAC00 <=? cp) && (cp <=? 0xD7A3).
Lemma grapheme_check : check (fun cp x => let '(b0, b1, full, off) := x in let g := N.land b1 15 in
  Bool.eqb (g =? 1) (cp =? 13) && Bool.eqb (g =? 2) (cp =? 10) && Bool.eqb (g =? 13) (cp =? 0x200D)
  && Bool.eqb (g =? 6) ((0x1F1E6 <=? cp) && (cp <=? 0x1F1FF))
  && (if in_hangul cp then g =? (if (cp - 0xAC00) mod 28 =? 0 then 11 else 12) else negb (g =? 11) && negb (g =? 12))) = true.
Proof. vm_compute. reflexivity. Qed.
Lemma eqb_iff g k b : Bool.eqb (g =? k) b = true -> (g = k <-> b = true).
Proof. intros H. apply Bool.eqb_prop in H. rewrite <- H. symmetry. apply N.eqb_eq. Qed.
Lemma hangul_split cp : in_hangul cp = true -> exists k, k < 399 /\ cp = 0xAC00 + 28 * k + (cp - 0xAC00) mod 28 /\ (cp - 0xAC00) mod 28 < 28.
Proof.
  unfold in_hangul. intros H. exists ((cp - 0xAC00) / 28).
  assert (D := N.div_mod (cp - 0xAC00) 28 ltac:(lia)). assert (M := N.mod_lt (cp - 0xAC00) 28 ltac:(lia)).
  split; [apply N.div_lt_upper_bound; lia|]. set (q := (cp - 0xAC00) / 28) in *. set (r := (cp - 0xAC00) mod 28) in *. clearbody q r. lia.
Qed.
Lemma hangul_mod k t : t < 28 -> (0xAC00 + 28 * k + t - 0xAC00) mod 28 = t.
Proof. intros T. replace (0xAC00 + 28 * k + t - 0xAC00) with (t + k * 28) by lia. rewrite N.mod_add by lia. apply N.mod_small. exact T. Qed.
Theorem C74_grapheme_break_classes : forall cp, cp <= 0x10FFFF -> exists e, tmu_ucd_get_entry cp = Some e
  /\ (grapheme_break e = CR <-> cp = 13) /\ (grapheme_break e = LF <-> cp = 10) /\ (grapheme_break e = ZWJ <-> cp = 0x200D)
  /\ (grapheme_break e = Regional_Indicator <-> 0x1F1E6 <= cp <= 0x1F1FF)
  /\ (grapheme_break e = LV <-> exists k, cp = 0xAC00 + 28 * k /\ k < 399)
  /\ (grapheme_break e = LVT <-> exists k t, cp = 0xAC00 + 28 * k + t /\ k < 399 /\ 1 <= t <= 27).
Proof.
  intros cp L. destruct (C38_lookup_is_total_and_in_bounds cp L) as [e [w [Ge _]]]. exists e. split; [exact Ge|].
  destruct (check_spec _ grapheme_check cp L) as [[[[b0 b1] full] off] [E C]].
  unfold tmu_ucd_get_entry in Ge. rewrite E in Ge. destruct (read_run _); [|discriminate]. injection Ge as <-. cbn [grapheme_break].
  cbn beta iota zeta in C. clear E w. set (g := N.land b1 15) in *. clearbody g. clear b0 b1 full off l L.
  apply andb_prop in C as [C C5]. apply andb_prop in C as [C C4]. apply andb_prop in C as [C C3]. apply andb_prop in C as [C1 C2].
  apply eqb_iff in C1, C2, C3, C4. rewrite N.eqb_eq in C1, C2, C3. rewrite andb_true_iff, !N.leb_le in C4.
  split; [exact C1|]. split; [exact C2|]. split; [exact C3|]. split; [exact C4|]. clear C1 C2 C3 C4.
  assert (IH : forall k t, k < 399 -> t < 28 -> in_hangul (0xAC00 + 28 * k + t) = true) by (intros; unfold in_hangul; lia).
  destruct (in_hangul cp) eqn:Hg.
  - destruct (hangul_split cp Hg) as [k [K [Q M]]]. apply N.eqb_eq in C5. destruct ((cp - 0xAC00) mod 28 =? 0) eqn:Z0.
    + apply N.eqb_eq in Z0. rewrite Z0 in Q. subst g. split; split; try discriminate.
      * intros _. exists k. split; [lia|exact K].
      * reflexivity.
      * intros [k' [t [Q' [K' T]]]]. rewrite Q', hangul_mod in Z0 by lia. lia.
    + apply N.eqb_neq in Z0. subst g. split; split; try discriminate.
      * intros [k' [Q' K']]. exfalso. apply Z0. rewrite Q'. rewrite <- (N.add_0_r (0xAC00 + 28 * k')). apply hangul_mod. lia.
      * intros _. exists k, ((cp - 0xAC00) mod 28). split; [exact Q|]. split; [exact K|]. set (r := (cp - 0xAC00) mod 28) in *. clearbody r. lia.
      * reflexivity.
  - apply andb_prop in C5 as [N1 N2]. apply negb_true_iff in N1, N2. apply N.eqb_neq in N1, N2.
    split; (split; [intros Q; contradiction|]).
    + intros [k [Q K]]. specialize (IH k 0 K eq_refl). rewrite N.add_0_r, <- Q in IH. congruence.
    + intros [k [t [Q [K T]]]]. specialize (IH k t K ltac:(lia)). rewrite <- Q in IH. congruence.
Qed.
Example C74_example : option_map grapheme_break (tmu_ucd_get_entry 0xAC1C) = Some LV /\ option_map grapheme_break (tmu_ucd_get_entry 0xD7A3) = Some LVT
  /\ option_map grapheme_break (tmu_ucd_get_entry 0x1F1E6) = Some Regional_Indicator /\ option_map grapheme_break (tmu_ucd_get_entry 0x300) = Some 5.
Proof. repeat split; vm_compute; reflexivity. Qed.

(** C75 *)
Lemma ascii_check : check (fun cp x => let '(b0, b1, full, off) := x in
  if cp <? 128 then
    (N.land b0 7 =? ascii_category cp) && (full =? 0)
    && (if (65 <=? cp) && (cp <=? 90) then (off =? 32)%Z && (N.land (N.shiftr b0 3) 3 =? 1)
        else (off =? 0)%Z && (N.land (N.shiftr b0 3) 3 =? (if (97 <=? cp) && (cp <=? 122) then 2 else 0)))
  else true) = true.
Proof. vm_compute. reflexivity. Qed.
Theorem C75_ascii : forall cp, cp < 128 ->
  tmu_ucd_get_category cp = Some (ascii_category cp)
  /\ tmu_ucd_get_case_info cp = Some (if (65 <=? cp) && (cp <=? 90) then 1 else if (97 <=? cp) && (cp <=? 122) then 2 else 0)
  /\ simple_fold cp = Some (if (65 <=? cp) && (cp <=? 90) then cp + 32 else cp)
  /\ full_fold cp = Some [if (65 <=? cp) && (cp <=? 90) then cp + 32 else cp].
Proof.
  intros cp H. destruct (check_spec _ ascii_check cp ltac:(lia)) as [[[[b0 b1] full] off] [E C]].
  unfold tmu_ucd_get_category, tmu_ucd_get_case_info, simple_fold, full_fold. rewrite E.
  apply N.ltb_lt in H. rewrite H in C. apply andb_prop in C as [C C3]. apply andb_prop in C as [C1 C2].
  apply N.eqb_eq in C1. rewrite C1, C2. apply N.ltb_lt in H.
  destruct ((65 <=? cp) && (cp <=? 90)) eqn:U; apply andb_prop in C3 as [C3 C4]; apply Z.eqb_eq in C3; apply N.eqb_eq in C4; rewrite C3, C4.
  - assert (A : add_i32 cp 32 = cp + 32) by (unfold add_i32; rewrite Z.mod_small by lia; lia). rewrite A. repeat split; reflexivity.
  - rewrite add_i32_0 by lia. repeat split; reflexivity.
Qed.
Example C75_example : tmu_ucd_get_category 36 = Some Symbol /\ tmu_ucd_get_category 35 = Some Punctuation /\ simple_fold 75 = Some 107 /\ full_fold 0x212A = Some [107].
Proof. repeat split; vm_compute; reflexivity. Qed.

Print Assumptions C38_lookup_is_total_and_in_bounds.
Print Assumptions C38_simple_folding_is_idempotent.
Print Assumptions C38_full_folding_is_idempotent.
Print Assumptions C38_only_codepoints.
Print Assumptions C72_whitespace_refuted.
Print Assumptions C72_whitespace_partial.
Print Assumptions C72_what_is_missed.
Print Assumptions C73_letters_refuted.
Print Assumptions C73_letters_partial.
Print Assumptions C73_cased_letters.
Print Assumptions C73_surrogates_and_private_use.
Print Assumptions C74_grapheme_break_classes.
Print Assumptions C75_ascii.
