(** Proofs about conversions and lookups. *)
From Coq Require Import Arith NArith ZArith List Bool Lia ZifyBool ZifyNat ZifyN.
Import ListNotations.
From Verif Require Import Base JqModel.
From Verif Require JsonModel JsonSpec.
Import JsonSpec (digit, hexdigit, H_dec, H_upper, H_lower, digits, int_part, tree, Scalar, Str, Obj, Arr).
From Verif Require Import JqSpec.
Local Open Scope N_scope.

Lemma bytes_eqb_spec a b : reflect (a = b) (bytes_eqb a b).
Proof.
  revert b. induction a as [|x a IH]; intros [|y b]; cbn [bytes_eqb]; try (constructor; congruence).
  destruct (N.eqb_spec x y) as [->|NE]; cbn [andb].
  - destruct (IH b) as [->|]; constructor; congruence.
  - constructor. congruence.
Qed.

(** ** Numbers *)

Lemma int_digits ds : int_part ds -> digits ds.
Proof.
  intros [->|[D _]]; [|exact D]. split; [discriminate|]. constructor; [|constructor]. unfold digit. lia.
Qed.

Lemma cstr_nonzero s : Forall (fun c => c <> 0) s -> cstr s = s.
Proof.
  induction 1 as [|c s H _ IH]; [reflexivity|]. cbn [cstr]. destruct (N.eqb_spec c 0); [contradiction|]. now rewrite IH.
Qed.
Lemma digits_nonzero ds : Forall digit ds -> Forall (fun c => c <> 0) ds.
Proof. apply Forall_impl. unfold digit. intros. lia. Qed.

Lemma digit_of_digit c : digit c -> digit_of 10 c = Some (c - 48).
Proof.
  unfold digit, digit_of. intros H. replace ((48 <=? c) && (c <=? 57)) with true by lia.
  cbv beta iota zeta. replace (c - 48 <? 10) with true by lia. reflexivity.
Qed.
Lemma digits_value_dec ds : Forall digit ds -> forall acc,
  digits_value 10 ds acc = fold_left (fun a c => a * 10 + (c - 48)) ds acc.
Proof.
  induction 1 as [|c s H _ IH]; intros acc; [reflexivity|]. cbn [digits_value fold_left]. now rewrite digit_of_digit, IH.
Qed.

Lemma dec_lower ds : Forall digit ds -> forall acc,
  acc * 10 ^ N.of_nat (length ds) <= fold_left (fun a c => a * 10 + (c - 48)) ds acc.
Proof.
  induction 1 as [|c s H _ IH]; intros acc; cbn [fold_left length]; [lia|].
  etransitivity; [|apply IH]. rewrite Nat2N.inj_succ, N.pow_succ_r'.
  pose proof (N.le_0_l (10 ^ N.of_nat (length s))). nia.
Qed.
(** A long integer is large. *)
Lemma dec_long ds : int_part ds -> (32 <= length ds)%nat -> W64 <= dec_value ds.
Proof.
  intros [->|[[NE D] HD]] L; [cbn in L; lia|]. destruct ds as [|c ds]; [congruence|]. cbn [hd] in HD.
  inversion D as [|? ? H1 H2]; subst. unfold dec_value. cbn [fold_left].
  etransitivity; [|apply dec_lower; exact H2]. unfold digit in H1. cbn [length] in L.
  assert (P : 10 ^ 31 <= 10 ^ N.of_nat (length ds)) by (apply N.pow_le_mono_r; lia).
  change (10 ^ 31) with 10000000000000000000000000000000 in P. nia.
Qed.

Lemma strto_digits ds : digits ds -> strto 10 ds = (false, dec_value ds).
Proof.
  intros [NE D]. destruct ds as [|c ds]; [congruence|]. inversion D as [|? ? H1 H2]; subst. unfold strto.
  assert (SP : is_space c = false) by (unfold is_space, digit in *; lia).
  cbn [skip_spaces]. rewrite SP.
  assert (S1 : (match c with 45 => (true, ds) | 43 => (false, ds) | _ => (false, c :: ds) end) = (false, c :: ds)).
  { unfold digit in H1. destruct (N.eq_dec c 45) as [->|N1]; [lia|]. destruct (N.eq_dec c 43) as [->|N2]; [lia|].
    destruct c as [|p]; [reflexivity|]. do 6 (destruct p as [p|p|]; try reflexivity; try congruence). }
  rewrite S1. cbv beta iota.
  assert (S2 : (match c :: ds with
           | 48 :: x :: c' :: t =>
               if (10 =? 16) && ((x =? 120) || (x =? 88)) && match digit_of 16 c' with Some _ => true | None => false end
               then c' :: t else c :: ds
           | _ => c :: ds end) = c :: ds).
  { destruct c as [|p]; [reflexivity|]. do 6 (destruct p as [p|p|]; try reflexivity).
    destruct ds as [|x [|c' t]]; reflexivity. }
  rewrite S2. cbv zeta. unfold dec_value. now rewrite digits_value_dec by (constructor; assumption).
Qed.
Lemma strto_neg ds : digits ds -> strto 10 (45 :: ds) = (true, dec_value ds).
Proof.
  intros [NE D]. destruct ds as [|c ds]; [congruence|]. inversion D as [|? ? H1 H2]; subst. unfold strto.
  assert (SP : is_space 45 = false) by reflexivity.
  cbn [skip_spaces]. rewrite SP. cbv beta iota.
  assert (S2 : (match c :: ds with
           | 48 :: x :: c' :: t =>
               if (10 =? 16) && ((x =? 120) || (x =? 88)) && match digit_of 16 c' with Some _ => true | None => false end
               then c' :: t else c :: ds
           | _ => c :: ds end) = c :: ds).
  { destruct c as [|p]; [reflexivity|]. do 6 (destruct p as [p|p|]; try reflexivity).
    destruct ds as [|x [|c' t]]; reflexivity. }
  rewrite S2. cbv zeta. unfold dec_value. now rewrite digits_value_dec by (constructor; assumption).
Qed.

(** A text that starts with a digit and consists of digits is not taken for a hexadecimal one. *)
Lemma to_number_digits {A} (conv : list N -> A -> N -> A) ds def : digits ds ->
  to_number conv ds def = Some (conv ds def 10).
Proof.
  intros [NE D]. unfold to_number. destruct ds as [|c [|x t]]; [congruence| |].
  - destruct c as [|p]; [reflexivity|]. do 6 (destruct p as [p|p|]; try reflexivity).
  - inversion D as [|? ? H1 H2]; subst. inversion H2 as [|? ? H3 _]; subst. unfold digit in H3.
    assert (X : (x =? 120) || (x =? 88) = false) by lia. rewrite X.
    destruct c as [|p]; [reflexivity|]. do 6 (destruct p as [p|p|]; try reflexivity).
Qed.
Lemma to_number_neg {A} (conv : list N -> A -> N -> A) ds def :
  to_number conv (45 :: ds) def = Some (conv (45 :: ds) def 10).
Proof. destruct ds; reflexivity. Qed.
Lemma to_unsigned_digits conv ds def : digits ds -> to_unsigned conv ds def = Some (conv ds def 10).
Proof.
  intros D. rewrite <- (to_number_digits conv ds def D). destruct D as [NE D]. destruct ds as [|c t]; [congruence|].
  inversion D as [|? ? H1 _]; subst. unfold digit in H1. unfold to_unsigned.
  destruct (N.eq_dec c 45) as [->|N1]; [lia|].
  destruct c as [|p]; [reflexivity|]. do 6 (destruct p as [p|p|]; try reflexivity; try congruence).
Qed.

Lemma cstr_integer s z : integer_text s z -> cstr s = s.
Proof.
  intros H. apply cstr_nonzero. destruct H as [ds H|ds H]; apply int_digits in H; destruct H as [_ H];
    apply digits_nonzero in H.
  - exact H.
  - constructor; [lia|exact H].
Qed.
Lemma strtol_integer s z : integer_text s z ->
  strtol64 10 (cstr s) = if (-9223372036854775808 <=? z)%Z && (z <=? 9223372036854775807)%Z then Some z else None.
Proof.
  intros H. rewrite (cstr_integer _ _ H). unfold strtol64.
  destruct H as [ds H|ds H]; apply int_digits in H.
  - rewrite strto_digits by exact H. cbv beta iota zeta. generalize (dec_value ds). intros n. destruct (Z.leb_spec (-9223372036854775808) (Z.of_N n)); destruct (Z.leb_spec (Z.of_N n) 9223372036854775807); cbn [andb];
      destruct (Z.ltb_spec (Z.of_N n) (-9223372036854775808)); destruct (Z.ltb_spec 9223372036854775807 (Z.of_N n)); cbn [orb]; try reflexivity; lia.
  - rewrite strto_neg by exact H. cbv beta iota zeta. generalize (dec_value ds). intros n.
    destruct (Z.leb_spec (-9223372036854775808) (- Z.of_N n)); destruct (Z.leb_spec (- Z.of_N n) 9223372036854775807); cbn [andb];
      destruct (Z.ltb_spec (- Z.of_N n) (-9223372036854775808)); destruct (Z.ltb_spec 9223372036854775807 (- Z.of_N n)); cbn [orb]; try reflexivity; lia.
Qed.
Lemma integer_long s z : integer_text s z -> (32 < length s)%nat -> ~ fits_s64 z.
Proof.
  intros H L. unfold fits_s64. change (2 ^ 63)%Z with 9223372036854775808%Z.
  destruct H as [ds H|ds H]; cbn [length] in L; pose proof (dec_long ds H ltac:(lia)); lia.
Qed.
Lemma to_number_integer {A} (conv : list N -> A -> N -> A) s z def : integer_text s z ->
  to_number conv s def = Some (conv s def 10).
Proof. intros [ds H|ds H]; [apply to_number_digits, int_digits, H|apply to_number_neg]. Qed.

Lemma to_int64_in s z def : integer_text s z -> fits_s64 z -> to_int64 s def = Some z.
Proof.
  intros H F. unfold to_int64. rewrite (to_number_integer _ s z def H). unfold tmj_to_int64.
  pose proof (integer_long s z H) as L. destruct (Nat.ltb_spec 64 (length s)); [exfalso; apply L; [lia|exact F]|].
  rewrite (strtol_integer _ _ H). unfold fits_s64 in F. change (2 ^ 63)%Z with 9223372036854775808%Z in F.
  replace ((-9223372036854775808 <=? z) && (z <=? 9223372036854775807))%Z with true by lia. reflexivity.
Qed.
Lemma to_int64_out s z def : integer_text s z -> ~ fits_s64 z -> to_int64 s def = Some def.
Proof.
  intros H F. unfold to_int64. rewrite (to_number_integer _ s z def H). unfold tmj_to_int64.
  destruct (Nat.ltb 64 (length s)); [reflexivity|].
  rewrite (strtol_integer _ _ H). unfold fits_s64 in F. change (2 ^ 63)%Z with 9223372036854775808%Z in F.
  replace ((-9223372036854775808 <=? z) && (z <=? 9223372036854775807))%Z with false by lia. reflexivity.
Qed.
Lemma to_int_in s z def : integer_text s z -> fits_s64 z -> to_int s def = Some (to_s32 z).
Proof.
  intros H F. unfold to_int. rewrite (to_number_integer _ s z def H). unfold tmj_to_int.
  pose proof (integer_long s z H) as L. destruct (Nat.ltb_spec 32 (length s)); [exfalso; apply L; [lia|exact F]|].
  rewrite (strtol_integer _ _ H). unfold fits_s64 in F. change (2 ^ 63)%Z with 9223372036854775808%Z in F.
  replace ((-9223372036854775808 <=? z) && (z <=? 9223372036854775807))%Z with true by lia. reflexivity.
Qed.
Lemma to_int_out s z def : integer_text s z -> ~ fits_s64 z -> to_int s def = Some def.
Proof.
  intros H F. unfold to_int. rewrite (to_number_integer _ s z def H). unfold tmj_to_int.
  destruct (Nat.ltb 32 (length s)); [reflexivity|].
  rewrite (strtol_integer _ _ H). unfold fits_s64 in F. change (2 ^ 63)%Z with 9223372036854775808%Z in F.
  replace ((-9223372036854775808 <=? z) && (z <=? 9223372036854775807))%Z with false by lia. reflexivity.
Qed.
Lemma to_s32_id z : fits_s32 z -> to_s32 z = z.
Proof.
  unfold fits_s32, to_s32. change (2 ^ 31)%Z with 2147483648%Z. intros H. cbv zeta.
  destruct (Z.neg_nonneg_cases z) as [N|P].
  - replace (z mod 4294967296)%Z with (z + 4294967296)%Z.
    + destruct (Z.ltb_spec (z + 4294967296) 2147483648); lia.
    + apply (Z.mod_unique_pos _ _ (-1)); lia.
  - rewrite Z.mod_small by lia. destruct (Z.ltb_spec z 2147483648); lia.
Qed.

Lemma strtoul_digits ds : digits ds -> strtoul64 10 (cstr ds) = if W64 <=? dec_value ds then None else Some (dec_value ds).
Proof.
  intros H. rewrite cstr_nonzero by (apply digits_nonzero, H). unfold strtoul64. rewrite strto_digits by exact H. reflexivity.
Qed.
Lemma conv_uint64_in ds def : int_part ds -> dec_value ds < W64 -> tmj_to_uint64 ds def 10 = dec_value ds.
Proof.
  intros H L. unfold tmj_to_uint64. pose proof (dec_long ds H). destruct (Nat.ltb_spec 64 (length ds)).
  - assert (W64 <= dec_value ds) by (apply H0; lia). lia.
  - rewrite strtoul_digits by (apply int_digits, H). replace (W64 <=? dec_value ds) with false by lia. reflexivity.
Qed.
Lemma conv_uint64_out ds def : int_part ds -> W64 <= dec_value ds -> tmj_to_uint64 ds def 10 = def.
Proof.
  intros H L. unfold tmj_to_uint64. destruct (Nat.ltb_spec 64 (length ds)); [reflexivity|].
  rewrite strtoul_digits by (apply int_digits, H). replace (W64 <=? dec_value ds) with true by lia. reflexivity.
Qed.
Lemma conv_uint_in ds def : int_part ds -> dec_value ds < W64 -> tmj_to_uint ds def 10 = w32 (dec_value ds).
Proof.
  intros H L. unfold tmj_to_uint. pose proof (dec_long ds H). destruct (Nat.ltb_spec 32 (length ds)).
  - assert (W64 <= dec_value ds) by (apply H0; lia). lia.
  - rewrite strtoul_digits by (apply int_digits, H). replace (W64 <=? dec_value ds) with false by lia. reflexivity.
Qed.
Lemma conv_uint_out ds def : int_part ds -> W64 <= dec_value ds -> tmj_to_uint ds def 10 = def.
Proof.
  intros H L. unfold tmj_to_uint. destruct (Nat.ltb_spec 32 (length ds)); [reflexivity|].
  rewrite strtoul_digits by (apply int_digits, H). replace (W64 <=? dec_value ds) with true by lia. reflexivity.
Qed.

Lemma dec_zero ds : int_part ds -> dec_value ds = 0 -> ds = [48].
Proof.
  intros [->|[[NE D] HD]] Z; [reflexivity|]. exfalso. destruct ds as [|c ds]; [congruence|]. cbn [hd] in HD.
  inversion D as [|? ? H1 H2]; subst. unfold dec_value in Z. cbn [fold_left] in Z.
  pose proof (dec_lower ds H2 (0 * 10 + (c - 48))) as L. rewrite Z in L. unfold digit in H1.
  assert (10 ^ N.of_nat (length ds) <> 0) by (apply N.pow_nonzero; discriminate). nia.
Qed.
Lemma to_unsigned_neg conv ds def : int_part ds -> to_unsigned conv (45 :: ds) def = Some (if dec_value ds =? 0 then 0 else def).
Proof.
  intros H. unfold to_unsigned. f_equal. destruct (N.eqb_spec (dec_value ds) 0) as [E|E].
  - rewrite (dec_zero ds H E). reflexivity.
  - destruct ds as [|c [|x t]]; [reflexivity| |destruct c as [|p]; [reflexivity|do 6 (destruct p as [p|p|]; try reflexivity)]].
    destruct (N.eq_dec c 48) as [->|N]; [contradiction E; reflexivity|].
    destruct c as [|p]; [reflexivity|]. do 6 (destruct p as [p|p|]; try reflexivity; try congruence).
Qed.

(** ** Booleans *)
Lemma lower_case c l : 97 <= l <= 122 -> (c = l \/ c + 32 = l) <-> to_lower c = l.
Proof.
  intros H. unfold to_lower. destruct ((65 <=? c) && (c <=? 90)) eqn:E; lia.
Qed.
Lemma ignore_case s w : Forall (fun l => 97 <= l <= 122) w -> ignoring_case s w <-> equals_ignore_case s w = true.
Proof.
  unfold ignoring_case, equals_ignore_case. intros H. revert s. induction H as [|l w HL _ IH]; intros [|c s]; cbn [map bytes_eqb].
  - split; [reflexivity|constructor].
  - split; [intros X; inversion X|discriminate].
  - split; [intros X; inversion X|discriminate].
  - rewrite andb_true_iff, <- IH, N.eqb_eq, <- lower_case by exact HL. split.
    + intros X. inversion X; subst. auto.
    + intros [X Y]. now constructor.
Qed.

(** ** Lookups *)
Lemma search_some ns name : forall i j, search ns i name = Some j ->
  exists k v, j = (i + k)%nat /\ nth_error ns k = Some (name, v)
    /\ forall k' n v', (k' < k)%nat -> nth_error ns k' = Some (n, v') -> n <> name.
Proof.
  induction ns as [|[n v] ns IH]; intros i j; cbn [search]; [discriminate|].
  destruct (bytes_eqb_spec n name) as [->|NE].
  - intros E. assert (i = j) by congruence. subst. exists 0%nat, v. split; [lia|]. split; [reflexivity|]. intros; lia.
  - intros E. destruct (IH _ _ E) as (k & w & -> & A & B). exists (S k), w. split; [lia|]. split; [exact A|].
    intros [|k'] n' v' L X; [cbn in X; congruence|]. apply (B k' n' v'); [lia|exact X].
Qed.
Lemma search_none ns name : forall i, search ns i name = None <-> ~ In name (map fst ns).
Proof.
  induction ns as [|[n v] ns IH]; intros i; cbn [search map fst In]; [tauto|].
  destruct (bytes_eqb_spec n name) as [->|NE].
  - split; [discriminate|tauto].
  - rewrite IH. tauto.
Qed.

Lemma query_defined last ns name : (last <= length ns)%nat -> exists r last',
  query_member last ns name = Some (r, last') /\ (last' <= length ns)%nat
  /\ match r with
     | Some i => (i < length ns)%nat /\ last' = i /\ exists v, nth_error ns i = Some (name, v)
     | None => last' = last /\ ~ In name (map fst ns)
     end.
Proof.
  intros L. unfold query_member. destruct (Nat.ltb_spec (length ns) last); [lia|].
  destruct (search (skipn last ns) last name) as [j|] eqn:E1.
  - destruct (search_some _ _ _ _ E1) as (k & v & -> & A & _).
    assert (B : nth_error ns (last + k) = Some (name, v)).
    { rewrite <- (firstn_skipn last ns). rewrite nth_error_app2; rewrite firstn_length_le by lia; [|lia].
      replace (last + k - last)%nat with k by lia. exact A. }
    assert (last + k < length ns)%nat by (apply nth_error_Some; congruence).
    exists (Some (last + k)%nat), (last + k)%nat. split; [reflexivity|]. split; [lia|]. split; [lia|]. split; [reflexivity|]. eauto.
  - destruct (search (firstn last ns) 0 name) as [j|] eqn:E2.
    + destruct (search_some _ _ _ _ E2) as (k & v & -> & A & _). cbn [Nat.add].
      assert (KL : (k < length (firstn last ns))%nat) by (apply nth_error_Some; congruence).
      rewrite firstn_length_le in KL by lia.
      assert (B : nth_error ns k = Some (name, v)).
      { rewrite <- (firstn_skipn last ns). rewrite nth_error_app1; [exact A|]. rewrite firstn_length_le; lia. }
      exists (Some k), k. split; [reflexivity|]. split; [lia|]. split; [lia|]. split; [reflexivity|]. eauto.
    + exists None, last. split; [reflexivity|]. split; [lia|]. split; [reflexivity|].
      apply search_none in E1, E2. rewrite <- (firstn_skipn last ns), map_app, in_app_iff. tauto.
Qed.

Lemma get_member_found last ns name : (last <= length ns)%nat -> exists v last',
  get_member (last, Some ns) name = Some (v, last') /\ (last' <= length ns)%nat /\ found ns name v.
Proof.
  intros L. destruct (query_defined last ns name L) as (r & last' & Q & L' & R).
  unfold get_member. cbn [fst snd]. rewrite Q. destruct r as [i|].
  - destruct R as (I & -> & v & A). rewrite A. exists v, i. split; [reflexivity|]. split; [lia|].
    left. eapply nth_error_In, A.
  - destruct R as (-> & NI). exists nil_value, last. split; [reflexivity|]. split; [lia|]. right. split; [exact NI|reflexivity].
Qed.
Lemma get_members_found ns names : forall last, (last <= length ns)%nat -> exists vs,
  get_members (last, Some ns) names = Some vs /\ Forall2 (found ns) names vs.
Proof.
  induction names as [|n names IH]; intros last L; cbn [get_members]; [eexists; split; [reflexivity|constructor]|].
  destruct (get_member_found last ns n L) as (v & last' & G & L' & F). rewrite G. cbn [snd].
  destruct (IH last' L') as (vs & M & FS). rewrite M. eexists. split; [reflexivity|]. now constructor.
Qed.
Lemma found_unique ns name v w : NoDup (map fst ns) -> found ns name v -> found ns name w -> v = w.
Proof.
  intros ND [A|[A ->]] [B|[B ->]]; [|contradiction B; now apply (in_map fst) in A|contradiction A; now apply (in_map fst) in B|reflexivity].
  induction ns as [|[n x] ns IH]; [destruct A|]. cbn [map fst] in ND. inversion ND as [|? ? N1 N2]; subst.
  destruct A as [A|A]; destruct B as [B|B].
  - congruence.
  - assert (n = name) by congruence. subst. apply (in_map fst) in B. contradiction.
  - assert (n = name) by congruence. subst. apply (in_map fst) in A. contradiction.
  - now apply IH.
Qed.
