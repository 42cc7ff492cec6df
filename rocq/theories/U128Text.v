From Coq Require Import NArith ZArith List Bool Lia ZifyBool ZifyNat ZifyN.
From Verif Require Import Base CTypeModel U128Model U128Spec Tactics U128Proofs U128Bits U128Scan U128Div
  DigitsSpec DigitsProofs U128TextModel.
Import ListNotations.
Local Open Scope N_scope.
Ltac Zify.zify_post_hook ::= Z.div_mod_to_equations.

Definition is_byte (c : N) : Prop := c < 256.

Lemma scan_digit_spec : forall c, is_byte c -> scan_digit c = digit_value c.
Proof.
  intros c H.
  pose (P := fun c => match scan_digit c, digit_value c with
    | Some a, Some b => a =? b | None, None => true | _, _ => false end).
  assert (E : P c = true).
  { apply (forall_lt_N 256); [vm_compute; reflexivity|exact H]. }
  unfold P in E. destruct (scan_digit c), (digit_value c); try discriminate; [|reflexivity].
  apply N.eqb_eq in E. now subst.
Qed.

(** State of the loop after the digits [ds]. *)
Definition scanned (b : N) (ds : list N) (st : u128 * bool) : Prop :=
  snd st = (W128 - 1 <? number b ds) /\
  (snd st = false -> wf (fst st) /\ val (fst st) = number b ds).

Lemma scan_step : forall b mv md ds st d, 2 <= b -> b <= 36 -> d < b ->
  wf mv -> W128 - 1 = val mv * b + md -> md < b ->
  scanned b ds st -> scanned b (ds ++ [d]) (scan_u128_digit b mv md st d).
Proof.
  intros b mv md ds [v re] d Hb1 Hb2 Hd Wm Em Hmd [S1 S2]. cbn [fst snd] in *.
  pose proof (number_app_le b ds [d]) as Mono.
  assert (N.pred W128 / b = val mv /\ N.pred W128 mod b = md) as [Q1 Q2].
  { change (N.pred W128) with (W128 - 1). rewrite Em. split.
    - rewrite N.add_comm, N.div_add by lia. rewrite N.div_small by assumption. lia.
    - rewrite N.add_comm, N.mod_add by lia. now apply N.mod_small. }
  unfold scan_u128_digit. destruct re.
  - cbn [orb]. split; cbn [fst snd]; [|discriminate].
    symmetry. apply N.ltb_lt. symmetry in S1. apply N.ltb_lt in S1. lia.
  - cbn [orb]. destruct (S2 eq_refl) as [Wv Vv]. clear S2.
    rewrite gt_val, eq_val by assumption.
    pose proof (range_check (N.pred W128) b (val v) d) as RC. rewrite Q1, Q2 in RC.
    rewrite RC by lia. clear RC.
    unfold scanned. rewrite number_snoc, <- Vv.
    destruct (N.ltb_spec (N.pred W128) (val v * b + d)) as [H|H]; cbn [fst snd].
    + split; [|discriminate]. symmetry. apply N.ltb_lt. exact H.
    + split; [symmetry; apply N.ltb_ge; exact H|]. intros _.
      assert (B64 : b < 2 ^ 64) by (change (2 ^ 64) with W64; lia).
      assert (D64 : d < 2 ^ 64) by (change (2 ^ 64) with W64; lia).
      split; [apply add_u64_wf; [now apply mul_u64_wf|assumption]|].
      rewrite add_u64_val by (try apply mul_u64_wf; assumption).
      rewrite mul_u64_val by assumption. change (2 ^ 128) with W128.
      rewrite (N.mod_small (val v * b)) by lia. apply N.mod_small. lia.
Qed.

Section Loop.
  Variables (b : N) (mv : u128) (md : N).
  Hypotheses (Hb1 : 2 <= b) (Hb2 : b <= 36) (Wm : wf mv) (Em : W128 - 1 = val mv * b + md) (Hmd : md < b).

  Lemma scan_loop_correct : forall s ds st dist rest,
    Forall is_byte s -> ~ In 0 s -> scanned b ds st ->
    exists st', scan_u128_loop b mv md st dist (s ++ 0 :: rest)
      = Some (st', (dist + length (digit_run b s))%nat) /\ scanned b (ds ++ digit_run b s) st'.
  Proof.
    induction s as [|c s IH]; intros ds st dist rest F N0 Sc.
    - exists st. cbn [app scan_u128_loop digit_run length N.eqb]. rewrite Nat.add_0_r, app_nil_r. auto.
    - inversion F as [|? ? Hc F']; subst. cbn [app scan_u128_loop digit_run].
      destruct (N.eqb_spec c 0) as [->|_]; [exfalso; apply N0; now left|].
      rewrite scan_digit_spec by assumption.
      destruct (digit_value c) as [d|].
      2:{ exists st. cbn [length]. rewrite Nat.add_0_r, app_nil_r. auto. }
      destruct (N.leb_spec b d) as [H|H].
      + destruct (N.ltb_spec d b); [lia|]. exists st. cbn [length]. rewrite Nat.add_0_r, app_nil_r. auto.
      + destruct (N.ltb_spec d b); [|lia].
        destruct (IH (ds ++ [d]) (scan_u128_digit b mv md st d) (S dist) rest F')
          as (st' & E & S'); [intro; apply N0; now right|now apply scan_step|].
        exists st'. rewrite E. cbn [length]. rewrite Nat.add_succ_r.
        rewrite <- app_assoc in S'. auto.
  Qed.

  Lemma scan_n_loop_correct : forall len s ds st dist,
    Forall is_byte s -> (len <= length s)%nat -> scanned b ds st ->
    exists st', scan_u128_n_loop b mv md st dist s len
      = Some (st', (dist + length (digit_run b (firstn len s)))%nat) /\
      scanned b (ds ++ digit_run b (firstn len s)) st'.
  Proof.
    induction len as [|len IH]; intros s ds st dist F L Sc.
    - exists st. cbn [firstn scan_u128_n_loop digit_run length]. rewrite Nat.add_0_r, app_nil_r. auto.
    - destruct s as [|c s]; [cbn in L; lia|].
      inversion F as [|? ? Hc F']; subst. cbn [firstn scan_u128_n_loop digit_run].
      rewrite scan_digit_spec by assumption.
      destruct (digit_value c) as [d|].
      2:{ exists st. cbn [length]. rewrite Nat.add_0_r, app_nil_r. auto. }
      destruct (N.leb_spec b d) as [H|H].
      + destruct (N.ltb_spec d b); [lia|]. exists st. cbn [length]. rewrite Nat.add_0_r, app_nil_r. auto.
      + destruct (N.ltb_spec d b); [|lia].
        destruct (IH s (ds ++ [d]) (scan_u128_digit b mv md st d) (S dist) F')
          as (st' & E & S'); [cbn in L; lia|now apply scan_step|].
        exists st'. rewrite E. cbn [length]. rewrite Nat.add_succ_r.
        rewrite <- app_assoc in S'. auto.
  Qed.
End Loop.

(** What a scan reports: characters, error code and the new value of *out, by cases of the spec. *)
Definition reports (o : scan_outcome) (out : u128) (r : conv * u128) : Prop :=
  match o with
  | NoNumber => r = (Conv 0 EINVAL, out)
  | TooBig n => r = (Conv n ERANGE, out)
  | Number n v => exists w, r = (Conv n OK, w) /\ wf w /\ val w = v
  end.

Lemma scanned_nil : forall b, scanned b [] (tmi_zero, false).
Proof. intros. split; [reflexivity|]. intros _. split; [apply wf_zero|reflexivity]. Qed.

Lemma finish_correct : forall b s st out,
  scanned b (digit_run b s) st ->
  reports (scan_spec (W128 - 1) b s) out (scan_u128_finish out (st, length (digit_run b s))).
Proof.
  intros b s [v re] out [S1 S2]. cbn [fst snd] in *. unfold scan_spec, scan_u128_finish.
  destruct (digit_run b s) as [|d ds] eqn:E; [reflexivity|].
  cbn [length Nat.eqb]. 
  destruct re.
  - destruct (N.leb_spec (number b (d :: ds)) (W128 - 1)) as [L|L]; [|reflexivity].
    symmetry in S1. apply N.ltb_lt in S1. lia.
  - destruct (N.leb_spec (number b (d :: ds)) (W128 - 1)) as [L|L].
    + exists v. split; [reflexivity|]. now apply S2.
    + symmetry in S1. apply N.ltb_ge in S1. lia.
Qed.

Lemma max_divmod : forall b, 2 <= b -> b <= 36 -> exists mv m, tmi_divmod_u64 tmi_max b = Some (mv, m) /\
  wf mv /\ W128 - 1 = val mv * b + low m /\ low m < b.
Proof.
  intros b H1 H2. destruct (divmod_u64_correct tmi_max b) as (q & m & E & Wq & Wm & V & L).
  - split; reflexivity.
  - change (2 ^ 64) with W64. lia.
  - lia.
  - assert (val m = low m). { unfold val in *. change (2 ^ 64) with W64 in *. lia. }
    exists q, m. split; [assumption|]. split; [assumption|]. rewrite H in *. split; [|assumption].
    rewrite <- V. reflexivity.
Qed.

Lemma scan_u128_correct : forall s rest out b, 2 <= b -> b <= 36 -> Forall is_byte s -> ~ In 0 s ->
  exists r, tmi_scan_u128 (Some (s ++ 0 :: rest)) out b = Some r /\
    reports (scan_spec (2 ^ 128 - 1) b s) out r.
Proof.
  intros s rest out b H1 H2 F N0. unfold tmi_scan_u128, assert_.
  destruct (N.leb_spec 2 b); [|lia]. destruct (N.leb_spec b 36); [|lia]. cbn [andb].
  destruct (max_divmod b H1 H2) as (mv & m & E & Wm & Em & Hm). rewrite E.
  destruct (scan_loop_correct b mv (low m) H1 H2 Wm Em Hm s [] (tmi_zero, false) 0 rest F N0 (scanned_nil b))
    as (st & El & S).
  rewrite El. eexists; split; [reflexivity|]. cbn [plus app] in *. now apply finish_correct.
Qed.

Lemma scan_u128_n_correct : forall s len out b, 2 <= b -> b <= 36 -> Forall is_byte s -> (len <= length s)%nat ->
  exists r, tmi_scan_u128_n s len out b = Some r /\
    reports (scan_spec (2 ^ 128 - 1) b (firstn len s)) out r.
Proof.
  intros s len out b H1 H2 F L. unfold tmi_scan_u128_n, assert_.
  destruct (N.leb_spec 2 b); [|lia]. destruct (N.leb_spec b 36); [|lia]. cbn [andb].
  destruct (Nat.eqb_spec len 0) as [->|Hl].
  - eexists; split; reflexivity.
  - destruct (max_divmod b H1 H2) as (mv & m & E & Wm & Em & Hm). rewrite E.
    destruct (scan_n_loop_correct b mv (low m) H1 H2 Wm Em Hm len s [] (tmi_zero, false) 0 F L (scanned_nil b))
      as (st & El & S).
    rewrite El. eexists; split; [reflexivity|]. cbn [plus app] in *. now apply finish_correct.
Qed.

(** * Digit count *)
Lemma small_count : forall b v, 2 <= b -> v < b ^ 4 ->
  is_digit_count b v (1 + N.to_nat (b2n (b <=? v)%N) + N.to_nat (b2n (b * b <=? v)%N)
            + N.to_nat (b2n (b * b * b <=? v)%N)).
Proof.
  intros b v Hb Hv.
  assert (P2 : b ^ 2 = b * b) by (change 2 with (N.succ 1); rewrite N.pow_succ_r', N.pow_1_r; reflexivity).
  assert (P3 : b ^ 3 = b * b * b) by (change 3 with (N.succ 2); rewrite N.pow_succ_r', P2; lia).
  assert (A : forall k : nat, (1 <= k <= 4)%nat -> v < b ^ N.of_nat k ->
    ((1 < k)%nat -> b ^ N.of_nat (k - 1) <= v) -> is_digit_count b v k) by (intros; split; [lia|auto]).
  destruct (N.leb_spec b v); destruct (N.leb_spec (b * b) v); destruct (N.leb_spec (b * b * b) v);
    cbn [b2n]; try nia.
  - apply (A 4%nat); [lia|assumption|]. intros _. change (N.of_nat (4 - 1)) with 3. now rewrite P3.
  - apply (A 3%nat); [lia|change (N.of_nat 3) with 3; now rewrite P3|].
    intros _. change (N.of_nat (3 - 1)) with 2. now rewrite P2.
  - apply (A 2%nat); [lia|change (N.of_nat 2) with 2; now rewrite P2|].
    intros _. change (N.of_nat (2 - 1)) with 1. now rewrite N.pow_1_r.
  - apply (A 1%nat); [lia|change (N.of_nat 1) with 1; now rewrite N.pow_1_r|lia].
Qed.

Lemma count_step : forall b v k, 2 <= b -> b ^ 4 <= v -> is_digit_count b (v / b ^ 4) k ->
  is_digit_count b v (k + 4).
Proof.
  intros b v k Hb Hv (K1 & K2 & K3).
  assert (P : b ^ 4 <> 0) by (apply N.pow_nonzero; lia).
  assert (E : forall n : nat, b ^ N.of_nat (n + 4) = b ^ N.of_nat n * b ^ 4).
  { intros n. rewrite Nat2N.inj_add, N.pow_add_r. reflexivity. }
  split; [lia|]. split.
  - rewrite E. apply N.div_lt_upper_bound in K2 || idtac.
    pose proof (N.div_mod v (b ^ 4) P). pose proof (N.mod_lt v (b ^ 4) P). nia.
  - intros _. replace (k + 4 - 1)%nat with ((k - 1) + 4)%nat by lia. rewrite E.
    pose proof (N.div_mod v (b ^ 4) P). pose proof (N.mod_lt v (b ^ 4) P).
    destruct (Nat.eq_dec k 1) as [->|Hk].
    + cbn -[N.pow]. lia.
    + specialize (K3 ltac:(lia)). nia.
Qed.

Lemma digits_count_loop_correct : forall fuel b v r, 2 <= b -> b <= 36 -> wf v ->
  val v < b ^ 4 * 16 ^ N.of_nat fuel ->
  exists k, digits_count_u128_loop (S fuel) b (b * b) (b * b * b) (b ^ 4) v (S r) = Some (r + k)%nat /\
     is_digit_count b (val v) k.
Proof.
  induction fuel as [|fuel IH]; intros b v r H1 H2 Wv Hv.
  all: assert (P4 : b ^ 4 < 2 ^ 64)
    by (apply N.le_lt_trans with (36 ^ 4); [apply N.pow_le_mono_l; lia|reflexivity]).
  all: assert (T : (high v =? 0) && (low v <? b ^ 4) = (val v <? b ^ 4))
    by (destruct v as [l h]; destruct Wv as [L1 L2]; unfold val; cbn [low high] in *;
        change (2 ^ 64) with W64 in *; lia).
  all: change (digits_count_u128_loop (S ?f)) with (fun p1 p2 p3 p4 n (r : nat) =>
       if (high n =? 0) && (low n <? p4) then
      Some (r + N.to_nat (b2n (p1 <=? low n)%N) + N.to_nat (b2n (p2 <=? low n)%N)
            + N.to_nat (b2n (p3 <=? low n)%N))%nat
    else
      ' (d, _) <- tmi_divmod_u64 n p4 ;;
      digits_count_u128_loop f p1 p2 p3 p4 d (r + 4)); cbv beta; rewrite T.
  all: destruct (N.ltb_spec (val v) (b ^ 4)) as [L|L].
  1, 3: assert (EV : low v = val v)
    by (destruct v as [l h]; destruct Wv as [L1 L2]; unfold val in *; cbn [low high] in *;
        change (2 ^ 64) with W64 in *; lia).
  1, 2: rewrite EV; eexists; split; [|now apply small_count]; f_equal; lia.
  - rewrite N.pow_0_r in Hv. lia.
  - destruct (divmod_u64_correct v (b ^ 4) Wv P4) as (q & m & E & Wq & Wm & V & Lm); [lia|].
    rewrite E.
    assert (Q : val q = val v / b ^ 4).
    { apply N.div_unique with (val m); [assumption|]. lia. }
    destruct (IH b q (r + 4)%nat H1 H2 Wq) as (k & Ek & K).
    { rewrite Q. apply N.div_lt_upper_bound; [lia|].
      rewrite Nat2N.inj_succ, N.pow_succ_r' in Hv.
      assert (16 <= b ^ 4) by (change 16 with (2 ^ 4); apply N.pow_le_mono_l; lia). nia. }
    exists (k + 4)%nat. split.
    + change (S r + 4)%nat with (S (r + 4)). rewrite Ek. f_equal. lia.
    + apply count_step; [assumption|assumption|]. rewrite <- Q. assumption.
Qed.

Lemma digits_count_correct : forall v b, 2 <= b -> b <= 36 -> wf v ->
  exists k, tmi_get_digits_count_u128 v b = Some k /\ is_digit_count b (val v) k.
Proof.
  intros v b H1 H2 Wv. unfold tmi_get_digits_count_u128, assert_.
  destruct (N.leb_spec 2 b); [|lia]. destruct (N.leb_spec b 36); [|lia]. cbn [andb].
  assert (P2 : w64 (b * b) = b * b) by (unfold w64; apply N.mod_small; nia).
  assert (B3 : b * b * b <= 46656) by nia.
  assert (P3 : w64 (b * b * b) = b * b * b) by (unfold w64; apply N.mod_small; lia).
  assert (B4 : b * b * b * b <= 1679616) by nia.
  assert (P4 : w64 (b * b * b * b) = b ^ 4).
  { unfold w64. rewrite N.mod_small by lia. 
    change 4 with (N.succ (N.succ (N.succ 1))). rewrite !N.pow_succ_r', N.pow_1_r. lia. }
  cbv zeta. rewrite P2, P3, P4.
  destruct (digits_count_loop_correct 32 b v 0 H1 H2 Wv) as (k & E & K).
  - pose proof (val_lt_wf v Wv) as B. change (16 ^ N.of_nat 32) with (2 ^ 128).
    assert (b ^ 4 <> 0) by (apply N.pow_nonzero; lia). nia.
  - exists k. split; [exact E|exact K].
Qed.

(** * Printing *)
Definition table_of (lowercase : bool) : list N := if lowercase then print_table_lower else print_table_upper.

Lemma table_digit : forall lc d, d < 36 -> nth_error (table_of lc) (N.to_nat d) = Some (digit_char lc d).
Proof.
  intros lc d H.
  pose (P := fun d => match nth_error (table_of lc) (N.to_nat d) with Some x => x =? digit_char lc d | None => false end).
  assert (E : P d = true).
  { apply (forall_lt_N 36); [destruct lc; vm_compute; reflexivity|exact H]. }
  unfold P in E. destruct (nth_error _ _); [|discriminate]. apply N.eqb_eq in E. now subst.
Qed.

Lemma print_loop_correct : forall ds b lc v buf, 2 <= b -> b <= 36 -> wf v -> val v <> 0 ->
  canonical b (val v) ds -> (length ds <= length buf)%nat ->
  print_u128_loop (table_of lc) b (length ds) buf v
  = Some (map (digit_char lc) ds ++ skipn (length ds) buf, tmi_zero).
Proof.
  intros ds. remember (length ds) as w eqn:Ew. revert ds Ew.
  induction w as [|w IH]; intros ds Ew b lc v buf H1 H2 Wv V0 C L.
  - pose proof (canonical_length_pos _ _ _ C). lia.
  - cbn [print_u128_loop].
    destruct (divmod_u64_correct v b Wv) as (q & m & E & Wq & Wm & V & Lm);
      [change (2 ^ 64) with W64; lia|lia|].
    rewrite E.
    assert (Q : val q = val v / b) by (apply N.div_unique with (val m); lia).
    assert (M : val m = val v mod b) by (apply N.mod_unique with (val q); lia).
    assert (LM : low m = val m) by (unfold val in *; change (2 ^ 64) with W64 in *; lia).
    rewrite LM, M, table_digit by lia.
    rewrite write_some by assumption.
    rewrite is_not_zero_val by assumption. rewrite Q.
    destruct (N.lt_ge_cases (val v) b) as [S|S].
    + assert (Ed : ds = [val v]) by (eapply canonical_small_inv; eassumption).
      subst ds. cbn [length] in Ew. injection Ew as ->.
      rewrite N.div_small by assumption. cbn [N.eqb negb andb firstn app map skipn].
      rewrite N.mod_small by assumption. f_equal. f_equal.
      apply val_inj; [assumption|apply wf_zero|]. rewrite Q, N.div_small by assumption. reflexivity.
    + destruct (canonical_split b (val v) ds H1 C S) as (ds' & Ed & C').
      assert (D0 : val v / b <> 0). { intro Z. apply N.div_small_iff in Z; lia. }
      destruct (N.eqb_spec (val v / b) 0); [contradiction|]. cbn [negb andb].
      assert (Ew' : w = length ds'). { subst ds. rewrite app_length in Ew. cbn in Ew. lia. }
      pose proof (canonical_length_pos _ _ _ C').
      destruct (Nat.ltb_spec 0 w); [|lia].
      rewrite (IH ds' Ew' b lc q); try assumption; [|rewrite Q; assumption|rewrite Q; assumption|].
      2:{ rewrite app_length, firstn_length. cbn [length]. rewrite skipn_length. lia. }
      f_equal. f_equal. subst ds. rewrite map_app, <- app_assoc. cbn [map app]. f_equal.
      rewrite skipn_app, skipn_all2 by (rewrite firstn_length; lia).
      rewrite firstn_length, Nat.min_l by lia. rewrite Nat.sub_diag. reflexivity.
Qed.

Lemma zero_canonical_inv : forall b ds, 2 <= b -> canonical b 0 ds -> ds = [0].
Proof. intros b ds Hb C. eapply canonical_small_inv; [exact Hb|exact C|lia]. Qed.

Lemma digit_char_zero : forall lc, digit_char lc 0 = 48. Proof. intros []; reflexivity. Qed.

Lemma print_u128_correct : forall buf maxlen v b lc ds, 2 <= b -> b <= 36 -> wf v ->
  (maxlen <= length buf)%nat -> canonical b (val v) ds ->
  tmi_print_u128 buf maxlen v b lc = Some
    (if (length ds <=? maxlen)%nat
     then (Conv (length ds) OK, map (digit_char lc) ds ++ skipn (length ds) buf)
     else (Conv maxlen EOVERFLOW, buf)).
Proof.
  intros buf maxlen v b lc ds H1 H2 Wv Lb C. unfold tmi_print_u128.
  destruct (digits_count_correct v b H1 H2 Wv) as (k & Ek & K).
  assert (k = length ds) by (eapply digit_count_unique; [exact H1|exact K|now apply canonical_count]).
  subst k. rewrite Ek. unfold tmi_print_u128_w. rewrite Ek. unfold assert_.
  destruct (N.leb_spec 2 b); [|lia]. destruct (N.leb_spec b 36); [|lia]. cbn [andb].
  pose proof (canonical_length_pos _ _ _ C).
  destruct (Nat.ltb_spec 0 (length ds)); [|lia]. rewrite Nat.eqb_refl.
  destruct (Nat.eqb_spec (length ds) 0); [lia|]. rewrite orb_false_r.
  rewrite is_zero_val by assumption.
  destruct (N.eqb_spec (val v) 0) as [Z|Z].
  - rewrite Z in C. apply zero_canonical_inv in C; [|assumption]. subst ds. cbn [length] in *.
    cbn [Nat.eqb negb andb]. rewrite orb_false_r.
    destruct (Nat.leb_spec 1 maxlen); destruct (Nat.ltb_spec maxlen 1); try lia; [|reflexivity].
    rewrite write_some by (cbn; lia). cbn [Nat.sub firstn app map skipn].
    rewrite digit_char_zero. reflexivity.
  - cbn [andb]. rewrite orb_false_r.
    destruct (Nat.leb_spec (length ds) maxlen); destruct (Nat.ltb_spec maxlen (length ds)); try lia; [|reflexivity].
    fold (table_of lc).
    rewrite (print_loop_correct ds b lc v buf) by (assumption || lia). reflexivity.
Qed.
