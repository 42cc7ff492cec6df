(** Lemmas about the UTF-8 and UTF-16 codecs and validators. *)
From Coq Require Import Arith NArith ZArith List Bool Lia.
From Coq Require Import ZifyBool ZifyNat ZifyN.
From Verif Require Import Base CodecModel CodecProofs UniModel UniSpec.
Import ListNotations.
Local Open Scope N_scope.

(** ** Octets *)
Lemma octet_all : forall P : N -> bool, forallb P (map N.of_nat (seq 0 256)) = true -> forall c, c < 256 -> P c = true.
Proof.
  intros P H c Hc. rewrite forallb_forall in H. apply H. rewrite in_map_iff. exists (N.to_nat c). split; [lia|]. apply in_seq. lia.
Qed.
Ltac octets := intros c Hc; apply Bool.eqb_prop; revert c Hc; apply octet_all; vm_compute; reflexivity.
Lemma shr5 : forall c, c < 256 -> (N.shiftr c 5 =? 0x6) = (0xC0 <=? c) && (c <? 0xE0). Proof. octets. Qed.
Lemma shr4 : forall c, c < 256 -> (N.shiftr c 4 =? 0xE) = (0xE0 <=? c) && (c <? 0xF0). Proof. octets. Qed.
Lemma shr3 : forall c, c < 256 -> (N.shiftr c 3 =? 0x1E) = (0xF0 <=? c) && (c <? 0xF8). Proof. octets. Qed.
Lemma lead2 : forall c, c < 256 -> (N.land c 0xE0 =? 0xC0) = (0xC0 <=? c) && (c <? 0xE0). Proof. octets. Qed.
Lemma lead3 : forall c, c < 256 -> (N.land c 0xF0 =? 0xE0) = (0xE0 <=? c) && (c <? 0xF0). Proof. octets. Qed.
Lemma lead4 : forall c, c < 256 -> (N.land c 0xF8 =? 0xF0) = (0xF0 <=? c) && (c <? 0xF8). Proof. octets. Qed.
Lemma overlong2 : forall c, c < 256 -> (N.land c 0xFE =? 0xC0) = (0xC0 <=? c) && (c <? 0xC2). Proof. octets. Qed.
Lemma cont : forall c, c < 256 -> (N.land c 0xC0 =? 0x80) = (0x80 <=? c) && (c <=? 0xBF). Proof. octets. Qed.
Lemma overlong3 : forall c, c < 256 -> (N.land c 0xE0 =? 0x80) = (0x80 <=? c) && (c <? 0xA0). Proof. octets. Qed.

Lemma land3f : forall a, N.land a 0x3F = a mod 64. Proof. intros a. change 0x3F with (N.ones 6). apply N.land_ones. Qed.
Lemma land1f : forall a, N.land a 0x1F = a mod 32. Proof. intros a. change 0x1F with (N.ones 5). apply N.land_ones. Qed.
Lemma landf : forall a, N.land a 0xF = a mod 16. Proof. intros a. change 0xF with (N.ones 4). apply N.land_ones. Qed.
Lemma land7 : forall a, N.land a 0x7 = a mod 8. Proof. intros a. change 0x7 with (N.ones 3). apply N.land_ones. Qed.
Lemma land3ff : forall a, N.land a 0x3FF = a mod 1024. Proof. intros a. change 0x3FF with (N.ones 10). apply N.land_ones. Qed.
Lemma shl : forall a n, N.shiftl a n = a * 2 ^ n. Proof. intros; apply N.shiftl_mul_pow2. Qed.
Lemma shr : forall a n, N.shiftr a n = a / 2 ^ n. Proof. intros; apply N.shiftr_div_pow2. Qed.

Lemma lor_add : forall a b k, b < 2 ^ k -> N.lor (a * 2 ^ k) b = a * 2 ^ k + b.
Proof.
  intros a b k H.
  assert (Z : N.land (a * 2 ^ k) b = 0).
  { apply N.bits_inj_iff. intros j. rewrite N.land_spec, N.bits_0. destruct (N.lt_ge_cases j k) as [Hj|Hj].
    - rewrite N.mul_pow2_bits_low by assumption. reflexivity.
    - destruct (N.eq_dec b 0) as [->|Hb]; [rewrite N.bits_0; apply andb_false_r|].
      rewrite (N.bits_above_log2 b); [apply andb_false_r|]. apply N.lt_le_trans with k; [|assumption]. apply N.log2_lt_pow2; [lia|assumption]. }
  rewrite <- N.lxor_lor by exact Z. symmetry. apply N.add_nocarry_lxor. exact Z.
Qed.
Lemma lor_add' : forall x a b k, x = a * 2 ^ k -> b < 2 ^ k -> N.lor x b = x + b.
Proof. intros x a b k -> H. apply lor_add. exact H. Qed.

(** The values extraction computes. *)
Lemma value2 : forall a b, N.lor (N.shiftl (N.land a 0x1F) 6) (N.land b 0x3F) = a mod 32 * 64 + b mod 64.
Proof.
  intros a b. rewrite land1f, land3f, shl. change (2 ^ 6) with 64. apply (lor_add _ _ 6). apply N.mod_upper_bound. discriminate.
Qed.
Lemma value3 : forall a b c, N.lor (N.lor (N.shiftl (N.land a 0xF) 12) (N.shiftl (N.land b 0x3F) 6)) (N.land c 0x3F) = a mod 16 * 4096 + b mod 64 * 64 + c mod 64.
Proof.
  intros a b c. rewrite landf, !land3f, !shl. change (2 ^ 12) with 4096. change (2 ^ 6) with 64.
  assert (B : b mod 64 < 64) by (apply N.mod_upper_bound; discriminate). assert (C : c mod 64 < 64) by (apply N.mod_upper_bound; discriminate).
  rewrite (lor_add' (a mod 16 * 4096) (a mod 16) (b mod 64 * 64) 12) by (change (2 ^ 12) with 4096; lia).
  rewrite (lor_add' _ (a mod 16 * 64 + b mod 64) (c mod 64) 6) by (change (2 ^ 6) with 64; lia). reflexivity.
Qed.
Lemma value4 : forall a b c d, N.lor (N.lor (N.lor (N.shiftl (N.land a 0x7) 18) (N.shiftl (N.land b 0x3F) 12)) (N.shiftl (N.land c 0x3F) 6)) (N.land d 0x3F)
  = a mod 8 * 262144 + b mod 64 * 4096 + c mod 64 * 64 + d mod 64.
Proof.
  intros a b c d. rewrite land7, !land3f, !shl. change (2 ^ 18) with 262144. change (2 ^ 12) with 4096. change (2 ^ 6) with 64.
  assert (B : b mod 64 < 64) by (apply N.mod_upper_bound; discriminate). assert (C : c mod 64 < 64) by (apply N.mod_upper_bound; discriminate).
  assert (D : d mod 64 < 64) by (apply N.mod_upper_bound; discriminate).
  rewrite (lor_add' (a mod 8 * 262144) (a mod 8) (b mod 64 * 4096) 18) by (change (2 ^ 18) with 262144; lia).
  rewrite (lor_add' _ (a mod 8 * 64 + b mod 64) (c mod 64 * 64) 12) by (change (2 ^ 12) with 4096; lia).
  rewrite (lor_add' _ (a mod 8 * 4096 + b mod 64 * 64 + c mod 64) (d mod 64) 6) by (change (2 ^ 6) with 64; lia). reflexivity.
Qed.

Lemma valid_scalar : forall v, tmu_is_valid_codepoint v = true <-> scalar v.
Proof.
  intros v. unfold tmu_is_valid_codepoint, scalar, TMU_MAX_UTF32, TMU_LEAD_SURROGATE_MIN, TMU_TRAILING_SURROGATE_MAX. lia.
Qed.

(** ** The two descriptions of UTF-8 agree *)
Ltac divmod := repeat match goal with
  | |- context [?a / ?b] => lazymatch b with N0 => fail | _ => let q := fresh "q" in pose proof (N.div_mod' a b); pose proof (N.mod_upper_bound a b ltac:(discriminate)); set (q := a / b) in * ; clearbody q end
  end.
Lemma dm : forall a b q r, r < b -> a = b * q + r -> a / b = q /\ a mod b = r.
Proof. intros a b q r H E. split; [symmetry; apply (N.div_unique a b q r H E)|symmetry; apply (N.mod_unique a b q r H E)]. Qed.

Lemma seq_table : forall v ch, utf8_seq v ch -> table37 ch.
Proof.
  intros v ch H. destruct H as [v H|v H|v H Sc|v H].
  - constructor. lia.
  - pose proof (N.div_mod' v 64) as E. pose proof (N.mod_upper_bound v 64 ltac:(discriminate)) as L. set (q := v / 64) in *. set (r := v mod 64) in *.
    apply T_C2_DF; [lia|red; lia].
  - pose proof (N.div_mod' v 64) as E. pose proof (N.mod_upper_bound v 64 ltac:(discriminate)) as L.
    pose proof (N.div_mod' (v / 64) 64) as E2. pose proof (N.mod_upper_bound (v / 64) 64 ltac:(discriminate)) as L2.
    assert (E3 : v / 4096 = v / 64 / 64) by (rewrite N.div_div by discriminate; reflexivity). rewrite E3.
    set (r := v mod 64) in *. set (q := v / 64) in *. set (r2 := q mod 64) in *. set (q2 := q / 64) in *. unfold scalar in Sc. clearbody q2 r2 q r.
    destruct (N.eq_dec q2 0) as [Z|Z]; [rewrite Z; apply T_E0; [lia|red; lia]|].
    destruct (N.eq_dec q2 13) as [Z2|Z2]; [rewrite Z2; apply T_ED; [lia|red; lia]|].
    destruct (N.lt_ge_cases q2 13); [apply T_E1_EC; [lia|red; lia|red; lia]|apply T_EE_EF; [lia|red; lia|red; lia]].
  - pose proof (N.div_mod' v 64) as E. pose proof (N.mod_upper_bound v 64 ltac:(discriminate)) as L.
    pose proof (N.div_mod' (v / 64) 64) as E2. pose proof (N.mod_upper_bound (v / 64) 64 ltac:(discriminate)) as L2.
    assert (E3 : v / 4096 = v / 64 / 64) by (rewrite N.div_div by discriminate; reflexivity).
    assert (E4 : v / 262144 = v / 64 / 64 / 64) by (rewrite !N.div_div by discriminate; reflexivity). rewrite E4, E3.
    pose proof (N.div_mod' (v / 64 / 64) 64) as E5. pose proof (N.mod_upper_bound (v / 64 / 64) 64 ltac:(discriminate)) as L5.
    set (r := v mod 64) in *. set (q := v / 64) in *. set (r2 := q mod 64) in *. set (q2 := q / 64) in *. set (r3 := q2 mod 64) in *. set (q3 := q2 / 64) in *.
    clearbody q3 r3 q2 r2 q r.
    destruct (N.eq_dec q3 0) as [Z|Z]; [rewrite Z; apply T_F0; [lia|red; lia|red; lia]|].
    destruct (N.eq_dec q3 4) as [Z2|Z2]; [rewrite Z2; apply T_F4; [lia|red; lia|red; lia]|].
    apply T_F1_F3; [lia|red; lia|red; lia|red; lia].
Qed.
Lemma mk2 : forall a b, 0xC2 <= a <= 0xDF -> trail_octet b -> utf8_seq ((a - 0xC0) * 64 + (b - 0x80)) [a; b].
Proof.
  intros a b Ha Hb. red in Hb. set (v := (a - 0xC0) * 64 + (b - 0x80)). destruct (dm v 64 (a - 0xC0) (b - 0x80)) as [E1 E2]; [lia|unfold v; lia|].
  replace [a; b] with [0xC0 + v / 64; 0x80 + v mod 64] by (rewrite E1, E2; repeat f_equal; lia). apply U8_2. unfold v. lia.
Qed.
Lemma mk3 : forall a b c, 0xE0 <= a <= 0xEF -> trail_octet b -> trail_octet c -> (a = 0xE0 -> 0xA0 <= b) -> (a = 0xED -> b <= 0x9F) ->
  utf8_seq ((a - 0xE0) * 4096 + (b - 0x80) * 64 + (c - 0x80)) [a; b; c].
Proof.
  intros a b c Ha Hb Hc H1 H2. red in Hb, Hc. set (v := (a - 0xE0) * 4096 + (b - 0x80) * 64 + (c - 0x80)).
  destruct (dm v 64 ((a - 0xE0) * 64 + (b - 0x80)) (c - 0x80)) as [E1 E2]; [lia|unfold v; lia|].
  destruct (dm (v / 64) 64 (a - 0xE0) (b - 0x80)) as [E3 E4]; [lia|rewrite E1; lia|].
  assert (E5 : v / 4096 = v / 64 / 64) by (rewrite N.div_div by discriminate; reflexivity).
  replace [a; b; c] with [0xE0 + v / 4096; 0x80 + v / 64 mod 64; 0x80 + v mod 64] by (rewrite E5, E3, E4, E2; repeat f_equal; lia).
  apply U8_3; [unfold v; lia|]. unfold scalar, v. lia.
Qed.
Lemma mk4 : forall a b c d, 0xF0 <= a <= 0xF4 -> trail_octet b -> trail_octet c -> trail_octet d -> (a = 0xF0 -> 0x90 <= b) -> (a = 0xF4 -> b <= 0x8F) ->
  utf8_seq ((a - 0xF0) * 262144 + (b - 0x80) * 4096 + (c - 0x80) * 64 + (d - 0x80)) [a; b; c; d].
Proof.
  intros a b c d Ha Hb Hc Hd H1 H2. red in Hb, Hc, Hd. set (v := (a - 0xF0) * 262144 + (b - 0x80) * 4096 + (c - 0x80) * 64 + (d - 0x80)).
  destruct (dm v 64 ((a - 0xF0) * 4096 + (b - 0x80) * 64 + (c - 0x80)) (d - 0x80)) as [E1 E2]; [lia|unfold v; lia|].
  destruct (dm (v / 64) 64 ((a - 0xF0) * 64 + (b - 0x80)) (c - 0x80)) as [E3 E4]; [lia|rewrite E1; lia|].
  destruct (dm (v / 64 / 64) 64 (a - 0xF0) (b - 0x80)) as [E6 E7]; [lia|rewrite E3; lia|].
  assert (E5 : v / 4096 = v / 64 / 64) by (rewrite N.div_div by discriminate; reflexivity).
  assert (E8 : v / 262144 = v / 64 / 64 / 64) by (rewrite !N.div_div by discriminate; reflexivity).
  replace [a; b; c; d] with [0xF0 + v / 262144; 0x80 + v / 4096 mod 64; 0x80 + v / 64 mod 64; 0x80 + v mod 64] by (rewrite E8, E5, E6, E7, E4, E2; repeat f_equal; lia).
  apply U8_4. unfold v. lia.
Qed.
Lemma table_seq : forall ch, table37 ch -> exists v, utf8_seq v ch.
Proof.
  intros ch H. destruct H; unfold trail_octet in *; eexists;
    first [apply mk4; unfold trail_octet; lia | apply mk3; unfold trail_octet; lia | apply mk2; unfold trail_octet; lia | apply U8_1; lia].
Qed.
Lemma seq_scalar : forall v ch, utf8_seq v ch -> scalar v.
Proof. intros v ch H. destruct H; try assumption; unfold scalar; lia. Qed.
Lemma seq_octets : forall v ch, utf8_seq v ch -> Forall (fun c => c < 256) ch.
Proof. intros v ch H. apply seq_table in H. destruct H; unfold trail_octet in *; repeat constructor; lia. Qed.
Lemma seq_ne : forall v ch, utf8_seq v ch -> (0 < length ch <= 4)%nat.
Proof. intros v ch H. destruct H; cbn; lia. Qed.
Lemma scalar_seq : forall v, scalar v -> exists ch, utf8_seq v ch.
Proof.
  intros v H. red in H. destruct (N.lt_ge_cases v 0x80); [eexists; apply U8_1; assumption|].
  destruct (N.lt_ge_cases v 0x800); [eexists; apply U8_2; lia|]. destruct (N.lt_ge_cases v 0x10000); [eexists; apply U8_3; [lia|exact H]|]. eexists. apply U8_4. lia.
Qed.
Lemma seq_fun : forall v ch ch', utf8_seq v ch -> utf8_seq v ch' -> ch = ch'.
Proof. intros v ch ch' H H'. destruct H; inversion H'; subst; try reflexivity; lia. Qed.

(** ** Extraction *)
Lemma extract_seq : forall v ch rest, utf8_seq v ch -> tmu_utf8_extract (ch ++ rest) = Some (true, v, rest).
Proof.
  intros v ch rest H. pose proof (seq_scalar v ch H) as Hs. apply valid_scalar in Hs. unfold tmu_utf8_extract. destruct H as [v H|v H|v H Sc|v H].
  - cbn [app length nth_error]. change (0 <? S (length rest))%nat with true. cbv iota. rewrite (proj2 (N.ltb_lt _ _) H). rewrite Hs. reflexivity.
  - pose proof (N.div_mod' v 64) as E. pose proof (N.mod_upper_bound v 64 ltac:(discriminate)) as L. set (q := v / 64) in *. set (r := v mod 64) in *.
    cbn [app length nth_error]. change (0 <? S (S (length rest)))%nat with true. change (2 <=? S (S (length rest)))%nat with true. cbv iota.
    rewrite (proj2 (N.ltb_ge (0xC0 + q) 0x80)) by lia. rewrite shr5 by lia. replace ((0xC0 <=? 0xC0 + q) && (0xC0 + q <? 0xE0)) with true by lia.
    rewrite value2. destruct (dm (0xC0 + q) 32 6 q) as [_ ->]; [lia|lia|]. destruct (dm (0x80 + r) 64 2 r) as [_ ->]; [lia|lia|].
    replace (q * 64 + r) with v by lia. rewrite Hs. reflexivity.
  - pose proof (N.div_mod' v 64) as E. pose proof (N.mod_upper_bound v 64 ltac:(discriminate)) as L.
    pose proof (N.div_mod' (v / 64) 64) as E2. pose proof (N.mod_upper_bound (v / 64) 64 ltac:(discriminate)) as L2.
    assert (E3 : v / 4096 = v / 64 / 64) by (rewrite N.div_div by discriminate; reflexivity). rewrite E3.
    set (r := v mod 64) in *. set (q := v / 64) in *. set (r2 := q mod 64) in *. set (q2 := q / 64) in *.
    cbn [app length nth_error]. change (0 <? S (S (S (length rest))))%nat with true. change (3 <=? S (S (S (length rest))))%nat with true. cbv iota.
    rewrite (proj2 (N.ltb_ge (0xE0 + q2) 0x80)) by lia. rewrite shr5 by lia. replace ((0xC0 <=? 0xE0 + q2) && (0xE0 + q2 <? 0xE0)) with false by lia.
    rewrite shr4 by lia. replace ((0xE0 <=? 0xE0 + q2) && (0xE0 + q2 <? 0xF0)) with true by lia.
    rewrite value3. destruct (dm (0xE0 + q2) 16 14 q2) as [_ ->]; [lia|lia|]. destruct (dm (0x80 + r) 64 2 r) as [_ ->]; [lia|lia|]. destruct (dm (0x80 + r2) 64 2 r2) as [_ ->]; [lia|lia|].
    replace (q2 * 4096 + r2 * 64 + r) with v by lia. rewrite Hs. reflexivity.
  - pose proof (N.div_mod' v 64) as E. pose proof (N.mod_upper_bound v 64 ltac:(discriminate)) as L.
    pose proof (N.div_mod' (v / 64) 64) as E2. pose proof (N.mod_upper_bound (v / 64) 64 ltac:(discriminate)) as L2.
    assert (E3 : v / 4096 = v / 64 / 64) by (rewrite N.div_div by discriminate; reflexivity).
    assert (E4 : v / 262144 = v / 64 / 64 / 64) by (rewrite !N.div_div by discriminate; reflexivity). rewrite E4, E3.
    pose proof (N.div_mod' (v / 64 / 64) 64) as E5. pose proof (N.mod_upper_bound (v / 64 / 64) 64 ltac:(discriminate)) as L5.
    set (r := v mod 64) in *. set (q := v / 64) in *. set (r2 := q mod 64) in *. set (q2 := q / 64) in *. set (r3 := q2 mod 64) in *. set (q3 := q2 / 64) in *.
    cbn [app length nth_error]. change (0 <? S (S (S (S (length rest)))))%nat with true. change (4 <=? S (S (S (S (length rest)))))%nat with true. cbv iota.
    rewrite (proj2 (N.ltb_ge (0xF0 + q3) 0x80)) by lia. rewrite shr5 by lia. replace ((0xC0 <=? 0xF0 + q3) && (0xF0 + q3 <? 0xE0)) with false by lia.
    rewrite shr4 by lia. replace ((0xE0 <=? 0xF0 + q3) && (0xF0 + q3 <? 0xF0)) with false by lia.
    rewrite shr3 by lia. replace ((0xF0 <=? 0xF0 + q3) && (0xF0 + q3 <? 0xF8)) with true by lia.
    rewrite value4. destruct (dm (0xF0 + q3) 8 30 q3) as [_ ->]; [lia|lia|]. destruct (dm (0x80 + r) 64 2 r) as [_ ->]; [lia|lia|]. destruct (dm (0x80 + r2) 64 2 r2) as [_ ->]; [lia|lia|].
    destruct (dm (0x80 + r3) 64 2 r3) as [_ ->]; [lia|lia|].
    replace (q3 * 262144 + r3 * 4096 + r2 * 64 + r) with v by lia. rewrite Hs. reflexivity.
Qed.
(** UTF-8 is a prefix code. *)
Lemma utf8_prefix : forall v v' ch ch' r r', utf8_seq v ch -> utf8_seq v' ch' -> ch ++ r = ch' ++ r' -> v = v' /\ ch = ch' /\ r = r'.
Proof.
  intros v v' ch ch' r r' H H' E. pose proof (extract_seq v ch r H) as X. rewrite E, (extract_seq v' ch' r' H') in X. injection X as -> ->.
  split; [reflexivity|]. split; [exact (seq_fun v ch ch' H H')|reflexivity].
Qed.

(** ** Encoding *)
Lemma w8_small : forall x, x < 256 -> w8 x = x. Proof. intros x H. apply N.mod_small. exact H. Qed.
Lemma w8_mod : forall x, w8 x mod 64 = x mod 64.
Proof.
  intros x. unfold w8. change 256 with (64 * 4). rewrite N.mod_mul_r by discriminate. rewrite (N.mul_comm 64 (x / 64 mod 4)), N.mod_add by discriminate. apply N.mod_mod. discriminate.
Qed.
Lemma lor_const : forall a b k x, x = a * 2 ^ k -> b < 2 ^ k -> N.lor x b = x + b.
Proof. intros a b k x -> H. apply lor_add. exact H. Qed.
Lemma utf8_encode_spec : forall v buf pos room, scalar v -> (pos + room <= length buf)%nat ->
  exists ch, utf8_seq v ch /\ tmu_utf8_encode v buf pos room = Some (length ch, if (room <? length ch)%nat then buf else splice buf pos ch).
Proof.
  intros v buf pos room Hs Hr. destruct (scalar_seq v Hs) as [ch H]. exists ch. split; [exact H|].
  unfold tmu_utf8_encode, assert_. rewrite (proj2 (valid_scalar v) Hs).
  assert (G : forall bs, (if (room <? length bs)%nat then Some (length bs, buf) else buf' <- write_list buf pos bs;; Some (length bs, buf'))
            = Some (length bs, if (room <? length bs)%nat then buf else splice buf pos bs)).
  { intros bs. destruct (Nat.ltb_spec room (length bs)) as [L|L]; [reflexivity|]. rewrite write_list_splice by lia. reflexivity. }
  assert (M : v mod 64 < 64) by (apply N.mod_upper_bound; discriminate).
  destruct H as [v H|v H|v H Sc|v H].
  - rewrite (proj2 (N.ltb_lt _ _) H). rewrite G. unfold w8. rewrite (N.mod_small v) by lia. reflexivity.
  - rewrite (proj2 (N.ltb_ge v 0x80)) by lia. rewrite (proj2 (N.ltb_lt v 0x800)) by lia. rewrite G.
    assert (Q : v / 64 < 32) by (apply N.div_lt_upper_bound; [discriminate|lia]).
    rewrite land3f, shr. change (2 ^ 6) with 64. rewrite !(w8_small (v / 64)), !(w8_small (v mod 64)) by lia.
    rewrite (lor_const 6 (v / 64) 5), (lor_const 2 (v mod 64) 6) by (reflexivity || assumption). rewrite !w8_small by lia. reflexivity.
  - rewrite (proj2 (N.ltb_ge v 0x80)) by lia. rewrite (proj2 (N.ltb_ge v 0x800)) by lia. rewrite (proj2 (N.ltb_lt v 0x10000)) by lia. rewrite G.
    assert (Q : v / 4096 < 16) by (apply N.div_lt_upper_bound; [discriminate|lia]).
    assert (M2 : v / 64 mod 64 < 64) by (apply N.mod_upper_bound; discriminate).
    rewrite !land3f, !shr. change (2 ^ 6) with 64. change (2 ^ 12) with 4096. rewrite w8_mod. rewrite !(w8_small (v / 4096)), !(w8_small (v mod 64)) by lia.
    rewrite (lor_const 14 (v / 4096) 4), (lor_const 2 (v / 64 mod 64) 6), (lor_const 2 (v mod 64) 6) by (reflexivity || assumption). rewrite !w8_small by lia. reflexivity.
  - rewrite (proj2 (N.ltb_ge v 0x80)) by lia. rewrite (proj2 (N.ltb_ge v 0x800)) by lia. rewrite (proj2 (N.ltb_ge v 0x10000)) by lia. rewrite G.
    assert (Q : v / 262144 < 8) by (apply N.div_lt_upper_bound; [discriminate|lia]).
    assert (M2 : v / 64 mod 64 < 64) by (apply N.mod_upper_bound; discriminate). assert (M3 : v / 4096 mod 64 < 64) by (apply N.mod_upper_bound; discriminate).
    rewrite !land3f, land7, !shr. change (2 ^ 6) with 64. change (2 ^ 12) with 4096. change (2 ^ 18) with 262144. rewrite !w8_mod. rewrite !(w8_small (v / 262144)), !(w8_small (v mod 64)) by lia.
    rewrite (N.mod_small (v / 262144) 8) by exact Q.
    rewrite (lor_const 30 (v / 262144) 3), (lor_const 2 (v / 4096 mod 64) 6), (lor_const 2 (v / 64 mod 64) 6), (lor_const 2 (v mod 64) 6) by (reflexivity || assumption). rewrite !w8_small by lia. reflexivity.
Qed.
