(** print_double as a whole, for numbers below 2^56: sign, integer digits, fraction digits. *)
From Coq Require Import Reals ZArith NArith List Bool Lia Lra Psatz ZifyBool ZifyNat ZifyN.
From Flocq Require Import Core IEEE754.BinarySingleNaN.
From Verif Require Import Base DigitsSpec DigitsProofs ConvModel ConvSpec ConvPrint Fp FpProofs DblModel DblSpec DblError PdModel PdSpec PdText PdMag PdInt.
Import ListNotations.
Local Open Scope R_scope.

Lemma canonical_concat : forall n q k ds fs, (0 < n)%N -> canonical 10 n ds -> padded k q fs -> (0 < k)%nat -> (q < 10 ^ N.of_nat k)%N ->
  canonical 10 (n * 10 ^ N.of_nat k + q) (ds ++ fs).
Proof.
  intros n q k ds fs Hn C P Hk Hq. pose proof (padded_length _ _ _ P Hk Hq) as L.
  pose proof (padded_number _ _ _ P) as E. pose proof (padded_decimal _ _ _ P) as D. destruct C as (C1 & C2 & C3 & C4).
  split; [rewrite number_app, L, C1, E; reflexivity|]. split; [now apply decimal_app|]. split; [destruct ds; [congruence|discriminate]|].
  destruct ds as [|d ds]; [congruence|]. cbn [hd app]. cbn [hd] in C4. intros ->. specialize (C4 eq_refl). inversion C4. subst ds.
  cbn in C1. lia.
Qed.

Section PrintDouble.
  Variables dbg cw : bool.

  (** The end of print_finite. *)
  Definition print_tail (start : nat) (o : outcome (list N * nat * nat * double * Z)) (trailing keep_short : bool) (precision : Z)
    : option (conv * list N) :=
    match o with
    | Return r => Some r
    | Go (buf, pos, maxlen, value, magnitude) =>
      if (0 <? magnitude)%Z && (maxlen =? 0)%nat then Some (Conv (start - maxlen) EOVERFLOW, buf)
      else print_fraction dbg cw start buf pos maxlen value trailing keep_short precision
    end.

  Definition loop_body (fuel' : nat) (start : nat) (buf : list N) (pos maxlen : nat) (value : double)
    (magnitude : Z) (printWidth : nat) : option (outcome (list N * nat * nat * double * Z)) :=
        ' (part, value', printWidth') <-
          (if (TMC_MAX_PRECISION <? magnitude)%Z then
             part <- str_Pow10 value (- (magnitude - TMC_MAX_PRECISION)) ;;
             p <- to_u64 part ;;
             t <- str_Pow10 (of_int (Z.of_N p)) (magnitude - TMC_MAX_PRECISION) ;;
             Some (part, dsub value t, printWidth)
           else
             v <- to_u64 value ;;
             Some (value, dsub value (of_int (Z.of_N v)), Z.to_nat magnitude)) ;;
        digits <- to_u64 part ;;
        ' (interm, buf') <- at_dest buf pos (fun dest => tmc_print_zero_padded_u64 dbg cw dest maxlen printWidth' digits) ;;
        assert_ (cv_size interm <=? maxlen)%nat
        (let maxlen' := (maxlen - cv_size interm)%nat in
         let pos' := (pos + cv_size interm)%nat in
         if errc_eqb (cv_ec interm) OK
         then integer_loop dbg cw fuel' start buf' pos' maxlen' value' (magnitude - TMC_MAX_PRECISION)
                (Z.to_nat TMC_MAX_PRECISION)
         else Some (Return (Conv (start - maxlen') (cv_ec interm), buf'))).
  Lemma integer_loop_eq : forall fuel start buf pos maxlen value magnitude printWidth,
    integer_loop dbg cw (S fuel) start buf pos maxlen value magnitude printWidth =
    if (0 <? magnitude)%Z && (0 <? maxlen)%nat then loop_body fuel start buf pos maxlen value magnitude printWidth
    else Some (Go (buf, pos, maxlen, value, magnitude)).
  Proof using. reflexivity. Qed.

  Lemma group_printed : forall fuel start pre rest maxlen w g fs value' m',
    start = (length pre + maxlen)%nat -> (start <= length (pre ++ rest))%nat -> (g < W64)%N -> padded w g fs ->
    exists c b, (' (interm, buf') <- at_dest (pre ++ rest) (length pre) (fun dest => tmc_print_zero_padded_u64 dbg cw dest maxlen w g) ;;
        assert_ (cv_size interm <=? maxlen)%nat
        (if errc_eqb (cv_ec interm) OK
         then integer_loop dbg cw fuel start buf' (length pre + cv_size interm) (maxlen - cv_size interm) value' m' (Z.to_nat TMC_MAX_PRECISION)
         else Some (Return (Conv (start - (maxlen - cv_size interm)) (cv_ec interm), buf')))) =
      (if (length fs <=? maxlen)%nat
       then integer_loop dbg cw fuel start ((pre ++ digits_text fs) ++ skipn (length fs) rest) (length (pre ++ digits_text fs))
              (maxlen - length fs) value' m' (Z.to_nat TMC_MAX_PRECISION)
       else Some (Return (c, b))) /\
      ((maxlen < length fs)%nat -> c = Conv start EOVERFLOW /\ length b = length (pre ++ rest) /\ skipn start b = skipn start (pre ++ rest)).
  Proof using.
    intros fuel start pre rest maxlen w g fs value' m' Es L Hg P. rewrite at_dest_app.
    assert (Lr : (maxlen <= length rest)%nat) by (rewrite app_length in L; lia).
    destruct (zero_padded_ok dbg cw rest maxlen w g fs Hg P Lr) as ([c b] & Ez & Rz). rewrite Ez.
    destruct (report_at pre _ _ _ _ _ Lr Rz) as (Ls & [(E1 & E2 & E3)|(E1 & E2 & E3 & E4 & E5)]); unfold assert_;
      (destruct (Nat.leb_spec (cv_size c) maxlen); [|lia]); exists (Conv start EOVERFLOW), (pre ++ b); rewrite E1; cbn [errc_eqb].
    - rewrite digits_text_length in E2. destruct (Nat.leb_spec (length fs) maxlen); [|lia]. split; [|lia].
      rewrite E2, E3, !app_length, !digits_text_length, app_assoc. reflexivity.
    - rewrite digits_text_length in E3. destruct (Nat.leb_spec (length fs) maxlen); [lia|]. rewrite E2.
      replace (start - (maxlen - maxlen))%nat with start by lia. split; [reflexivity|]. intros _. subst start. auto.
  Qed.

  Definition good_fraction (start : nat) (f : double) (tr kp : bool) (p : Z) (t : list N) : Prop :=
    forall pre rest maxlen, start = (length pre + maxlen)%nat -> (start <= length (pre ++ rest))%nat ->
      exists r, print_fraction dbg cw start (pre ++ rest) (length pre) maxlen f tr kp p = Some r /\
        report_print (pre ++ t) (pre ++ rest) start r.

  (** The last group of at most 14 digits. *)
  Lemma last_group : forall v x m fs, pos v x -> (1 <= m <= 14)%Z -> x < IZR (10 ^ m) -> padded (Z.to_nat m) (Z.to_N (Zfloor x)) fs ->
    pos (dsub v (of_int (Zfloor x))) (x - IZR (Zfloor x)) /\
    forall tr kp p t start, good_fraction start (dsub v (of_int (Zfloor x))) tr kp p t ->
    forall fuel w pre rest maxlen, start = (length pre + maxlen)%nat -> (start <= length (pre ++ rest))%nat ->
      exists r, (o <- integer_loop dbg cw (S (S fuel)) start (pre ++ rest) (length pre) maxlen v m w ;; print_tail start o tr kp p) = Some r /\
        report_print (pre ++ digits_text fs ++ t) (pre ++ rest) start r.
  Proof using.
    intros v x m fs P Hm U Pf. pose proof (pos_ge _ _ P) as G. pose proof (floor_ge0 x G) as F0. pose proof (floor_lt x _ U) as F1.
    pose proof (floor_bounds x) as [B1 B2].
    assert (M14 : (10 ^ m <= 10 ^ 14)%Z) by (apply Z.pow_le_mono_r; lia).
    assert (Pc : pos (of_int (Zfloor x)) (IZR (Zfloor x))).
    { apply of_int_exact. split; [assumption|]. apply Z.le_trans with (10 ^ 14)%Z; [lia|vm_compute; discriminate]. }
    assert (Pd : pos (dsub v (of_int (Zfloor x))) (x - IZR (Zfloor x))) by (apply fraction_exact; assumption).
    split; [assumption|]. intros tr kp p t start GF fuel w pre rest maxlen Es L.
    assert (Tu : to_u64 v = Some (Z.to_N (Zfloor x))).
    { apply to_u64_pos; [assumption|]. eapply Rlt_trans; [exact U|]. apply IZR_lt. eapply Z.le_lt_trans; [exact M14|vm_compute; reflexivity]. }
    assert (G64 : (Z.to_N (Zfloor x) < W64)%N).
    { apply N.lt_trans with (Z.to_N (10 ^ 14)); [lia|vm_compute; reflexivity]. }
    assert (Lf : (1 <= length fs)%nat) by (pose proof (padded_ge _ _ _ Pf); lia).
    rewrite integer_loop_eq. destruct (Z.ltb_spec 0 m); [|lia]. cbn [andb].
    destruct (Nat.ltb_spec 0 maxlen) as [Ml|Ml].
    - unfold loop_body. destruct (Z.ltb_spec TMC_MAX_PRECISION m) as [Q|_]; [unfold TMC_MAX_PRECISION in Q; lia|].
      rewrite Tu. cbv beta iota. rewrite Z2N.id by assumption. rewrite Tu. cbv beta iota.
      destruct (group_printed (S fuel) start pre rest maxlen (Z.to_nat m) (Z.to_N (Zfloor x)) fs (dsub v (of_int (Zfloor x))) (m - TMC_MAX_PRECISION)%Z
                  Es L G64 Pf) as (c & b & Eg & Bad).
      cbv beta iota zeta. cbv beta iota zeta in Eg. rewrite Eg. clear Eg. destruct (Nat.leb_spec (length fs) maxlen) as [A|A].
      + rewrite integer_loop_eq. destruct (Z.ltb_spec 0 (m - TMC_MAX_PRECISION)) as [Q|Q]; [unfold TMC_MAX_PRECISION in Q; lia|].
        cbn [andb print_tail]. destruct (Z.ltb_spec 0 (m - TMC_MAX_PRECISION)) as [Q2|_]; [lia|]. cbn [andb].
        destruct (GF (pre ++ digits_text fs) (skipn (length fs) rest) (maxlen - length fs)%nat) as (r & Er & Rr).
        * rewrite app_length, digits_text_length. lia.
        * rewrite !app_length, digits_text_length, skipn_length. rewrite app_length in L. lia.
        * exists r. split; [exact Er|]. apply report_next; [rewrite digits_text_length; lia|assumption|].
          rewrite digits_text_length. exact Rr.
      + destruct (Bad A) as (-> & Lb & Sb). cbn [print_tail]. eexists. split; [reflexivity|].
        apply report_too_long; [rewrite !app_length, digits_text_length; lia|assumption|assumption].
    - cbn [print_tail]. destruct (Z.ltb_spec 0 m); [|lia]. destruct (Nat.eqb_spec maxlen 0); [|lia]. cbn [andb].
      eexists. split; [reflexivity|]. replace (start - maxlen)%nat with start by lia.
      apply report_too_long; [rewrite !app_length, digits_text_length; lia|reflexivity|reflexivity].
  Qed.

  Lemma integer_then : forall v x m, pos v x -> x < IZR (2 ^ 56) -> (1 <= m <= 17)%Z -> x < IZR (10 ^ m) ->
    ((1 < m)%Z -> IZR (10 ^ (m - 1)) <= x) ->
    exists ds f, canonical 10 (Z.to_N (Zfloor x)) ds /\ pos f (x - IZR (Zfloor x)) /\
    forall tr kp p t start, good_fraction start f tr kp p t ->
    forall pre rest maxlen, start = (length pre + maxlen)%nat -> (start <= length (pre ++ rest))%nat -> (0 < maxlen)%nat ->
      exists r, (o <- integer_loop dbg cw 40 start (pre ++ rest) (length pre) maxlen v m 0 ;; print_tail start o tr kp p) = Some r /\
        report_print (pre ++ digits_text ds ++ t) (pre ++ rest) start r.
  Proof using.
    intros v x m P U56 Hm U Lm. pose proof (pos_ge _ _ P) as G. pose proof (floor_ge0 x G) as F0. pose proof (floor_lt x _ U) as F1.
    pose proof (floor_bounds x) as [B1 B2].
    change 40%nat with (S (S (S 37))).
    destruct (Z.le_gt_cases m 14) as [M14|M14].
    - destruct (canonical_exists 10 (Z.to_N (Zfloor x)) ltac:(lia)) as (ds & C).
      assert (Lds : length ds = Z.to_nat m).
      { apply (digit_count_unique 10 (Z.to_N (Zfloor x))); [lia|now apply canonical_count|]. split; [lia|]. split.
        - replace (10 ^ N.of_nat (Z.to_nat m))%N with (Z.to_N (10 ^ m)); [lia|]. rewrite Z2N.inj_pow by lia. f_equal. lia.
        - intros M1. specialize (Lm ltac:(lia)). replace (10 ^ N.of_nat (Z.to_nat m - 1))%N with (Z.to_N (10 ^ (m - 1))).
          + apply Z2N.inj_le; [apply Z.pow_nonneg; lia|assumption|]. now apply Zfloor_lub.
          + rewrite Z2N.inj_pow by lia. f_equal. lia. }
      assert (Pf : padded (Z.to_nat m) (Z.to_N (Zfloor x)) ds) by (exists ds; split; [assumption|]; rewrite <- Lds, Nat.sub_diag; reflexivity).
      destruct (last_group v x m ds P ltac:(lia) U Pf) as (Pd & K).
      exists ds, (dsub v (of_int (Zfloor x))). split; [assumption|]. split; [assumption|].
      intros tr kp p t start GF pre rest maxlen Es L _. exact (K tr kp p t start GF 38%nat 0%nat pre rest maxlen Es L).
    - set (k := (m - 14)%Z). assert (Hk : (1 <= k <= 3)%Z) by (unfold k; lia).
      destruct (split_group v x k P Hk) as (part & t10 & E1 & P1 & F & E2 & P2 & P3).
      { replace (k + 14)%Z with m by (unfold k; lia). exact U. } { exact U56. }
      { replace (k + 13)%Z with (m - 1)%Z by (unfold k; lia). apply Lm. lia. }
      set (n := Zfloor (x / IZR (10 ^ k))) in *. set (y := x - IZR (n * 10 ^ k)) in *.
      assert (D0 : 0 < IZR (10 ^ k)) by (apply IZR_lt; apply Z.pow_pos_nonneg; lia).
      pose proof (floor_bounds (x / IZR (10 ^ k))) as [N1 N2]. fold n in N1, N2.
      assert (Y0 : 0 <= y). { exact (pos_ge _ _ P3). }
      assert (Y1 : y < IZR (10 ^ k)).
      { unfold y. rewrite mult_IZR. apply (Rmult_lt_compat_r (IZR (10 ^ k))) in N2; [|assumption].
        unfold Rdiv in N2. rewrite Rmult_assoc, Rinv_l, Rmult_1_r in N2 by lra. lra. }
      assert (Fx : Zfloor x = (n * 10 ^ k + Zfloor y)%Z).
      { apply Zfloor_imp. pose proof (floor_bounds y) as [Q1 Q2]. rewrite !plus_IZR. unfold y in *. lra. }
      assert (N13 : (10 ^ 13 <= n)%Z).
      { apply Zfloor_lub. apply Rmult_le_reg_r with (IZR (10 ^ k)); [assumption|]. unfold Rdiv. rewrite Rmult_assoc, Rinv_l, Rmult_1_r by lra.
        rewrite <- mult_IZR, <- Z.pow_add_r by lia. replace (13 + k)%Z with (m - 1)%Z by (unfold k; lia). apply Lm. lia. }
      assert (N64 : (n < 2 ^ 64)%Z).
      { apply floor_lt. apply Rle_lt_trans with x; [|eapply Rlt_trans; [exact U56|apply IZR_lt; vm_compute; reflexivity]].
        apply Rmult_le_reg_r with (IZR (10 ^ k)); [assumption|]. unfold Rdiv. rewrite Rmult_assoc, Rinv_l, Rmult_1_r by lra.
        assert (1 <= IZR (10 ^ k)) by (apply (IZR_le 1); pose proof (Z.pow_pos_nonneg 10 k); lia). nra. }
      assert (Tp : to_u64 part = Some (Z.to_N n)).
      { rewrite (to_u64_pos _ _ P1); [now rewrite F|]. apply Rlt_le_trans with (IZR n + 1).
        - rewrite <- F. apply Zfloor_ub.
        - rewrite <- plus_IZR. apply IZR_le. lia. }
      destruct (padded_exists (Z.to_nat k) (Z.to_N (Zfloor y))) as (fs & Pf).
      destruct (canonical_exists 10 (Z.to_N n) ltac:(lia)) as (ds & C).
      pose proof (floor_ge0 y Y0) as Fy0. pose proof (floor_lt y _ Y1) as Fy1.
      assert (Ek : (10 ^ N.of_nat (Z.to_nat k))%N = Z.to_N (10 ^ k)) by (rewrite Z2N.inj_pow by lia; f_equal; lia).
      destruct (last_group (dsub v t10) y k fs P3 ltac:(lia) Y1 Pf) as (Pd & K).
      exists (ds ++ fs), (dsub (dsub v t10) (of_int (Zfloor y))). split.
      { replace (Z.to_N (Zfloor x)) with (Z.to_N n * 10 ^ N.of_nat (Z.to_nat k) + Z.to_N (Zfloor y))%N.
        - apply canonical_concat; [lia|assumption|assumption|lia|]. rewrite Ek. lia.
        - rewrite Ek, Fx, Z2N.inj_add by nia. now rewrite Z2N.inj_mul by lia. }
      split. { replace (x - IZR (Zfloor x)) with (y - IZR (Zfloor y)); [assumption|]. rewrite Fx, plus_IZR. unfold y. lra. }
      intros tr kp p t start GF pre rest maxlen Es L Lp.
      rewrite integer_loop_eq. destruct (Z.ltb_spec 0 m); [|lia]. destruct (Nat.ltb_spec 0 maxlen); [|lia]. cbn [andb].
      unfold loop_body. destruct (Z.ltb_spec TMC_MAX_PRECISION m) as [_|Q]; [|unfold TMC_MAX_PRECISION in Q; lia].
      change (m - TMC_MAX_PRECISION)%Z with k. rewrite E1. cbv beta iota. rewrite Tp. cbv beta iota. rewrite Z2N.id, E2 by lia. cbv beta iota. rewrite Tp. cbv beta iota.
      assert (Pf0 : padded 0 (Z.to_N n) ds) by (exists ds; split; [assumption|reflexivity]).
      destruct (group_printed (S (S 37)) start pre rest maxlen 0 (Z.to_N n) ds (dsub v t10) k Es L ltac:(lia) Pf0) as (c & b & Eg & Bad).
      cbv beta iota zeta. cbv beta iota zeta in Eg. rewrite Eg. clear Eg. rewrite digits_text_app, <- (app_assoc (digits_text ds) (digits_text fs) t).
      destruct (Nat.leb_spec (length ds) maxlen) as [A|A].
      + destruct (K tr kp p t start GF 37%nat (Z.to_nat TMC_MAX_PRECISION) (pre ++ digits_text ds) (skipn (length ds) rest) (maxlen - length ds)%nat) as (r & Er & Rr).
        * rewrite app_length, digits_text_length. lia.
        * rewrite !app_length, digits_text_length, skipn_length. rewrite app_length in L. lia.
        * exists r. split; [exact Er|].
          apply (report_next pre (digits_text ds) (digits_text fs ++ t)); [rewrite digits_text_length; lia|assumption|].
          rewrite digits_text_length. exact Rr.
      + destruct (Bad A) as (-> & Lb & Sb). cbn [print_tail]. eexists. split; [reflexivity|].
        apply report_too_long; [rewrite !app_length, !digits_text_length; lia|assumption|assumption].
  Qed.
End PrintDouble.
