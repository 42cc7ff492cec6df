(** What print_double writes: the buffer side of the printing functions. *)
From Coq Require Import ZArith NArith List Bool Lia ZifyBool ZifyNat ZifyN.
From Flocq Require Import Core IEEE754.BinarySingleNaN.
From Verif Require Import Base DigitsSpec DigitsProofs ConvModel ConvSpec ConvPrint ConvBool Fp DblModel DblSpec DblError PdModel PdSpec.
Import ListNotations.
Local Open Scope N_scope.

Lemma write_app : forall A (a : list A) x b y, write (a ++ x :: b) (length a) y = Some (a ++ y :: b).
Proof. induction a as [|z a IH]; intros x b y; cbn [write app length]; [reflexivity|]. rewrite IH. reflexivity. Qed.

Lemma digits_text_char : forall ds, decimal ds -> map (digit_char false) ds = digits_text ds.
Proof.
  intros ds D. apply map_ext_in. intros d I. apply digit_char_decimal.
  unfold decimal in D. rewrite Forall_forall in D. now apply D.
Qed.
Lemma digits_text_app : forall a b, digits_text (a ++ b) = digits_text a ++ digits_text b.
Proof. intros. apply map_app. Qed.
Lemma digits_text_length : forall a, length (digits_text a) = length a.
Proof. intros. apply map_length. Qed.
Lemma digits_text_zeros : forall n, digits_text (repeat 0 n) = repeat 48 n.
Proof. induction n; [reflexivity|]. cbn [repeat]. unfold digits_text in *. cbn [map]. now rewrite IHn. Qed.
Lemma number_zeros : forall n ds, number 10 (repeat 0 n ++ ds) = number 10 ds.
Proof. intros. induction n as [|n IH]; [reflexivity|]. cbn [repeat app]. rewrite number_cons, IH. lia. Qed.
Lemma decimal_zeros : forall n, decimal (repeat 0 n).
Proof. intros. unfold decimal. apply Forall_forall. intros x I. apply repeat_spec in I. lia. Qed.
Lemma decimal_app : forall a b, decimal a -> decimal b -> decimal (a ++ b).
Proof. intros. unfold decimal. apply Forall_app. now split. Qed.
Lemma canonical_decimal : forall v ds, canonical 10 v ds -> decimal ds.
Proof. intros v ds (_ & D & _). exact D. Qed.

(** The digits of [v] in at least [w] places. *)
Definition padded (w : nat) (v : N) (fs : list N) : Prop :=
  exists ds, canonical 10 v ds /\ fs = repeat 0 (w - length ds) ++ ds.
Lemma padded_exists : forall w v, exists fs, padded w v fs.
Proof. intros w v. destruct (canonical_exists 10 v ltac:(lia)) as (ds & C). exists (repeat 0 (w - length ds) ++ ds), ds. now split. Qed.
Lemma padded_decimal : forall w v fs, padded w v fs -> decimal fs.
Proof. intros w v fs (ds & C & ->). apply decimal_app; [apply decimal_zeros|now apply (canonical_decimal v)]. Qed.
Lemma padded_number : forall w v fs, padded w v fs -> number 10 fs = v.
Proof. intros w v fs (ds & C & ->). rewrite number_zeros. apply C. Qed.
Lemma padded_length : forall w v fs, padded w v fs -> (0 < w)%nat -> v < 10 ^ N.of_nat w -> length fs = w.
Proof.
  intros w v fs (ds & C & ->) Hw L. rewrite app_length, repeat_length.
  assert (length ds <= w)%nat; [|lia].
  destruct (Nat.le_gt_cases (length ds) w) as [A|A]; [assumption|exfalso].
  pose proof (canonical_count 10 _ _ ltac:(lia) C) as (C1 & C2 & C3). specialize (C3 ltac:(lia)).
  pose proof (N.pow_le_mono_r 10 (N.of_nat w) (N.of_nat (length ds - 1)) ltac:(lia) ltac:(lia)). lia.
Qed.
Lemma padded_ge : forall w v fs, padded w v fs -> (w <= length fs)%nat.
Proof. intros w v fs (ds & C & ->). rewrite app_length, repeat_length. lia. Qed.
Lemma last_app_ne : forall (a b : list N) d, b <> [] -> last (a ++ b) d = last b d.
Proof.
  induction a as [|x a IH]; intros b d H; [reflexivity|]. cbn [app]. destruct (a ++ b) eqn:E.
  - destruct a; [|discriminate]. cbn in E. congruence.
  - rewrite <- E. cbn [last]. rewrite E. rewrite <- E. now apply IH.
Qed.
Lemma padded_last : forall w v fs, padded w v fs -> last fs 0 = v mod 10.
Proof.
  intros w v fs (ds & C & ->). destruct C as (E & D & Ne & _). rewrite last_app_ne by assumption.
  destruct (@exists_last _ ds Ne) as (a & x & ->). rewrite last_last. rewrite number_snoc in E.
  unfold decimal in D. apply Forall_app in D. destruct D as [_ D]. inversion D as [|? ? Dx _]. subst.
  replace (number 10 a * 10 + x) with (x + number 10 a * 10) by lia. rewrite N.mod_add by lia. symmetry. now apply N.mod_small.
Qed.

(** * Reports *)
Lemma report_step : forall text pre t1 rest start r,
  (length pre + length t1 <= start)%nat -> (start <= length (pre ++ rest))%nat ->
  (length (pre ++ t1) <= length text)%nat -> firstn (length (pre ++ t1)) text = pre ++ t1 ->
  report_print text (pre ++ t1 ++ skipn (length t1) rest) start r ->
  report_print text (pre ++ rest) start r.
Proof.
  intros text pre t1 rest start r L1 L2 L3 F R. unfold report_print in *.
  rewrite app_length in L2, L3.
  assert (S : forall n, (length pre + length t1 <= n)%nat ->
    skipn n (pre ++ t1 ++ skipn (length t1) rest) = skipn n (pre ++ rest)).
  { intros n Hn. rewrite !skipn_app, skipn_plus.
    rewrite (skipn_all2 pre) by lia. rewrite (skipn_all2 t1) by lia. cbn [app]. f_equal. lia. }
  assert (Ln : length (pre ++ t1 ++ skipn (length t1) rest) = length (pre ++ rest)).
  { rewrite !app_length, skipn_length. lia. }
  destruct (length text <=? start)%nat.
  - rewrite R. f_equal. f_equal. apply S. lia.
  - destruct R as (R1 & R2 & R3). split; [assumption|]. split; [congruence|].
    rewrite R3. apply S. lia.
Qed.
Lemma report_next : forall pre t1 t2 rest start r,
  (length pre + length t1 <= start)%nat -> (start <= length (pre ++ rest))%nat ->
  report_print ((pre ++ t1) ++ t2) ((pre ++ t1) ++ skipn (length t1) rest) start r ->
  report_print (pre ++ t1 ++ t2) (pre ++ rest) start r.
Proof.
  intros pre t1 t2 rest start r L1 L2 R. apply (report_step _ _ t1); try assumption.
  - rewrite !app_length. lia.
  - rewrite app_assoc. rewrite firstn_app, Nat.sub_diag, firstn_O, app_nil_r. apply firstn_all.
  - now rewrite !app_assoc in *.
Qed.
Lemma report_too_long : forall text buf start b, (start < length text)%nat -> length b = length buf ->
  skipn start b = skipn start buf -> report_print text buf start (Conv start EOVERFLOW, b).
Proof.
  intros text buf start b L E S. unfold report_print. destruct (Nat.leb_spec (length text) start); [lia|].
  split; [reflexivity|]. now split.
Qed.
Lemma report_ok : forall pre text rest start, (length pre + length text <= start)%nat ->
  report_print (pre ++ text) (pre ++ rest) start
    (Conv (length pre + length text) OK, pre ++ text ++ skipn (length text) rest).
Proof.
  intros pre text rest start L. unfold report_print. rewrite app_length.
  destruct (Nat.leb_spec (length pre + length text) start); [|lia]. f_equal. rewrite <- app_assoc. f_equal. f_equal.
  rewrite skipn_app, (skipn_all2 pre) by lia. cbn [app]. f_equal. lia.
Qed.
(** A report of a function called at dest = buf + length pre. *)
Lemma report_at : forall pre text rest maxlen (c : conv) b, (maxlen <= length rest)%nat ->
  report_print text rest maxlen (c, b) ->
  (cv_size c <= maxlen)%nat /\
  ((cv_ec c = OK /\ cv_size c = length text /\ b = text ++ skipn (length text) rest) \/
   (cv_ec c = EOVERFLOW /\ cv_size c = maxlen /\ (maxlen < length text)%nat /\
    length (pre ++ b) = length (pre ++ rest) /\ skipn (length pre + maxlen) (pre ++ b) = skipn (length pre + maxlen) (pre ++ rest))).
Proof.
  intros pre text rest maxlen c b L R. unfold report_print in R. destruct (Nat.leb_spec (length text) maxlen) as [A|A].
  - inversion R as [[R1 R2]]. cbn. split; [lia|]. left. split; [reflexivity|]. split; reflexivity.
  - destruct R as (R1 & R2 & R3). cbn in *. subst c. cbn. split; [lia|]. right.
    split; [reflexivity|]. split; [reflexivity|]. split; [assumption|]. split; [rewrite !app_length; lia|].
    rewrite !skipn_app. f_equal. replace (length pre + maxlen - length pre)%nat with maxlen by lia. exact R3.
Qed.

Section PrintDouble.
  Variables dbg cw : bool.

  Lemma at_dest_app : forall pre rest f,
    at_dest (pre ++ rest) (length pre) f = (' (r, b) <- f rest ;; Some (r, pre ++ b)).
  Proof using.
    intros. unfold at_dest, assert_. rewrite app_length. destruct (Nat.leb_spec (length pre) (length pre + length rest)); [|lia].
    rewrite skipn_eq_app by reflexivity. destruct (f rest) as [[r b]|]; [|reflexivity].
    now rewrite firstn_app, Nat.sub_diag, firstn_O, app_nil_r, firstn_all.
  Qed.

  Lemma zero_padded_ok : forall buf maxlen width v fs, v < W64 -> padded width v fs -> (maxlen <= length buf)%nat ->
    exists r, tmc_print_zero_padded_u64 dbg cw buf maxlen width v = Some r /\
      report_print (digits_text fs) buf maxlen r.
  Proof using.
    intros buf maxlen width v fs Hv P L. pose proof (padded_ge _ _ _ P) as G. destruct P as (ds & C & ->).
    unfold tmc_print_zero_padded_u64.
    assert (Ec : get_digits_count_decimal_u64 v = Some (length ds)).
    { destruct (decimal_count_u64 v Hv) as (k & E & K). rewrite E. f_equal.
      apply (digit_count_unique 10 v); [lia|assumption|]. now apply canonical_count. }
    rewrite Ec. destruct (Nat.ltb_spec maxlen width) as [A|A].
    { eexists. split; [reflexivity|]. apply report_too_long; [rewrite digits_text_length; lia|reflexivity|reflexivity]. }
    set (padding := if (length ds <? width)%nat then (width - length ds)%nat else 0%nat).
    assert (Ep : padding = (width - length ds)%nat) by (unfold padding; destruct (Nat.ltb_spec (length ds) width); lia).
    rewrite Ep. clearbody padding. subst padding. set (n := (width - length ds)%nat) in *.
    rewrite copy_into_some by (rewrite repeat_length; pose proof (canonical_length_pos _ _ _ C); lia).
    assert (Ln : (n <= maxlen)%nat) by lia.
    replace (at_dest (repeat 48 n ++ skipn (length (repeat 48 n)) buf) n) with
      (at_dest (repeat 48 n ++ skipn n buf) (length (repeat 48 n))) by (now rewrite !repeat_length).
    rewrite at_dest_app. rewrite (print_decimal_w_correct dbg cw false _ _ _ v ds C Ec) by (rewrite skipn_length; lia).
    unfold printed. rewrite map_length, digits_text_app, digits_text_zeros, (digits_text_char ds (canonical_decimal _ _ C)).
    destruct (Nat.leb_spec (length ds) (maxlen - n)) as [B|B]; eexists; (split; [reflexivity|]); cbn [combine_conv cv_size cv_ec].
    - unfold report_print. rewrite app_length, repeat_length, digits_text_length.
      destruct (Nat.leb_spec (n + length ds) maxlen); [|lia]. f_equal. rewrite <- app_assoc. f_equal. f_equal.
      now rewrite skipn_plus.
    - unfold combine_conv. cbn [cv_size cv_ec]. replace (n + (maxlen - n))%nat with maxlen by lia.
      apply report_too_long.
      + rewrite app_length, repeat_length, digits_text_length. lia.
      + rewrite app_length, repeat_length, skipn_length. lia.
      + rewrite skipn_app, (skipn_all2 (repeat 48 n)) by (rewrite repeat_length; lia). rewrite repeat_length, skipn_plus.
        cbn [app]. f_equal. lia.
  Qed.

  (** ** Digits behind the point *)
  (** Whether there is a point and the digits behind it; [d] is the number of 10^-p units. *)
  Definition fraction_digits (trailing keep : bool) (p : nat) (d : N) (point : bool) (fs : list N) : Prop :=
    decimal fs /\ (point = false -> fs = []) /\ (point = true -> fs <> []) /\
    if (p =? 0)%nat then point = false
    else if d =? 0 then
      if trailing then point = true /\ fs = (if keep then [0] else repeat 0 p) else point = false
    else
      point = true /\
      (if negb trailing || keep
       then (d = 10 ^ N.of_nat p /\ fs = [0]) \/
            ((length fs <= p)%nat /\ number 10 fs * 10 ^ N.of_nat (p - length fs) = d /\ last fs 0 <> 0)
       else number 10 fs = d /\ (d < 10 ^ N.of_nat p -> length fs = p)).
  Definition fraction_text (point : bool) (fs : list N) : list N := if point then 46 :: digits_text fs else [].

  Lemma trim_ok : forall p d, 0 < d -> d <= 10 ^ N.of_nat p ->
    exists w d', trim_zeroes p d = Some (w, d') /\ (w <= p)%nat /\ d = d' * 10 ^ N.of_nat (p - w) /\
      d' mod 10 <> 0 /\ 0 < d' <= 10 ^ N.of_nat w.
  Proof using.
    induction p as [|p IH]; intros d H0 H1; cbn [trim_zeroes].
    - change (10 ^ N.of_nat 0) with 1 in *. assert (d = 1) by lia. subst d. change (1 mod 10 =? 0) with false.
      exists 0%nat, 1. split; [reflexivity|]. split; [lia|]. split; [reflexivity|]. split; [discriminate|].
      split; [reflexivity|]. discriminate.
    - assert (E10 : 10 ^ N.of_nat (S p) = 10 * 10 ^ N.of_nat p) by (rewrite Nat2N.inj_succ, N.pow_succ_r'; reflexivity).
      destruct (N.eqb_spec (d mod 10) 0) as [Z|Z].
      + assert (D : d = 10 * (d / 10)) by (pose proof (N.div_mod d 10 ltac:(lia)); lia).
        destruct (IH (d / 10)) as (w & d' & T & W & E & M & B); [lia|rewrite E10 in H1; lia|].
        exists w, d'. split; [assumption|]. split; [lia|].
        split; [|now split]. rewrite D, E. replace (S p - w)%nat with (S (p - w)) by lia.
        rewrite Nat2N.inj_succ, N.pow_succ_r'. lia.
      + exists (S p), d. split; [reflexivity|]. split; [lia|]. rewrite Nat.sub_diag. change (10 ^ N.of_nat 0) with 1.
        split; [lia|]. split; [assumption|]. lia.
  Qed.

  Lemma dot_written : forall pre x rest, write (pre ++ x :: rest) (length pre) 46 = Some ((pre ++ [46]) ++ rest).
  Proof using. intros. rewrite write_app. now rewrite <- app_assoc. Qed.

  (** A text that starts with '.': the three cases of maxlen. *)
  Lemma after_dot : forall pre rest maxlen start text (k : list N -> option (conv * list N)),
    start = (length pre + maxlen)%nat -> (start <= length (pre ++ rest))%nat -> (1 <= length text)%nat ->
    (forall rest', (S (length pre) + length rest' = length (pre ++ rest))%nat -> (2 <= maxlen)%nat ->
       exists r, k ((pre ++ [46]) ++ rest') = Some r /\
         report_print ((pre ++ [46]) ++ text) ((pre ++ [46]) ++ rest') start r) ->
    exists r, (if (maxlen =? 0)%nat then Some (Conv (start - maxlen) EOVERFLOW, pre ++ rest)
      else buf1 <- write (pre ++ rest) (length pre) 46 ;;
        if (maxlen - 1 =? 0)%nat then Some (Conv (start - (maxlen - 1)) EOVERFLOW, buf1) else k buf1) = Some r /\
      report_print (pre ++ 46 :: text) (pre ++ rest) start r.
  Proof using.
    intros pre rest maxlen start text k Es L Lt K. destruct (Nat.eqb_spec maxlen 0) as [Z|Z].
    - eexists. split; [reflexivity|]. replace (start - maxlen)%nat with start by lia.
      apply report_too_long; [rewrite app_length; cbn [length]; lia|reflexivity|reflexivity].
    - destruct rest as [|x rest]; [rewrite app_length in L; cbn in L; lia|]. rewrite dot_written.
      destruct (Nat.eqb_spec (maxlen - 1) 0) as [O|O].
      + eexists. split; [reflexivity|]. replace (start - (maxlen - 1))%nat with start by lia.
        apply report_too_long.
        * rewrite app_length. cbn [length]. lia.
        * rewrite !app_length. cbn. lia.
        * rewrite <- app_assoc, !skipn_app. rewrite (skipn_all2 pre) by lia.
          replace (start - length pre)%nat with 1%nat by lia. reflexivity.
      + destruct (K rest) as (r & Kr & R); [rewrite app_length; cbn; lia|lia|]. exists r. split; [assumption|].
        apply (report_next pre [46] text (x :: rest)) in R; [assumption|cbn; lia|assumption].
  Qed.

  Definition half : double := ddiv (of_int 1) (of_int 2).

  Lemma print_fraction_ok : forall f trailing keep p power d, (0 <= p <= 14)%Z ->
    nth_error print_PowersOfTen (Z.to_nat p) = Some power ->
    to_u64 (dadd (dmul f power) half) = Some d -> d <= 10 ^ Z.to_N p ->
    exists point fs, fraction_digits trailing keep (Z.to_nat p) d point fs /\
      forall pre rest maxlen start, start = (length pre + maxlen)%nat -> (start <= length (pre ++ rest))%nat ->
      exists r, print_fraction dbg cw start (pre ++ rest) (length pre) maxlen f trailing keep p = Some r /\
        report_print (pre ++ fraction_text point fs) (pre ++ rest) start r.
  Proof using.
    intros f trailing keep p power d Hp Epw Ed Ld.
    assert (Ep : 10 ^ Z.to_N p = 10 ^ N.of_nat (Z.to_nat p)) by (f_equal; lia). rewrite Ep in Ld.
    unfold fraction_digits, print_fraction. rewrite Epw.
    change (ddiv (of_int 1) (of_int 2)) with half. rewrite Ed.
    assert (Done : forall pre rest maxlen start, start = (length pre + maxlen)%nat ->
      exists r, Some (Conv (start - maxlen) OK, pre ++ rest) = Some r /\ report_print (pre ++ []) (pre ++ rest) start r).
    { intros pre rest maxlen start Es. eexists. split; [reflexivity|].
      replace (start - maxlen)%nat with (length pre + 0)%nat by lia. apply (report_ok pre [] rest start). cbn. lia. }
    destruct (Z.ltb_spec 0 p) as [P0|P0].
    2:{ replace (Z.to_nat p) with 0%nat by lia. exists false, []. split.
        - split; [constructor|]. split; [auto|]. split; [discriminate|reflexivity].
        - intros pre rest maxlen start Es _. now apply Done. }
    destruct (Nat.eqb_spec (Z.to_nat p) 0) as [|Pn]; [lia|]. set (n := Z.to_nat p) in *.
    destruct (N.eqb_spec d 0) as [D0|D0]; cbn [negb].
    - destruct trailing.
      + destruct keep.
        * exists true, [0]. split; [split; [repeat constructor|]; split; [discriminate|]; split; [discriminate|]; split; reflexivity|].
          intros pre rest maxlen start Es L.
          apply (after_dot pre rest maxlen start (digits_text [0])
                   (fun buf1 => buf2 <- write buf1 (S (length pre)) 48 ;; Some (Conv (start - (maxlen - 1 - 1)) OK, buf2))); [assumption|assumption|cbn; lia|].
          intros rest' Lr Lm. destruct rest' as [|y rest']; [rewrite app_length in Lr, L; cbn in Lr; lia|].
          replace (S (length pre)) with (length (pre ++ [46])) by (rewrite app_length; cbn; lia). rewrite write_app.
          eexists. split; [reflexivity|]. replace (start - (maxlen - 1 - 1))%nat with (length (pre ++ [46%N]) + length (digits_text [0%N]))%nat by (rewrite app_length; cbn; lia).
          apply report_ok. rewrite app_length. cbn. lia.
        * exists true, (repeat 0 n). split.
          { split; [apply decimal_zeros|]. split; [discriminate|]. split; [destruct n; [lia|discriminate]|]. split; reflexivity. }
          intros pre rest maxlen start Es L.
          apply (after_dot pre rest maxlen start (digits_text (repeat 0 n))
            (fun buf1 => let short := (maxlen - 1 <? n)%nat in
              let m := if short then (maxlen - 1)%nat else n in
              ' (_, buf2) <- at_dest buf1 (S (length pre)) (fun dest => b <- copy_into dest (repeat 48 m) ;; Some (Conv 0 OK, b)) ;;
              Some (Conv (start - (maxlen - 1 - m)) (if short then EOVERFLOW else OK), buf2))); [assumption|assumption|rewrite digits_text_length, repeat_length; lia|].
          intros rest' Lr Lm. cbv zeta.
          replace (S (length pre)) with (length (pre ++ [46])) by (rewrite app_length; cbn; lia). rewrite at_dest_app.
          assert (Lr' : (maxlen - 1 <= length rest')%nat) by (rewrite app_length in *; lia).
          rewrite digits_text_zeros.
          destruct (Nat.ltb_spec (maxlen - 1) n) as [Sh|Sh]; rewrite copy_into_some by (rewrite repeat_length; lia);
            eexists; (split; [reflexivity|]).
          -- replace (start - (maxlen - 1 - (maxlen - 1)))%nat with start by lia. apply report_too_long.
             ++ rewrite !app_length, repeat_length. cbn [length]. lia.
             ++ rewrite !app_length, skipn_length, repeat_length. lia.
             ++ rewrite !skipn_app, app_length. cbn [length]. replace (start - (length pre + 1))%nat with (maxlen - 1)%nat by lia.
                rewrite (skipn_all2 (repeat 48 (maxlen - 1))) by (rewrite repeat_length; lia).
                rewrite repeat_length, Nat.sub_diag. reflexivity.
          -- replace (start - (maxlen - 1 - n))%nat with (length (pre ++ [46%N]) + length (repeat 48%N n))%nat by (rewrite app_length, repeat_length; cbn [length]; lia).
             apply report_ok. rewrite app_length, repeat_length. cbn [length]. lia.
      + exists false, []. split; [split; [constructor|]; split; [auto|]; split; [discriminate|reflexivity]|].
        intros pre rest maxlen start Es _. now apply Done.
    - assert (B64 : d < W64).
      { apply N.le_lt_trans with (10 ^ N.of_nat 14); [|reflexivity]. eapply N.le_trans; [exact Ld|]. apply N.pow_le_mono_r; lia. }
      assert (Pad : forall w v fs pre rest maxlen start, start = (length pre + maxlen)%nat -> v < W64 -> padded w v fs ->
        (start <= length (pre ++ rest))%nat ->
        exists r, (' (fr, buf2) <- at_dest (pre ++ rest) (length pre) (fun dest => tmc_print_zero_padded_u64 dbg cw dest maxlen w v) ;;
          assert_ (cv_size fr <=? maxlen)%nat (Some (Conv (start - (maxlen - cv_size fr)) (cv_ec fr), buf2))) = Some r /\
          report_print (pre ++ digits_text fs) (pre ++ rest) start r).
      { intros w v fs pre rest maxlen start Es Hv Pf L. rewrite at_dest_app.
        assert (Lr : (maxlen <= length rest)%nat) by (rewrite app_length in L; lia).
        destruct (zero_padded_ok rest maxlen w v fs Hv Pf Lr) as ([c b] & Ez & Rz). rewrite Ez.
        destruct (report_at pre _ _ _ _ _ Lr Rz) as (Ls & [(E1 & E2 & E3)|(E1 & E2 & E3 & E4 & E5)]); unfold assert_;
          (destruct (Nat.leb_spec (cv_size c) maxlen); [|lia]); eexists; (split; [reflexivity|]).
        - rewrite E1, E2, E3. rewrite digits_text_length in *. replace (start - (maxlen - length fs))%nat with (length pre + length fs)%nat by lia.
          pose proof (report_ok pre (digits_text fs) rest start) as Q. rewrite digits_text_length in Q. apply Q. lia.
        - rewrite E1, E2. replace (start - (maxlen - maxlen))%nat with (length pre + maxlen)%nat by lia. subst start.
          apply report_too_long; [rewrite app_length; lia|assumption|assumption]. }
      destruct (negb trailing || keep) eqn:Tr.
      + destruct (trim_ok n d ltac:(lia) Ld) as (w & d' & T & Lw & E & M & B).
        destruct (padded_exists w d') as (fs & Pf).
        assert (B' : d' < W64).
        { apply N.le_lt_trans with (10 ^ N.of_nat 14); [|reflexivity]. eapply N.le_trans; [apply B|]. apply N.pow_le_mono_r; lia. }
        destruct (Nat.eqb_spec w 0) as [W0|W0].
        * subst w. change (10 ^ N.of_nat 0) with 1 in B. assert (d' = 1) by lia. subst d'.
          exists true, [0]. split.
          { split; [repeat constructor|]. split; [discriminate|]. split; [discriminate|]. split; [reflexivity|]. left.
            rewrite Nat.sub_0_r in E. split; [lia|reflexivity]. }
          intros pre rest maxlen start Es L.
          apply (after_dot pre rest maxlen start (digits_text [0])
            (fun buf1 => ' (printWidth, fractionalDigits) <- trim_zeroes n d ;;
              if (printWidth =? 0)%nat then
                tm_assert dbg (0 <? maxlen - 1)%nat
                (buf2 <- write buf1 (S (length pre)) 48 ;; Some (Conv (start - (maxlen - 1 - 1)) OK, buf2))
              else
                ' (fr, buf2) <- at_dest buf1 (S (length pre)) (fun dest =>
                                  tmc_print_zero_padded_u64 dbg cw dest (maxlen - 1) printWidth fractionalDigits) ;;
                assert_ (cv_size fr <=? maxlen - 1)%nat
                (Some (Conv (start - (maxlen - 1 - cv_size fr)) (cv_ec fr), buf2)))); [assumption|assumption|cbn; lia|].
          intros rest' Lr Lm. rewrite T. cbn [Nat.eqb]. rewrite (tm_assert_true dbg cw) by (apply Nat.ltb_lt; lia).
          destruct rest' as [|y rest']; [rewrite app_length in Lr, L; cbn in Lr; lia|].
          replace (S (length pre)) with (length (pre ++ [46])) by (rewrite app_length; cbn; lia). rewrite write_app.
          eexists. split; [reflexivity|]. replace (start - (maxlen - 1 - 1))%nat with (length (pre ++ [46%N]) + length (digits_text [0%N]))%nat by (rewrite app_length; cbn; lia).
          apply report_ok. rewrite app_length. cbn. lia.
        * assert (Dl : d' < 10 ^ N.of_nat w).
          { destruct (N.eq_dec d' (10 ^ N.of_nat w)) as [Q|Q]; [|lia]. exfalso. apply M. rewrite Q.
            destruct w as [|w]; [lia|]. rewrite Nat2N.inj_succ, N.pow_succ_r', N.mul_comm. apply N.mod_mul. lia. }
          pose proof (padded_length _ _ _ Pf ltac:(lia) Dl) as Lf.
          exists true, fs. split.
          { split; [now apply (padded_decimal w d')|]. split; [discriminate|]. split; [intros _ Q; rewrite Q in Lf; cbn in Lf; lia|]. split; [reflexivity|]. right.
            rewrite Lf. split; [assumption|]. rewrite (padded_number _ _ _ Pf). split; [symmetry; assumption|].
            now rewrite (padded_last _ _ _ Pf). }
          intros pre rest maxlen start Es L.
          apply (after_dot pre rest maxlen start (digits_text fs)
            (fun buf1 => ' (printWidth, fractionalDigits) <- trim_zeroes n d ;;
              if (printWidth =? 0)%nat then
                tm_assert dbg (0 <? maxlen - 1)%nat
                (buf2 <- write buf1 (S (length pre)) 48 ;; Some (Conv (start - (maxlen - 1 - 1)) OK, buf2))
              else
                ' (fr, buf2) <- at_dest buf1 (S (length pre)) (fun dest =>
                                  tmc_print_zero_padded_u64 dbg cw dest (maxlen - 1) printWidth fractionalDigits) ;;
                assert_ (cv_size fr <=? maxlen - 1)%nat
                (Some (Conv (start - (maxlen - 1 - cv_size fr)) (cv_ec fr), buf2)))); [assumption|assumption|rewrite digits_text_length; lia|].
          intros rest' Lr Lm. rewrite T. destruct (Nat.eqb_spec w 0); [lia|].
          replace (S (length pre)) with (length (pre ++ [46])) by (rewrite app_length; cbn; lia).
          apply Pad; [rewrite app_length; cbn; lia|assumption|assumption|rewrite !app_length in *; cbn; lia].
      + destruct (padded_exists n d) as (fs & Pf). exists true, fs. split.
        { split; [now apply (padded_decimal n d)|]. split; [discriminate|].
          split; [intros _ Q; pose proof (padded_ge _ _ _ Pf) as G; rewrite Q in G; cbn in G; lia|]. split; [reflexivity|].
          split; [now apply (padded_number n)|]. intros Dl. apply (padded_length _ _ _ Pf); [lia|assumption]. }
        intros pre rest maxlen start Es L.
        apply (after_dot pre rest maxlen start (digits_text fs)
            (fun buf1 => 
              if (n =? 0)%nat then
                tm_assert dbg (0 <? maxlen - 1)%nat
                (buf2 <- write buf1 (S (length pre)) 48 ;; Some (Conv (start - (maxlen - 1 - 1)) OK, buf2))
              else
                ' (fr, buf2) <- at_dest buf1 (S (length pre)) (fun dest =>
                                  tmc_print_zero_padded_u64 dbg cw dest (maxlen - 1) n d) ;;
                assert_ (cv_size fr <=? maxlen - 1)%nat
                (Some (Conv (start - (maxlen - 1 - cv_size fr)) (cv_ec fr), buf2)))); [assumption|assumption|rewrite digits_text_length; pose proof (padded_ge _ _ _ Pf); lia|].
        intros rest' Lr Lm. destruct (Nat.eqb_spec n 0); [lia|].
        replace (S (length pre)) with (length (pre ++ [46])) by (rewrite app_length; cbn; lia).
        apply Pad; [rewrite app_length; cbn; lia|assumption|assumption|rewrite !app_length in *; cbn; lia].
  Qed.
End PrintDouble.
