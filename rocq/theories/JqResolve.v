(** JSON pointers refer to the values RFC 6901 says. *)
From Coq Require Import Arith NArith ZArith List Bool Lia ZifyBool ZifyNat ZifyN.
Import ListNotations.
From Verif Require Import Base JqModel.
From Verif Require JsonModel JsonSpec JsonStream.
Import JsonSpec (digit, hexdigit, H_dec, H_upper, H_lower, digits, int_part, tree, Scalar, Str, Obj, Arr).
From Verif Require Import JqSpec JqConv JqPointer.
Local Open Scope N_scope.

(** ** Segments and tokens *)
Record seg_tok (frag : bool) (seg tok : list N) : Prop := {
  st_unescape : useg frag seg = Some tok;
  st_slash : ~ In 47 seg;
  st_null : cstr tok = tok;
  st_digit : starts_with_digit seg <-> starts_with_digit tok;
  st_index : int_part tok -> seg = tok }.

Definition nonzero (s : list N) : Prop := Forall (fun c => c <> 0) s.

Lemma escaped_slash raw tok : escaped raw tok -> ~ In 47 raw.
Proof. induction 1; cbn [In]; intuition congruence. Qed.
Lemma escaped_useg raw tok : escaped raw tok -> useg false raw = Some tok.
Proof.
  induction 1 as [|c s t N1 N2 _ IH|s t _ IH|s t _ IH]; cbn [useg andb]; [reflexivity| | |].
  - replace (c =? 126) with false by lia. now rewrite IH.
  - change (126 =? 126) with true. change (48 =? 48) with true. cbv beta iota. now rewrite IH.
  - change (126 =? 126) with true. change (49 =? 48) with false. change (49 =? 49) with true. cbv beta iota. now rewrite IH.
Qed.
Lemma escaped_nonzero raw tok : escaped raw tok -> nonzero raw -> nonzero tok.
Proof.
  induction 1 as [|c s t N1 N2 _ IH|s t _ IH|s t _ IH]; intros H; [constructor| | |].
  - inversion H; subst. constructor; auto. now apply IH.
  - inversion H as [|? ? _ H1]; subst. inversion H1; subst. constructor; [lia|]. now apply IH.
  - inversion H as [|? ? _ H1]; subst. inversion H1; subst. constructor; [lia|]. now apply IH.
Qed.
Lemma escaped_digit raw tok : escaped raw tok -> starts_with_digit raw <-> starts_with_digit tok.
Proof.
  intros H. unfold starts_with_digit, digit. inversion H; subst.
  - tauto.
  - split; intros (c' & t' & X & D); injection X as -> ->; eauto.
  - split; intros (c' & t' & X & D); injection X as <- <-; lia.
  - split; intros (c' & t' & X & D); injection X as <- <-; lia.
Qed.
Lemma escaped_digits raw tok : escaped raw tok -> Forall digit tok -> raw = tok.
Proof.
  induction 1 as [|c s t N1 N2 _ IH|s t _ IH|s t _ IH]; intros D; [reflexivity| | |]; inversion D as [|? ? D1 D2]; subst.
  - f_equal. now apply IH.
  - unfold digit in D1. lia.
  - unfold digit in D1. lia.
Qed.
Lemma escaped_seg raw tok : escaped raw tok -> nonzero raw -> seg_tok false raw tok.
Proof.
  intros E Z. split.
  - now apply escaped_useg.
  - eapply escaped_slash, E.
  - apply cstr_nonzero. eapply escaped_nonzero; eassumption.
  - now apply escaped_digit.
  - intros I. apply (escaped_digits _ _ E). apply int_digits, I.
Qed.

Definition slashed (segs : list (list N)) : list N := flat_map (fun s => 47 :: s) segs.

Lemma pointer_segments p toks : pointer_text p toks -> nonzero p ->
  exists segs, p = slashed segs /\ Forall2 (seg_tok false) segs toks.
Proof.
  induction 1 as [|raw tok p toks E _ IH]; intros Z; [exists []; split; [reflexivity|constructor]|].
  inversion Z as [|? ? _ Z1]; subst. apply Forall_app in Z1. destruct Z1 as [Z1 Z2].
  destruct (IH Z2) as (segs & -> & F). exists (raw :: segs). split; [reflexivity|].
  constructor; [now apply escaped_seg|exact F].
Qed.

(** Percent-encoding *)
Lemma hexdigit_xdigit c v : hexdigit c v -> is_xdigit c = true.
Proof. unfold is_xdigit, is_digit. destruct 1; lia. Qed.
Lemma hexdigit_value c v : hexdigit c v -> digit_of 16 c = Some v /\ v < 16.
Proof.
  unfold digit_of. destruct 1.
  - replace ((48 <=? c) && (c <=? 57)) with true by lia. cbv beta iota zeta. replace (c - 48 <? 16) with true by lia. split; [reflexivity|lia].
  - replace ((48 <=? c) && (c <=? 57)) with false by lia. replace ((65 <=? c) && (c <=? 90)) with true by lia.
    cbv beta iota zeta. replace (c - 55 <? 16) with true by lia. split; [f_equal; lia|lia].
  - replace ((48 <=? c) && (c <=? 57)) with false by lia. replace ((65 <=? c) && (c <=? 90)) with false by lia.
    replace ((97 <=? c) && (c <=? 122)) with true by lia.
    cbv beta iota zeta. replace (c - 87 <? 16) with true by lia. split; [f_equal; lia|lia].
Qed.
Lemma hexdigit_range c v : hexdigit c v -> 48 <= c <= 102 /\ c <> 120 /\ c <> 88.
Proof. destruct 1; lia. Qed.
Lemma hex_byte x y a b : hexdigit x a -> hexdigit y b -> tmj_to_uint [x; y] 0 16 mod 256 = 16 * a + b.
Proof.
  intros X Y. destruct (hexdigit_value x a X) as [DX LX]. destruct (hexdigit_value y b Y) as [DY LY].
  pose proof (hexdigit_range _ _ X) as RX. pose proof (hexdigit_range _ _ Y) as RY.
  unfold tmj_to_uint. change (Nat.ltb 32 (length [x; y])) with false. cbv beta iota.
  rewrite cstr_nonzero by (constructor; [lia|constructor; [lia|constructor]]).
  assert (S0 : strto 16 [x; y] = (false, 16 * a + b)).
  { unfold strto. assert (SP : is_space x = false) by (unfold is_space; lia). cbn [skip_spaces]. rewrite SP.
    assert (S1 : (match x with 45 => (true, [y]) | 43 => (false, [y]) | _ => (false, [x; y]) end) = (false, [x; y])).
    { destruct (N.eq_dec x 45) as [->|N1]; [lia|]. destruct (N.eq_dec x 43) as [->|N2]; [lia|].
      destruct x as [|p]; [reflexivity|]. do 6 (destruct p as [p|p|]; try reflexivity; try congruence). }
    rewrite S1. cbv beta iota zeta. cbn [digits_value].
    assert (S2 : (match x with 48 => [x; y] | _ => [x; y] end) = [x; y]).
    { destruct x as [|p]; [reflexivity|]. do 6 (destruct p as [p|p|]; try reflexivity). }
    cut (digits_value 16 [x; y] 0 = 16 * a + b).
    - intros C. f_equal. destruct x as [|p]; [exact C|]. do 6 (destruct p as [p|p|]; try exact C).
    - cbn [digits_value]. rewrite DX, DY. lia. }
  unfold strtoul64. rewrite S0. cbv beta iota. replace (W64 <=? 16 * a + b) with false by lia. cbv beta iota.
  unfold w32. rewrite (N.mod_small _ W32) by lia. apply N.mod_small. lia.
Qed.

Lemma percent_app q r1 r2 : percent inert_byte q (r1 ++ r2) ->
  exists q1 q2, q = q1 ++ q2 /\ percent inert_byte q1 r1 /\ percent inert_byte q2 r2.
Proof.
  revert q. induction r1 as [|c r1 IH]; intros q H; [exists [], q; repeat split; [constructor|exact H]|].
  cbn [app] in H. inversion H as [|? ? ? NP PT|? ? ? ? ? ? HX HY OB PT]; subst.
  - destruct (IH _ PT) as (q1 & q2 & -> & A & B). exists (c :: q1), q2. split; [reflexivity|]. split; [|exact B]. now constructor.
  - destruct (IH _ PT) as (q1 & q2 & -> & A & B). exists (37 :: x :: y :: q1), q2. split; [reflexivity|]. split; [|exact B]. now constructor.
Qed.
Lemma percent_head q c r : percent inert_byte q (c :: r) -> c = 47 \/ c = 126 \/ digit c \/ c = 0 ->
  exists q', q = c :: q' /\ percent inert_byte q' r.
Proof.
  intros H S. inversion H as [|? ? ? NP PT|? ? ? ? ? ? HX HY OB PT]; subst; [eauto|]. exfalso. unfold inert_byte in OB. intuition.
Qed.
Lemma percent_seg raw tok : escaped raw tok -> forall q, percent inert_byte q raw -> useg true q = Some tok.
Proof.
  induction 1 as [|c s t N1 N2 _ IH|s t _ IH|s t _ IH]; intros q H.
  - inversion H. reflexivity.
  - inversion H as [|? ? ? NP PT|? ? ? ? ? ? HX HY OB PT]; subst.
    + cbn [useg andb]. replace (c =? 37) with false by lia. replace (c =? 126) with false by lia. now rewrite (IH _ PT).
    + cbn [useg andb]. change (37 =? 37) with true. cbv beta iota.
      rewrite (hexdigit_xdigit x a), (hexdigit_xdigit y b) by assumption. cbn [andb].
      rewrite (IH _ PT), (hex_byte x y a b) by assumption. reflexivity.
  - destruct (percent_head _ _ _ H) as (q1 & -> & H1); [auto|].
    destruct (percent_head _ _ _ H1) as (q2 & -> & H2); [unfold digit; right; right; left; lia|].
    cbn [useg andb]. change (126 =? 37) with false. change (126 =? 126) with true. change (48 =? 48) with true. cbv beta iota.
    now rewrite (IH _ H2).
  - destruct (percent_head _ _ _ H) as (q1 & -> & H1); [auto|].
    destruct (percent_head _ _ _ H1) as (q2 & -> & H2); [unfold digit; right; right; left; lia|].
    cbn [useg andb]. change (126 =? 37) with false. change (126 =? 126) with true. change (49 =? 48) with false.
    change (49 =? 49) with true. cbv beta iota. now rewrite (IH _ H2).
Qed.
Lemma percent_slash q r : percent inert_byte q r -> ~ In 47 r -> ~ In 47 q.
Proof.
  induction 1 as [|c s t N _ IH|x y a b s t X Y O _ IH]; cbn [In]; [tauto| |]; intros NI.
  - intuition.
  - pose proof (hexdigit_range _ _ X). pose proof (hexdigit_range _ _ Y). intros [E|[E|[E|E]]]; try lia. now apply IH; [intros I; apply NI; right|].
Qed.
Lemma percent_nonzero q r : percent inert_byte q r -> nonzero r -> nonzero q.
Proof.
  induction 1 as [|c s t N _ IH|x y a b s t X Y O _ IH]; intros Z; [constructor| |]; inversion Z; subst.
  - constructor; [assumption|now apply IH].
  - pose proof (hexdigit_range _ _ X). pose proof (hexdigit_range _ _ Y).
    repeat (constructor; [lia|]). now apply IH.
Qed.
Lemma percent_digit q r : percent inert_byte q r -> starts_with_digit q <-> starts_with_digit r.
Proof.
  intros H. unfold starts_with_digit. inversion H as [|? ? ? NP PT|? ? ? ? ? ? HX HY OB PT]; subst.
  - tauto.
  - split; intros (c' & t' & X & D); injection X as -> ->; eauto.
  - split; intros (c' & t' & X' & D); exfalso.
    + injection X' as <- <-. unfold digit in D. lia.
    + injection X' as <- <-. unfold inert_byte in OB. tauto.
Qed.
Lemma percent_digits q r : percent inert_byte q r -> Forall digit r -> q = r.
Proof.
  induction 1 as [|c s t N _ IH|x y a b s t X Y O _ IH]; intros D; [reflexivity| |]; inversion D; subst.
  - f_equal. now apply IH.
  - unfold inert_byte in O. tauto.
Qed.
Lemma fragment_segments p toks : pointer_text p toks -> nonzero p -> forall q, percent inert_byte q p ->
  exists segs, q = slashed segs /\ Forall2 (seg_tok true) segs toks.
Proof.
  induction 1 as [|raw tok p toks E _ IH]; intros Z q H.
  - inversion H; subst. exists []; split; [reflexivity|constructor].
  - inversion Z as [|? ? _ Z1]; subst. apply Forall_app in Z1. destruct Z1 as [Z1 Z2].
    destruct (percent_head _ _ _ H) as (q1 & -> & H1); [auto|].
    destruct (percent_app _ _ _ H1) as (q2 & q3 & -> & A & B).
    destruct (IH Z2 q3 B) as (segs & -> & F). exists (q2 :: segs). split; [reflexivity|].
    constructor; [|exact F]. split.
    + eapply percent_seg; eassumption.
    + eapply percent_slash; [exact A|eapply escaped_slash, E].
    + apply cstr_nonzero. eapply escaped_nonzero; eassumption.
    + rewrite (percent_digit _ _ A). now apply escaped_digit.
    + intros I. apply int_digits in I. destruct I as [_ I]. pose proof (escaped_digits _ _ E I). subst raw.
      now apply percent_digits.
Qed.

(** ** The loop *)

(** The buffer can be made large enough. *)
Definition room (or : nat -> bool) (segs : list (list N)) : Prop :=
  forall seg st, In seg segs -> st_ok st -> exists st1, reserve or st (length seg) = inr st1.
Lemma room_success or segs : (forall k, or k = true) -> room or segs.
Proof.
  intros H seg st _ _. unfold reserve. destruct (Nat.ltb (p_size st) (length seg + 1)); [|eauto].
  cbv zeta. rewrite H. destruct (p_sbo st); eauto.
Qed.
Lemma room_short or p segs : short_segments (p ++ slashed segs) -> Forall (fun s => ~ In 47 s) segs -> room or segs.
Proof.
  intros S NS seg st I [_ OK]. exists st. unfold reserve. destruct (Nat.ltb_spec (p_size st) (length seg + 1)); [|reflexivity].
  exfalso. rewrite Forall_forall in NS. specialize (NS seg I).
  apply in_split in I. destruct I as (a & b & ->). unfold slashed in S. rewrite flat_map_app in S. cbn [flat_map] in S.
  specialize (S (p ++ flat_map (fun s => 47 :: s) a ++ [47]) seg (flat_map (fun s => 47 :: s) b)).
  assert (length seg <= 63)%nat; [apply S; [|exact NS]|lia].
  rewrite <- !app_assoc. cbn [app]. reflexivity.
Qed.

Lemma segment_slash a b : ~ In 47 a -> segment (a ++ 47 :: b) = (a, 47 :: b).
Proof.
  induction a as [|c a IH]; intros NI; [reflexivity|]. cbn [app segment].
  destruct (N.eqb_spec c 47) as [->|]; [contradiction NI; now left|]. rewrite IH; [reflexivity|]. intros I. apply NI. now right.
Qed.
Lemma segment_end a : ~ In 47 a -> segment a = (a, []).
Proof.
  induction a as [|c a IH]; intros NI; [reflexivity|]. cbn [segment].
  destruct (N.eqb_spec c 47) as [->|]; [contradiction NI; now left|]. rewrite IH; [reflexivity|]. intros I. apply NI. now right.
Qed.
Lemma segment_slashed seg segs : ~ In 47 seg -> segment (seg ++ slashed segs) = (seg, slashed segs).
Proof.
  intros NI. destruct segs as [|s segs]; cbn [slashed flat_map app]; [rewrite app_nil_r; now apply segment_end|now apply segment_slash].
Qed.

(** One step, for a value with distinct names and no names that start with a digit. *)
Lemma step_token or frag st cur seg tok : st_ok st -> in_range cur -> no_digit_names cur -> distinct_names cur ->
  room or [seg] -> seg_tok frag seg tok -> proper_index tok ->
  exists r st', resolve_step or frag st cur seg = Some (r, st') /\ st_ok st' /\
  ((exists w, points cur [tok] w) -> exists w, r = Some w /\ points cur [tok] w /\ forall w', points cur [tok] w' -> w' = w)
  /\ ((~ exists w, points cur [tok] w) -> r = None \/ r = Some nil_value).
Proof.
  intros OK IR ND DN RM ST PI. destruct (digit_dec seg) as [D|D].
  - destruct (arr_step or frag st cur seg D) as (r & E & R). exists r, st. split; [exact E|]. split; [exact OK|].
    assert (DT : starts_with_digit tok) by (apply (st_digit _ _ _ ST); exact D).
    destruct (PI DT) as [IP LT]. pose proof (st_index _ _ _ ST IP) as ES. subst seg.
    change (2 ^ 64) with W64 in LT. rewrite (conv_uint64_in tok 0 IP LT) in R.
    destruct cur as [ty cn|l ns|vs].
    + subst r. split; [intros (w & P); inversion P|auto].
    + subst r. split; [|auto]. intros (w & P). inversion P as [|? ? ? ? ? ? I _|]; subst. exfalso.
      destruct ND as [ND _]. rewrite Forall_forall in ND. apply (ND tok); [now apply (in_map fst) in I|exact DT].
    + destruct (N.leb_spec (N.of_nat (length vs)) (dec_value tok)).
      * subst r. split; [|auto]. intros (w & P). inversion P as [| |? ? ? ? ? _ NE _]; subst. exfalso.
        assert (N.to_nat (dec_value tok) < length vs)%nat by (apply nth_error_Some; congruence). lia.
      * destruct (nth_error vs (N.to_nat (dec_value tok))) as [v|] eqn:NE; [|apply nth_error_None in NE; lia].
        subst r. split.
        -- intros _. exists v. split; [reflexivity|]. split; [eapply P_element; [exact IP|exact NE|constructor]|].
           intros w' P. inversion P as [| |? ? ? ? ? _ NE' P']; subst. inversion P'; subst. congruence.
        -- intros N. exfalso. apply N. exists v. eapply P_element; [exact IP|exact NE|constructor].
  - assert (DT : ~ starts_with_digit tok) by (intros X; apply D; apply (st_digit _ _ _ ST); exact X).
    assert (NI : ~ int_part tok).
    { intros I. apply DT. apply int_digits in I. destruct I as [NE F]. destruct tok as [|c t]; [congruence|].
      inversion F; subst. exists c, t. auto. }
    destruct cur as [ty cn|l ns|vs].
    + exists None, st. rewrite other_step by (auto; intros; discriminate). split; [reflexivity|]. split; [exact OK|].
      split; [intros (w & P); inversion P|auto].
    + destruct (obj_step or frag st l ns seg OK) as (r & st' & E & OK' & R); [apply IR|exact D|].
      exists r, st'. split; [exact E|]. split; [exact OK'|].
      destruct (RM seg st (or_introl eq_refl) OK) as [st1 RE]. rewrite RE in R. destruct R as (_ & _ & R).
      rewrite (st_unescape _ _ _ ST) in R. destruct R as (v & -> & F). rewrite (st_null _ _ _ ST) in F.
      destruct DN as [DN _]. destruct F as [I|[NIn ->]].
      * split; [|intros N; exfalso; apply N; exists v; eapply P_member; [exact I|constructor]].
        intros _. exists v. split; [reflexivity|]. split; [eapply P_member; [exact I|constructor]|].
        intros w' P. inversion P as [|? ? ? ? ? ? I' P'|]; subst. inversion P'; subst.
        eapply (found_unique ns tok); [exact DN|left; exact I'|left; exact I].
      * split; [|auto]. intros (w & P). inversion P as [|? ? ? ? ? ? I' _|]; subst. exfalso. apply NIn.
        now apply (in_map fst) in I'.
    + exists None, st. rewrite other_step by (auto; intros; discriminate). split; [reflexivity|]. split; [exact OK|].
      split; [|auto]. intros (w & P). inversion P as [| |? ? ? ? ? I _ _]; subst. contradiction.
Qed.

Lemma points_cons v k toks w : points v (k :: toks) w <-> exists x, points v [k] x /\ points x toks w.
Proof.
  split.
  - intros P. inversion P; subst.
    + exists v0. split; [eapply P_member; [eassumption|constructor]|assumption].
    + exists v0. split; [eapply P_element; [eassumption|eassumption|constructor]|assumption].
  - intros (x & P & Q). inversion P as [|? ? ? ? ? ? I R|? ? ? ? ? I1 I2 R]; subst; inversion R; subst.
    + eapply P_member; eassumption.
    + eapply P_element; eassumption.
Qed.
Lemma points_everywhere Q v toks w : points v toks w -> everywhere Q v -> everywhere Q w.
Proof.
  induction 1 as [|? ? ? ? ? ? I P IH|? ? ? ? ? I1 I2 P IH]; intros E; auto; apply IH.
  - eapply everywhere_member; eassumption.
  - eapply everywhere_element; [exact E|]. eapply nth_error_In, I2.
Qed.
Lemma nil_points toks w : points nil_value toks w -> toks = [] /\ w = nil_value.
Proof. intros P. inversion P; subst; auto. Qed.

Lemma loop_token or frag : forall segs seg toks tok cur st fuel, (length (seg ++ slashed segs) < fuel)%nat ->
  st_ok st -> in_range cur -> no_digit_names cur -> distinct_names cur ->
  room or (seg :: segs) -> seg_tok frag seg tok -> Forall2 (seg_tok frag) segs toks ->
  Forall proper_index (tok :: toks) ->
  exists r st', resolve_loop fuel or frag st cur (seg ++ slashed segs) = Some (r, st')
  /\ (forall w, points cur (tok :: toks) w -> r = Some w)
  /\ ((~ exists w, points cur (tok :: toks) w) -> r = None \/ r = Some nil_value).
Proof.
  induction segs as [|seg' segs IH]; intros seg toks tok cur st fuel LF OK IR ND DN RM ST F PI;
    inversion F as [|? tok' ? toks' ST' F']; subst; inversion PI as [|? ? PI1 PI2]; subst;
    (destruct fuel as [|fuel]; [lia|]); cbn [resolve_loop]; rewrite segment_slashed by apply ST;
    (destruct (step_token or frag st cur seg tok OK IR ND DN) as (r & st' & E & OK' & R1 & R2);
      [intros s0 st0 [<-|[]]; apply RM; left; reflexivity|exact ST|exact PI1|]); rewrite E.
  - cbn [slashed flat_map]. exists r, st'. split; [destruct r; reflexivity|]. split.
    + intros w P. destruct R1 as (w0 & -> & _ & U); [eauto|]. f_equal. symmetry. exact (U w P).
    + exact R2.
  - destruct r as [v|].
    + change (slashed (seg' :: segs)) with (47 :: seg' ++ slashed segs). cbv beta iota.
      assert (LF' : (length (seg' ++ slashed segs) < fuel)%nat).
      { change (slashed (seg' :: segs)) with (47 :: seg' ++ slashed segs) in LF. rewrite app_length in LF. cbn [length] in LF. lia. }
      assert (DEC : (exists w, points cur [tok] w) \/ ~ exists w, points cur [tok] w).
      { clear -PI1 IR. destruct cur as [ty cn|l ns|vs].
        - right. intros (w & P). inversion P.
        - destruct (in_dec (list_eq_dec N.eq_dec) tok (map fst ns)) as [I|NI].
          + left. apply in_map_iff in I. destruct I as ([k v] & <- & I). exists v. eapply P_member; [exact I|constructor].
          + right. intros (w & P). inversion P; subst. apply NI. match goal with X : In (tok, _) ns |- _ => now apply (in_map fst) in X end.
        - destruct (digit_dec tok) as [D|D].
          + destruct (PI1 D) as [IP _]. destruct (nth_error vs (N.to_nat (dec_value tok))) as [v|] eqn:NE.
            * left. exists v. eapply P_element; [exact IP|exact NE|constructor].
            * right. intros (w & P). inversion P; subst. congruence.
          + right. intros (w & P). inversion P as [| |? ? ? ? ? I _ _]; subst. apply D.
            apply int_digits in I. destruct I as [NE F]. destruct tok as [|c t]; [congruence|]. inversion F; subst. exists c, t. auto. }
      destruct DEC as [Y|N].
      * destruct (R1 Y) as (w0 & X & P0 & U). injection X as <-.
        destruct (IH seg' toks' tok' v st' fuel) as (r2 & st2 & E2 & A & B); auto.
        -- exact (points_everywhere _ _ _ _ P0 IR).
        -- exact (points_everywhere _ _ _ _ P0 ND).
        -- exact (points_everywhere _ _ _ _ P0 DN).
        -- intros s0 st0 I. apply RM. right. exact I.
        -- exists r2, st2. split; [exact E2|]. split.
           ++ intros w P. apply points_cons in P. destruct P as (x & P1 & P2). rewrite (U x P1) in P2. exact (A w P2).
           ++ intros NN. apply B. intros (w & P). apply NN. exists w. apply points_cons. eauto.
      * destruct (R2 N) as [X|X]; [discriminate|]. injection X as ->.
        destruct (IH seg' toks' tok' nil_value st' fuel) as (r2 & st2 & E2 & A & B); auto.
        -- exact I.
        -- exact I.
        -- exact I.
        -- intros s0 st0 I. apply RM. right. exact I.
        -- exists r2, st2. split; [exact E2|]. split.
           ++ intros w P. apply points_cons in P. destruct P as (x & P1 & P2). exfalso. apply N. eauto.
           ++ intros _. apply B. intros (w & P). apply nil_points in P. destruct P as [P _]. discriminate.
    + exists None, st'. split; [reflexivity|]. split; [|auto].
      intros w P. apply points_cons in P. destruct P as (x & P1 & P2). destruct R1 as (w0 & X & _); [eauto|]. discriminate.
Qed.

(** ** Pointers *)
Definition good (v : qv) : Prop := in_range v /\ no_digit_names v /\ distinct_names v.

Lemma resolve_segments or v frag segs toks : good v -> nonzero (slashed segs) -> Forall2 (seg_tok frag) segs toks ->
  Forall proper_index toks -> room or segs ->
  exists r es, resolve or v (if frag then 35 :: slashed segs else slashed segs) = Some (r, es)
  /\ (forall w, points v toks w -> r = w)
  /\ ((~ exists w, points v toks w) -> r = nil_value).
Proof.
  intros (IR & ND & DN) Z F PI RM. rewrite resolve_eq. cbv zeta.
  assert (C : cstr (if frag then 35 :: slashed segs else slashed segs) = if frag then 35 :: slashed segs else slashed segs).
  { apply cstr_nonzero. destruct frag; [constructor; [lia|exact Z]|exact Z]. }
  rewrite C.
  assert (X : forall r st', (match snd (segment (slashed segs)) with
     | [] => Some (Some v, init_state)
     | _ :: s => resolve_loop (S (length s)) or frag init_state v s
     end) = Some (r, st') -> exists r' es,
     (' (r, st) <- (match snd (segment (match (if frag then 35 :: slashed segs else slashed segs) with 35 :: t => t | _ => if frag then 35 :: slashed segs else slashed segs end)) with
     | [] => Some (Some v, init_state)
     | _ :: s => resolve_loop (S (length s)) or (match (if frag then 35 :: slashed segs else slashed segs) with 35 :: _ => true | _ => false end) init_state v s
     end);; Some (match r with Some w => w | None => nil_value end, rev (if p_sbo st then p_events st else EFree :: p_events st))) = Some (r', es)
     /\ r' = match r with Some w => w | None => nil_value end).
  { intros r st' E. destruct frag; [rewrite E; eauto|]. destruct segs as [|sg segs]; [|]; cbn [slashed flat_map app] in E |- *; rewrite E; eauto. }
  destruct segs as [|seg segs]; inversion F as [|? tok ? toks' ST F']; subst.
  - destruct (X (Some v) init_state eq_refl) as (r' & es & E & ->). exists v, es. split; [exact E|]. split.
    + intros w P. now inversion P.
    + intros N. exfalso. apply N. exists v. constructor.
  - destruct (loop_token or frag segs seg toks' tok v init_state (S (length (seg ++ slashed segs)))) as (r & st' & E & A & B); auto.
    + apply init_ok.
    + destruct (X r st' E) as (r' & es & E' & ->). eexists. exists es. split; [exact E'|]. split.
      * intros w P. now rewrite (A w P).
      * intros N. destruct (B N) as [->| ->]; reflexivity.
Qed.

(** ** Texts *)
Lemma same_length {A B} (R : A -> B -> Prop) l m : Forall2 R l m -> Nat.eqb (length l) (length m) = true.
Proof. induction 1; [reflexivity|exact IHForall2]. Qed.
Lemma repr_of_jv str t : forall v, JsonSpec.repr str t v -> exists q, of_jv v = Some q.
Proof.
  induction t as [ty s|raw|ms IH|vs IH] using JsonStream.tree_ind'; intros v R; inversion R; subst.
  - eexists. reflexivity.
  - eexists. reflexivity.
  - cbn [of_jv]. match goal with X : Forall2 _ ms ns |- _ => rename X into F end.
    rewrite (same_length _ _ _ F).
    clear R. assert (G : exists l, (fix go l := match l with
                           | [] => Some []
                           | (k, x) :: l => y <- of_jv x;; r <- go l;; Some ((k, y) :: r)
                           end) ns = Some l).
    { induction F as [|[k x] [k' x'] ms ns [E H] F IHF]; [eexists; reflexivity|]. inversion IH as [|? ? IH1 IH2]; subst.
      cbn [fst snd] in *. destruct (IH1 _ H) as [q Q]. rewrite Q. destruct (IHF IH2) as [l L]. rewrite L. eexists. reflexivity. }
    destruct G as [l ->]. eexists. reflexivity.
  - cbn [of_jv]. match goal with X : Forall2 _ vs ns |- _ => rename X into F end.
    rewrite (same_length _ _ _ F).
    clear R. assert (G : exists l, (fix go l := match l with
                           | [] => Some []
                           | x :: l => y <- of_jv x;; r <- go l;; Some (y :: r)
                           end) ns = Some l).
    { induction F as [|x x' vs ns H F IHF]; [eexists; reflexivity|]. inversion IH as [|? ? IH1 IH2]; subst.
      destruct (IH1 _ H) as [q Q]. rewrite Q. destruct (IHF IH2) as [l L]. rewrite L. eexists. reflexivity. }
    destruct G as [l ->]. eexists. reflexivity.
Qed.

(** A value that represents a tree. *)
Inductive qrepr (str : list N -> list N -> Prop) : tree -> qv -> Prop :=
| QR_scalar ty s : qrepr str (Scalar ty s) (QContent ty (Some s))
| QR_string raw o : str raw o -> qrepr str (Str raw) (QContent JsonModel.YString (Some o))
| QR_object ms ns : Forall2 (fun m n => fst m = fst n /\ qrepr str (snd m) (snd n)) ms ns ->
    qrepr str (Obj ms) (QObject 0 ns)
| QR_array vs ns : Forall2 (qrepr str) vs ns -> qrepr str (Arr vs) (QArray ns).

Lemma repr_qrepr str t : forall v, JsonSpec.repr str t v -> forall q, of_jv v = Some q -> qrepr str t q.
Proof.
  induction t as [ty s|raw|ms IH|vs IH] using JsonStream.tree_ind'; intros v R; inversion R; subst; intros q Q.
  - injection Q as <-. constructor.
  - injection Q as <-. now constructor.
  - cbn [of_jv] in Q. match goal with X : Forall2 _ ms ns |- _ => rename X into F end.
    destruct (Nat.eqb (length ms) (length ns)); [|discriminate].
    set (go := (fix go l := match l with
                           | [] => Some []
                           | (k, x) :: l => y <- of_jv x;; r <- go l;; Some ((k, y) :: r)
                           end)) in *.
    destruct (go ns) as [l|] eqn:G; [|discriminate]. injection Q as <-. constructor. clear R.
    revert l G. induction F as [|[k x] [k' x'] ms ns [E H] F IHF]; intros l G.
    + cbn in G. injection G as <-. constructor.
    + inversion IH as [|? ? IH1 IH2]; subst. cbn [fst snd] in *. cbn [go] in G. fold go in G.
      destruct (of_jv x') as [y|] eqn:Y; [|discriminate]. destruct (go ns) as [r|]; [|discriminate]. injection G as <-.
      constructor; [cbn [fst snd]; split; [exact E|exact (IH1 _ H _ Y)]|exact (IHF IH2 r eq_refl)].
  - cbn [of_jv] in Q. match goal with X : Forall2 _ vs ns |- _ => rename X into F end.
    destruct (Nat.eqb (length vs) (length ns)); [|discriminate].
    set (go := (fix go l := match l with
                           | [] => Some []
                           | x :: l => y <- of_jv x;; r <- go l;; Some (y :: r)
                           end)) in *.
    destruct (go ns) as [l|] eqn:G; [|discriminate]. injection Q as <-. constructor. clear R.
    revert l G. induction F as [|x x' vs ns H F IHF]; intros l G.
    + cbn in G. injection G as <-. constructor.
    + inversion IH as [|? ? IH1 IH2]; subst. cbn [go] in G. fold go in G.
      destruct (of_jv x') as [y|] eqn:Y; [|discriminate]. destruct (go ns) as [r|]; [|discriminate]. injection G as <-.
      constructor; [exact (IH1 _ H _ Y)|exact (IHF IH2 r eq_refl)].
Qed.

Lemma qrepr_names str (ms : list (list N * tree)) (ns : list (list N * qv)) : Forall2 (fun m n => fst m = fst n /\ qrepr str (snd m) (snd n)) ms ns ->
  map fst ms = map fst ns.
Proof. induction 1 as [|m n ms ns [E _] _ IH]; [reflexivity|]. cbn [map]. congruence. Qed.

(** What holds of the names everywhere in the tree holds everywhere in the value. *)
Lemma qrepr_everywhere str (P : list (list N) -> Prop) (Q : nat -> list (list N * qv) -> Prop) :
  (forall ns, P (map fst ns) -> Q O ns) ->
  forall t q, qrepr str t q -> tree_everywhere (fun ms => P (map fst ms)) t -> everywhere Q q.
Proof.
  intros PQ t. induction t as [ty s|raw|ms IH|vs IH] using JsonStream.tree_ind'; intros q R T; inversion R; subst; try exact I.
  - match goal with X : Forall2 _ ms ns |- _ => rename X into F end. cbn [tree_everywhere everywhere] in *. destruct T as [T1 T2].
    split; [apply PQ; rewrite <- (qrepr_names _ _ _ F); exact T1|]. clear R T1.
    induction F as [|m n ms ns [E H] F IHF]; [exact I|]. inversion IH as [|? ? IH1 IH2]; subst. cbn [fold_right] in *.
    destruct T2 as [T2 T3]. split; [exact (IH1 _ H T2)|exact (IHF IH2 T3)].
  - match goal with X : Forall2 _ vs ns |- _ => rename X into F end. cbn [tree_everywhere everywhere] in *. clear R.
    induction F as [|m n vs ns H F IHF]; [exact I|]. inversion IH as [|? ? IH1 IH2]; subst. cbn [fold_right] in *.
    destruct T as [T2 T3]. split; [exact (IH1 _ H T2)|exact (IHF IH2 T3)].
Qed.
Lemma tree_everywhere_impl (P Q : list (list N * tree) -> Prop) : (forall ms, P ms -> Q ms) ->
  forall t, tree_everywhere P t -> tree_everywhere Q t.
Proof.
  intros PQ t. induction t as [ty s|raw|ms IH|vs IH] using JsonStream.tree_ind'; cbn [tree_everywhere]; auto.
  - intros [A B]. split; [auto|]. clear A. induction ms as [|m ms IHm]; [exact I|]. inversion IH as [|? ? IH1 IH2]; subst.
    cbn [fold_right] in *. destruct B as [B1 B2]. split; [exact (IH1 B1)|exact (IHm IH2 B2)].
  - intros B. induction vs as [|m vs IHm]; [exact I|]. inversion IH as [|? ? IH1 IH2]; subst.
    cbn [fold_right] in *. destruct B as [B1 B2]. split; [exact (IH1 B1)|exact (IHm IH2 B2)].
Qed.
Lemma tree_everywhere_true t : tree_everywhere (fun _ => True) t.
Proof.
  induction t as [ty s|raw|ms IH|vs IH] using JsonStream.tree_ind'; cbn [tree_everywhere]; auto.
  - split; [exact I|]. induction IH; cbn [fold_right]; auto.
  - induction IH; cbn [fold_right]; auto.
Qed.

Lemma qrepr_good str t q : qrepr str t q -> simple_names t -> good q.
Proof.
  intros R S. unfold simple_names in S. split; [|split].
  - apply (qrepr_everywhere str (fun _ => True) _ (fun ns _ => Nat.le_0_l _) t q R). apply tree_everywhere_true.
  - apply (qrepr_everywhere str (fun l => Forall (fun n => ~ starts_with_digit n) l) _ (fun ns H => H) t q R).
    revert S. apply tree_everywhere_impl. intros ms [_ H]. revert H. apply Forall_impl. tauto.
  - apply (qrepr_everywhere str (fun l => NoDup l) _ (fun ns H => H) t q R).
    revert S. apply tree_everywhere_impl. tauto.
Qed.

Lemma unescape_plain raw k : JsonSpec.unescape raw k -> ~ In 92 raw -> raw = k.
Proof.
  induction 1 as [|c s o _ _ _ _ IH|e x s o _ _ IH|v us t bs s o U16 UE U8 _ IH]; intros NI.
  - reflexivity.
  - f_equal. apply IH. intros I. apply NI. now right.
  - contradiction NI. now left.
  - exfalso. destruct U16; inversion UE; subst; apply NI; cbn [app In]; now left.
Qed.
Lemma tree_everywhere_member P ms raw v : tree_everywhere P (Obj ms) -> In (raw, v) ms -> tree_everywhere P v.
Proof.
  intros [_ H] I. induction ms as [|[k' v'] ms IH]; [destruct I|]. cbn [fold_right snd] in H. destruct H as [H1 H2].
  destruct I as [E|I]; [injection E as -> ->; exact H1|exact (IH H2 I)].
Qed.
Lemma tree_everywhere_element P vs v : tree_everywhere P (Arr vs) -> In v vs -> tree_everywhere P v.
Proof.
  cbn [tree_everywhere]. intros H I. induction vs as [|v' vs IH]; [destruct I|]. cbn [fold_right] in H. destruct H as [H1 H2].
  destruct I as [->|I]; [exact H1|exact (IH H2 I)].
Qed.
Lemma Forall2_nth {A B} (R : A -> B -> Prop) l m i x : Forall2 R l m -> nth_error l i = Some x ->
  exists y, nth_error m i = Some y /\ R x y.
Proof.
  intros F. revert i. induction F as [|a b l m H F IH]; intros [|i] E; try discriminate.
  - injection E as <-. exists b. auto.
  - exact (IH i E).
Qed.
Lemma qrepr_points str t toks t' : tpoints t toks t' -> simple_names t -> forall q, qrepr str t q ->
  exists q', points q toks q' /\ qrepr str t' q'.
Proof.
  induction 1 as [t|ms raw k v toks w I U P IH|vs k v toks w IP NE P IH]; intros S q R.
  - exists q. split; [constructor|exact R].
  - inversion R as [| |? ns F|]; subst.
    assert (RK : raw = k).
    { apply (unescape_plain _ _ U). destruct S as [[_ S] _]. rewrite Forall_forall in S.
      apply (S raw). now apply (in_map fst) in I. }
    subst k. pose proof I as I0. apply In_nth_error in I. destruct I as [i I]. destruct (Forall2_nth _ _ _ _ _ F I) as ([k' q1] & N & E & R1).
    cbn [fst snd] in *. subst k'. destruct (IH (tree_everywhere_member _ _ _ _ S I0) q1 R1) as (q' & P' & R').
    exists q'. split; [|exact R']. eapply P_member; [|exact P']. eapply nth_error_In, N.
  - inversion R as [| | |? ns F]; subst.
    destruct (Forall2_nth _ _ _ _ _ F NE) as (q1 & N & R1).
    destruct (IH (tree_everywhere_element _ _ _ S (nth_error_In _ _ NE)) q1 R1) as (q' & P' & R').
    exists q'. split; [|exact R']. eapply P_element; eassumption.
Qed.
