(** The lexical level of the reader: quoted strings, numbers, literals, whitespace. *)
From Coq Require Import Arith NArith List Bool Lia ZifyBool ZifyNat ZifyN.
From Verif Require Import Base UniSpec JsonModel JsonSpec JsonString.
Import ListNotations.
Local Open Scope N_scope.

(** [took r u r']: going from [r] to [r'] consumed the bytes [u]. *)
Definition took (r : reader) (u : list N) (r' : reader) : Prop :=
  rest r = u ++ rest r' /\ off r' = (off r + length u)%nat /\ root r' = root r /\ err r' = err r.

Lemma took_refl r : took r [] r.
Proof. unfold took. cbn. repeat split; lia. Qed.

Lemma took_trans r u r1 v r2 : took r u r1 -> took r1 v r2 -> took r (u ++ v) r2.
Proof.
  intros (A1 & A2 & A3 & A4) (B1 & B2 & B3 & B4). unfold took.
  rewrite A1, B1, B2, A2, B3, A3, B4, A4, app_length, <- app_assoc. repeat split; lia.
Qed.

(** ** Spans *)

Lemma span_spec p s a b : span p s = (a, b) ->
  s = a ++ b /\ forallb p a = true /\ (b = [] \/ exists c t, b = c :: t /\ p c = false).
Proof.
  revert a b. induction s as [|c s IH]; intros a b E; cbn [span] in E.
  - injection E as <- <-. auto.
  - destruct (p c) eqn:P.
    + destruct (span p s) as [a' b'] eqn:F. injection E as <- <-.
      destruct (IH a' b' eq_refl) as (-> & A & B). cbn [app forallb]. rewrite P. auto.
    + injection E as <- <-. split; [reflexivity|]. split; [reflexivity|]. right. eauto.
Qed.

Lemma span_app p a b : forallb p a = true -> (match b with [] => True | c :: _ => p c = false end) ->
  span p (a ++ b) = (a, b).
Proof.
  intros A B. induction a as [|c a IH]; cbn [app span].
  - destruct b as [|c b]; [reflexivity|]. cbn [span]. now rewrite B.
  - cbn [forallb] in A. apply andb_true_iff in A. destruct A as [-> A]. now rewrite (IH A).
Qed.

Lemma adv_while_spec p r : exists a, forallb p a = true /\ took r a (adv_while p r)
  /\ (rest (adv_while p r) = [] \/ exists c t, rest (adv_while p r) = c :: t /\ p c = false)
  /\ last (adv_while p r) = last r /\ vt (adv_while p r) = vt r
  /\ curo (adv_while p r) = curo r /\ curn (adv_while p r) = curn r
  /\ (forall c t, rest r = c :: t -> p c = true -> a <> []).
Proof.
  unfold adv_while. destruct (span p (rest r)) as [a b] eqn:E.
  pose proof (span_spec _ _ _ _ E) as (E1 & A & B).
  exists a. unfold took. cbn. repeat split; auto.
  intros c t R P ->. rewrite R in E1. cbn in E1. destruct B as [->|(c' & t' & -> & B)]; congruence.
Qed.

Lemma adv_while_app p r a b : rest r = a ++ b -> forallb p a = true ->
  (match b with [] => True | c :: _ => p c = false end) ->
  adv_while p r = set_pos r b (off r + length a) (line r) (col r + length a).
Proof. intros E A B. unfold adv_while. now rewrite E, span_app. Qed.

Lemma isdigit_spec c : isdigit c = true <-> digit c.
Proof. unfold isdigit, digit. lia. Qed.
Lemma forallb_digits a : forallb isdigit a = true <-> Forall digit a.
Proof.
  rewrite forallb_forall, Forall_forall. split; intros H x X; apply H in X; now apply isdigit_spec.
Qed.
Lemma forallb_xdigits a : forallb isxdigit a = true <-> Forall (fun c => exists v, hexdigit c v) a.
Proof.
  rewrite forallb_forall, Forall_forall. split; intros H x X; apply H in X; now apply isxdigit_spec.
Qed.

(** ** Whitespace *)

Lemma is_ws_spec c : is_ws c = true <-> wsp c.
Proof. unfold is_ws, wsp. lia. Qed.

Lemma skip_ws_loop_spec s : forall o l c, exists w z l' c',
  skip_ws_loop s o l c = (z, (o + length w)%nat, l', c') /\ s = w ++ z /\ ws w
  /\ (z = [] \/ exists x t, z = x :: t /\ is_ws x = false).
Proof.
  induction s as [|x s IH]; intros o l c; cbn [skip_ws_loop].
  - exists [], [], l, c. cbn [length app]. rewrite Nat.add_0_r. repeat split; auto. constructor.
  - destruct (is_ws x) eqn:W.
    + assert (H : exists w z l' c',
        (if x =? 10 then skip_ws_loop s (S o) (S l) 0 else skip_ws_loop s (S o) l (S c))
        = (z, (S o + length w)%nat, l', c') /\ s = w ++ z /\ ws w
        /\ (z = [] \/ exists x t, z = x :: t /\ is_ws x = false)) by (destruct (x =? 10); apply IH).
      destruct H as (w & z & l' & c' & -> & -> & W' & Z). exists (x :: w), z, l', c'.
      split; [rewrite Nat.add_succ_l, <- Nat.add_succ_r; reflexivity|]. repeat split; auto. constructor; auto.
      now apply is_ws_spec.
    + exists [], (x :: s), l, c. cbn [length app]. rewrite Nat.add_0_r. repeat split; auto.
      * constructor.
      * right. eauto.
Qed.

(** The reader after whitespace. *)
Lemma skip_ws_spec r : exists w, ws w /\ took r w (skip_ws r)
  /\ (rest (skip_ws r) = [] \/ exists x t, rest (skip_ws r) = x :: t /\ is_ws x = false)
  /\ last (skip_ws r) = last r /\ vt (skip_ws r) = vt r /\ curo (skip_ws r) = curo r
  /\ curn (skip_ws r) = curn r.
Proof.
  unfold skip_ws.
  destruct (skip_ws_loop_spec (rest r) (off r) (line r) (col r)) as (w & z & l' & c' & E & R & W & Z).
  rewrite E. exists w. unfold took. cbn. repeat split; auto.
Qed.

Lemma ws_split w z w' z' : w ++ z = w' ++ z' -> ws w -> ws w' ->
  (z = [] \/ exists x t, z = x :: t /\ is_ws x = false) ->
  (z' = [] \/ exists x t, z' = x :: t /\ is_ws x = false) -> w = w' /\ z = z'.
Proof.
  revert w'. induction w as [|a w IH]; intros w' E W W' Z Z'.
  - destruct w' as [|b w']; [auto|]. cbn [app] in E. subst z. exfalso.
    inversion W'; subst. destruct Z as [Z|(x & t & Z & Z2)]; [discriminate|].
    assert (b = x) by congruence. apply is_ws_spec in H1. congruence.
  - destruct w' as [|b w'].
    + cbn [app] in E. subst z'. exfalso. inversion W; subst.
      destruct Z' as [Z'|(x & t & Z' & Z2)]; [discriminate|].
      assert (a = x) by congruence. apply is_ws_spec in H1. congruence.
    + cbn [app] in E. assert (a = b) by congruence. assert (w ++ z = w' ++ z') by congruence. subst b.
      inversion W; inversion W'; subst. destruct (IH w') as [-> ->]; auto.
Qed.

Lemma skip_ws_app r w z : rest r = w ++ z -> ws w ->
  (z = [] \/ exists x t, z = x :: t /\ is_ws x = false) ->
  rest (skip_ws r) = z /\ took r w (skip_ws r).
Proof.
  intros R W Z. destruct (skip_ws_spec r) as (w' & W' & T & Z' & _).
  pose proof T as (T1 & _). rewrite R in T1.
  destruct (ws_split _ _ _ _ T1 W W' Z Z') as [-> <-]. auto.
Qed.

(** ** Quoted strings *)

Lemma read_quoted_cases fl r s : N.testbit fl bEscapedMultiline = false -> rest r = 34 :: s ->
  exists ok r', read_quoted fl r = Some (ok, r')
  /\ (if ok then exists raw o, unescape raw o /\ took r (quoted raw) r' /\ last r' = last r
                  /\ curo r' = Some (S (off r)) /\ curn r' = length raw
      else err r' <> JOk /\ last r' = last r /\ root r' = root r).
Proof.
  intros M R. unfold read_quoted. rewrite R. cbn [N.eqb Pos.eqb orb].
  destruct (find_char_unescaped s 34) as [[body after]|] eqn:F.
  - apply find_sound in F. destruct F as (z & -> & -> & ES & NQ). rewrite M.
    destruct (valid_string_total (N.testbit fl bExtendedWhitespace) (S (length body)) body
                (Nat.lt_succ_diag_r _) ES NQ) as [b V].
    rewrite V. destruct b; do 2 eexists; split; try reflexivity.
    + destruct (valid_string_sound _ _ _ NQ V) as [o U].
      exists body, o. unfold took, quoted. cbn -[Nat.add].
      split; auto. split; [|auto]. split; [|split; [|auto]].
      * rewrite R. cbn [app]. f_equal. now rewrite <- app_assoc.
      * cbn [length]. rewrite app_length. cbn [length]. lia.
    + cbn. repeat split; auto. discriminate.
  - do 2 eexists. split; [reflexivity|]. cbn. repeat split; auto. discriminate.
Qed.

Lemma read_quoted_complete fl r raw o z : N.testbit fl bEscapedMultiline = false ->
  unescape raw o -> rest r = quoted raw ++ z ->
  exists r', read_quoted fl r = Some (true, r') /\ rest r' = z /\ took r (quoted raw) r'
    /\ last r' = last r /\ curo r' = Some (S (off r)) /\ curn r' = length raw.
Proof.
  intros M U R. unfold quoted in R. cbn [app] in R. rewrite <- app_assoc in R.
  unfold read_quoted. rewrite R. cbn [N.eqb Pos.eqb orb app].
  destruct (unescape_scan _ _ U) as [NQ ES].
  rewrite (find_complete 34 raw z NQ ES), M.
  rewrite (valid_string_complete _ _ _ U) by lia.
  eexists. split; [reflexivity|]. unfold took, quoted. cbn -[Nat.add].
  repeat split; auto.
  - rewrite R. cbn [app]. now rewrite <- app_assoc.
  - cbn [length]. rewrite app_length. cbn [length]. lia.
Qed.

(** ** Numbers *)

(** What the number functions keep of the reader. *)
Definition kept (r r' : reader) : Prop := last r' = last r /\ curo r' = curo r /\ curn r' = curn r.
Lemma kept_refl r : kept r r. Proof. repeat split. Qed.
Lemma kept_trans a b c : kept a b -> kept b c -> kept a c.
Proof. unfold kept. intuition congruence. Qed.

Lemma advance_took r c t : rest r = c :: t -> took r [c] (advance r) /\ kept r (advance r)
  /\ vt (advance r) = vt r /\ rest (advance r) = t.
Proof. intro R. unfold took, kept, advance. cbn. rewrite R. cbn. repeat split; auto; lia. Qed.

Lemma number_exp_cases dot trail r :
  match number_exp true dot trail r with
  | None => exists e sg, rest r = e :: sg /\ (e = 101 \/ e = 69) /\ (sg = [] \/ sg = [43] \/ sg = [45])
  | Some (true, r') => exists u r0, took r u r0 /\ kept r r0 /\ r' = cur_end r0
      /\ ((u = [] /\ vt r0 = vt r /\ match rest r with c :: _ => c <> 101 /\ c <> 69 | [] => True end)
          \/ (exp_part u /\ vt r0 = YFloat
              /\ match rest r0 with c :: _ => isdigit c = false | [] => True end))
  | Some (false, r') => err r' <> JOk /\ root r' = root r /\ last r' = last r
  end.
Proof.
  unfold number_exp, number_end. cbn [negb andb].
  destruct (rest r) as [|e s] eqn:R.
  { exists [], r. split; [apply took_refl|]. split; [apply kept_refl|]. auto. }
  destruct ((e =? 101) || (e =? 69)) eqn:E.
  2:{ exists [], r. split; [apply took_refl|]. split; [apply kept_refl|]. split; [reflexivity|].
      left. repeat split; auto; lia. }
  assert (Ee : e = 101 \/ e = 69) by lia.
  rewrite andb_false_r.
  set (r1 := advance (set_vt r YFloat)).
  assert (T1 : took r [e] r1).
  { unfold r1, took, advance. cbn. rewrite R. cbn. repeat split; auto; lia. }
  assert (K1 : kept r r1) by (unfold r1, kept, advance; cbn; auto).
  assert (V1 : vt r1 = YFloat) by reflexivity.
  assert (R1 : rest r1 = s) by (unfold r1, advance; cbn; rewrite R; reflexivity).
  clearbody r1. unfold peek at 1. rewrite R1.
  destruct s as [|c s].
  { exists e, []. auto. }
  assert (H : exists sg r2, (if (c =? 43) || (c =? 45) then advance r1 else r1) = r2
            /\ took r1 sg r2 /\ kept r1 r2 /\ vt r2 = vt r1 /\ (sg = [] \/ sg = [43] \/ sg = [45])).
  { destruct ((c =? 43) || (c =? 45)) eqn:C.
    - exists [c], (advance r1). destruct (advance_took r1 _ _ R1) as (A & B & D & _).
      split; [reflexivity|]. split; [auto|]. split; [auto|]. split; [auto|].
      right. assert (c = 43 \/ c = 45) as [-> | ->] by lia; auto.
    - exists [], r1. split; [reflexivity|]. split; [apply took_refl|].
      split; [apply kept_refl|]. auto. }
  destruct H as (sg & r2 & -> & T2 & K2 & V2 & SG).
  unfold peek. destruct (rest r2) as [|c2 s2] eqn:R2.
  { exists e, sg. destruct T2 as (T2 & _). rewrite R1, R2, app_nil_r in T2. rewrite T2. auto. }
  destruct (isdigit c2) eqn:D; cbn [negb].
  - destruct (adv_while_spec isdigit r2) as (ds & A & T3 & Z & L3 & V3 & C3 & N3 & NE).
    exists ((e :: sg) ++ ds), (adv_while isdigit r2).
    split; [|split; [|split; [reflexivity|]]].
    + change (e :: sg) with ([e] ++ sg). apply took_trans with r2; auto.
      apply took_trans with r1; auto.
    + apply kept_trans with r1; auto. apply kept_trans with r2; auto. unfold kept. auto.
    + right. split; [|split].
      * exists e, sg, ds. repeat split; auto.
        -- apply (NE _ _ R2 D).
        -- now apply forallb_digits.
      * congruence.
      * destruct Z as [->|(c' & t' & -> & Z)]; auto.
  - cbn. destruct T1 as (_ & _ & A & _), T2 as (_ & _ & B & _), K1 as (C & _), K2 as (D' & _).
    split; [discriminate|]. split; congruence.
Qed.

Lemma took_last_digit r u r' : took r u r' -> Forall digit u -> u <> [] ->
  exists p d, rest r = p ++ d :: rest r' /\ digit d.
Proof.
  intros (T & _) F N. destruct (exists_last N) as (p & d & ->).
  apply Forall_app in F. destruct F as [_ F]. inversion F; subst.
  exists p, d. rewrite T, <- app_assoc. auto.
Qed.

Lemma number_frac_cases fl r : N.testbit fl bLeadTrailPoint = false ->
  match number_frac fl true r with
  | None => exists p e sg, rest r = p ++ e :: sg /\ (e = 101 \/ e = 69)
              /\ (sg = [] \/ sg = [43] \/ sg = [45])
              /\ (p = [] \/ exists p' d, p = p' ++ [d] /\ digit d)
  | Some (true, r') => exists f e r0, took r (f ++ e) r0 /\ kept r r0 /\ r' = cur_end r0
      /\ (f = [] \/ frac_part f) /\ (e = [] \/ exp_part e)
      /\ vt r0 = (if match f, e with [], [] => true | _, _ => false end then vt r else YFloat)
  | Some (false, r') => err r' <> JOk /\ root r' = root r /\ last r' = last r
  end.
Proof.
  intro PF. unfold number_frac.
  destruct (rest r) as [|c s] eqn:R.
  { pose proof (number_exp_cases false false r) as H. rewrite R in H.
    destruct (number_exp true false false r) as [[[|] r']|]; auto.
    - destruct H as (u & r0 & T & K & -> & H). exists [], u, r0. cbn [app].
      destruct H as [(-> & V & _)|(X & V & _)]; repeat split; auto.
      + apply T. + apply T. + apply T. + apply T. + apply K. + apply K. + apply K.
      + apply T. + apply T. + apply T. + apply T. + apply K. + apply K. + apply K.
      + destruct X as (e & sg & ds & -> & _). exact V.
    - destruct H as (e & sg & H & _). discriminate. }
  destruct (c =? 46) eqn:C.
  2:{ pose proof (number_exp_cases false false r) as H.
      destruct (number_exp true false false r) as [[[|] r']|]; auto.
      - destruct H as (u & r0 & T & K & -> & H). exists [], u, r0. cbn [app].
        split; [auto|]. split; [auto|]. split; [auto|]. split; [auto|].
        destruct H as [(-> & V & _)|(X & V & _)]; split; auto.
        destruct X as (e & sg & ds & -> & _). exact V.
      - destruct H as (e & sg & H & E1 & E2). exists [], e, sg. rewrite <- R. auto. }
  apply N.eqb_eq in C. subst c.
  set (r1 := advance (set_vt r YFloat)).
  assert (T1 : took r [46] r1).
  { unfold r1, took, advance. cbn. rewrite R. cbn. repeat split; auto; lia. }
  assert (K1 : kept r r1) by (unfold r1, kept, advance; cbn; auto).
  assert (V1 : vt r1 = YFloat) by reflexivity.
  assert (R1 : rest r1 = s) by (unfold r1, advance; cbn; rewrite R; reflexivity).
  clearbody r1. rewrite R1, PF.
  destruct s as [|d s].
  { cbn. destruct T1 as (_ & _ & A & _), K1 as (B & _). split; [discriminate|auto]. }
  destruct (isdigit d) eqn:D.
  2:{ cbn. destruct T1 as (_ & _ & A & _), K1 as (B & _). split; [discriminate|auto]. }
  destruct (adv_while_spec isdigit r1) as (ds & A & T2 & Z & L2 & V2 & C2 & N2 & NE).
  specialize (NE _ _ R1 D). apply forallb_digits in A.
  pose proof (number_exp_cases true true (adv_while isdigit r1)) as H.
  destruct (number_exp true true true (adv_while isdigit r1)) as [[[|] r']|].
  - destruct H as (u & r0 & T & K & -> & H). exists (46 :: ds), u, r0.
    split; [|split; [|split; [reflexivity|split; [|split]]]].
    + apply took_trans with (adv_while isdigit r1); auto.
      change (46 :: ds) with ([46] ++ ds). apply took_trans with r1; auto.
    + apply kept_trans with r1; auto. apply kept_trans with (adv_while isdigit r1); auto.
      unfold kept. auto.
    + right. exists ds. split; [reflexivity|]. split; auto.
    + destruct H as [(-> & _)|(X & _)]; auto.
    + destruct H as [(-> & V & _)|(X & V & _)]; congruence.
  - destruct T1 as (_ & _ & A1 & _), K1 as (B1 & _), T2 as (_ & _ & A2 & _).
    destruct H as (H1 & H2 & H3). repeat split; auto; congruence.
  - destruct H as (e & sg & H & E1 & E2).
    destruct (exists_last NE) as (p & x & ->). apply Forall_app in A. destruct A as [_ A].
    inversion A; subst. exists (46 :: p ++ [x]), e, sg.
    split; [|split; [auto|split; [auto|]]].
    + destruct T1 as (T1 & _), T2 as (T2 & _). rewrite <- R, T1, T2, H. cbn [app]. reflexivity.
    + right. exists (46 :: p), x. auto.
Qed.

(** Which text [readNumber] takes for a number, if it does not read beyond the buffer.  At the end
    of the buffer, an integer whose first digit is not 0 is accepted without setting the size of
    the current token. *)
Lemma read_number_cases fl r : N.testbit fl bLeadTrailPoint = false ->
  match read_number fl r with
  | None => open_exponent (rest r)
  | Some (true, r') => exists u tk ty, number (dialect_of fl) u tk ty /\ took r u r'
      /\ last r' = TValue /\ vt r' = ty
      /\ exists k, u = k ++ tk /\ curo r' = Some (off r + length k)%nat
      /\ (curn r' = length tk \/ (curn r' = curn r /\ rest r' = []))
  | Some (false, r') => err r' <> JOk /\ root r' = root r
  end.
Proof.
  intro PF. unfold read_number.
  destruct (rest r) as [|c0 s0] eqn:R.
  { cbn. split; [discriminate|reflexivity]. }
  set (r1 := set_cur (set_last (set_vt r YUInt) TValue) (Some (off r)) (curn r)).
  assert (H : exists sg r2,
      (if c0 =? 45 then advance (set_vt r1 YInt)
       else if N.testbit fl bPlusSign && (c0 =? 43)
            then set_cur (advance r1) (Some (off (advance r1))) (curn (advance r1)) else r1) = r2
      /\ took r sg r2 /\ last r2 = TValue /\ curn r2 = curn r
      /\ ((sg = [] /\ vt r2 = YUInt /\ curo r2 = Some (off r))
          \/ (sg = [45] /\ vt r2 = YInt /\ curo r2 = Some (off r))
          \/ (sg = [43] /\ N.testbit fl bPlusSign = true /\ vt r2 = YUInt
              /\ curo r2 = Some (off r + 1)%nat))).
  { destruct (N.eqb_spec c0 45) as [->|N1].
    { exists [45]. eexists. split; [reflexivity|]. unfold took, advance. cbn. rewrite R. cbn.
      split; [repeat split; auto; lia|]. split; [auto|]. split; [auto|]. right. left. auto. }
    destruct (N.testbit fl bPlusSign) eqn:P; cbn [andb].
    - destruct (N.eqb_spec c0 43) as [->|N2].
      + exists [43]. eexists. split; [reflexivity|]. unfold took, advance. cbn. rewrite R. cbn.
        split; [repeat split; auto; lia|]. split; [auto|]. split; [auto|]. right. right. repeat split; auto. f_equal. lia.
      + exists []. eexists. split; [reflexivity|]. unfold took. cbn. repeat split; auto; lia.
    - exists []. eexists. split; [reflexivity|]. unfold took. cbn. repeat split; auto; lia. }
  destruct H as (sg & r2 & -> & T2 & L2 & C2 & SG). clear r1.
  assert (FIN : forall m i r', magnitude (dialect_of fl) m i -> took r2 m r' -> last r' = TValue ->
     vt r' = (if i then vt r2 else YFloat) -> curo r' = curo r2 ->
     (curn r' = match curo r2 with Some o => (off r' - o)%nat | None => 0%nat end
      \/ (curn r' = curn r /\ rest r' = [])) ->
     exists u tk ty, number (dialect_of fl) u tk ty /\ took r u r'
      /\ last r' = TValue /\ vt r' = ty
      /\ exists k, u = k ++ tk /\ curo r' = Some (off r + length k)%nat
      /\ (curn r' = length tk \/ (curn r' = curn r /\ rest r' = []))).
  { intros m i r' M T L V CO CN.
    assert (OF : off r' = (off r + length sg + length m)%nat).
    { destruct T as (_ & T & _), T2 as (_ & T' & _). lia. }
    destruct SG as [(-> & V2 & CO2)|[(-> & V2 & CO2)|(-> & P & V2 & CO2)]].
    - exists m, m, (if i then YUInt else YFloat). rewrite V, V2. split; [now constructor|].
      split; [exact (took_trans _ _ _ _ _ T2 T)|]. split; [auto|]. split; [destruct i; auto|].
      exists []. rewrite CO, CO2. split; [reflexivity|]. split; [f_equal; cbn; lia|].
      destruct CN as [CN|CN]; auto. left. rewrite CN, CO2. cbn [length] in OF. lia.
    - exists (45 :: m), (45 :: m), (if i then YInt else YFloat). rewrite V, V2.
      split; [now constructor|].
      split; [exact (took_trans _ _ _ _ _ T2 T)|]. split; [auto|]. split; [destruct i; auto|].
      exists []. rewrite CO, CO2. split; [reflexivity|]. split; [f_equal; cbn; lia|].
      destruct CN as [CN|CN]; auto. left. rewrite CN, CO2. cbn [length] in *. lia.
    - exists (43 :: m), m, (if i then YUInt else YFloat). rewrite V, V2.
      split; [now constructor|].
      split; [exact (took_trans _ _ _ _ _ T2 T)|]. split; [auto|]. split; [destruct i; auto|].
      exists [43]. rewrite CO, CO2. split; [reflexivity|]. split; [reflexivity|].
      destruct CN as [CN|CN]; auto. left. rewrite CN, CO2. cbn [length] in *. lia. }
  assert (FRAC : forall i r3, int_part i -> took r2 i r3 -> kept r2 r3 -> vt r3 = vt r2 ->
     match number_frac fl true r3 with
     | None => open_exponent (c0 :: s0)
     | Some (true, r') => exists u tk ty, number (dialect_of fl) u tk ty /\ took r u r'
      /\ last r' = TValue /\ vt r' = ty
      /\ exists k, u = k ++ tk /\ curo r' = Some (off r + length k)%nat
      /\ (curn r' = length tk \/ (curn r' = curn r /\ rest r' = []))
     | Some (false, r') => err r' <> JOk /\ root r' = root r
     end).
  { intros i r3 I T3 K3 V3. pose proof (number_frac_cases fl r3 PF) as H.
    assert (CO2 : exists o, curo r2 = Some o) by (destruct SG as [(_ & _ & A)|[(_ & _ & A)|(_ & _ & _ & A)]]; eauto).
    destruct CO2 as [o CO2].
    destruct (number_frac fl true r3) as [[[|] r']|].
    - destruct H as (f & e & r0 & T & K & -> & F & E & V).
      assert (T' : took r3 (f ++ e) (cur_end r0)).
      { unfold cur_end. destruct (curo r0); [|exact T]. exact T. }
      assert (CO0 : curo r0 = Some o) by (destruct K as (_ & K & _), K3 as (_ & K3 & _); congruence).
      apply (FIN (i ++ f ++ e) (match f, e with [], [] => true | _, _ => false end)).
      + destruct F as [->|F], E as [->|E]; cbn [app].
        * rewrite app_nil_r. now apply M_int.
        * destruct E as (x & sg' & ds & -> & E'). apply M_exp; auto. exists x, sg', ds. auto.
        * destruct F as (ds & -> & F'). rewrite app_nil_r. apply M_frac; auto. exists ds. auto.
        * destruct F as (ds & -> & F'). apply M_frac_exp; auto. exists ds. auto.
      + exact (took_trans _ _ _ _ _ T3 T').
      + unfold cur_end. rewrite CO0. cbn. destruct K as (K & _), K3 as (K3 & _). congruence.
      + unfold cur_end. rewrite CO0. cbn. rewrite V, V3. reflexivity.
      + unfold cur_end. rewrite CO0. cbn. auto.
      + left. unfold cur_end. rewrite CO0, CO2. reflexivity.
    - destruct H as (H1 & H2 & _). split; [auto|].
      destruct T3 as (_ & _ & A & _), T2 as (_ & _ & B & _). congruence.
    - destruct H as (p & e & sg' & H & E & S & PP).
      destruct T3 as (T3 & _), T2 as (T2 & _). rewrite R in T2. rewrite T2, T3, H.
      assert (D : exists p' d, sg ++ i ++ p = p' ++ [d] /\ digit d).
      { destruct PP as [->|(p' & d & -> & D)].
        - rewrite app_nil_r.
          assert (F : Forall digit i /\ i <> []).
          { destruct I as [->|((N & F) & _)]; [|auto]. split; [|discriminate].
            constructor; [unfold digit; lia|constructor]. }
          destruct F as [F N]. destruct (exists_last N) as (i' & d & ->).
          apply Forall_app in F. destruct F as [_ F]. inversion F; subst.
          exists (sg ++ i'), d. rewrite app_assoc. auto.
        - exists (sg ++ i ++ p'), d. rewrite !app_assoc. auto. }
      destruct D as (p' & d & Ed & D).
      exists p', d, e, sg'. split; [|auto].
      change (d :: e :: sg') with ([d] ++ e :: sg'). rewrite (app_assoc p'), <- Ed.
      rewrite <- !app_assoc. reflexivity. }
  destruct (rest r2) as [|c s] eqn:R2.
  { cbn. destruct T2 as (_ & _ & A & _). split; [discriminate|auto]. }
  assert (CO2 : exists o, curo r2 = Some o) by (destruct SG as [(_ & _ & A)|[(_ & _ & A)|(_ & _ & _ & A)]]; eauto).
  destruct CO2 as [o CO2].
  destruct (advance_took r2 _ _ R2) as (T3 & K3 & V3 & R3).
  destruct (N.eqb_spec c 48) as [->|NZ].
  { rewrite R3. destruct s as [|x s].
    { apply (FIN [48] true); auto.
      - apply M_int. left. reflexivity.
      - unfold cur_end. destruct K3 as (_ & K3 & _). rewrite K3, CO2. exact T3.
      - unfold cur_end. destruct K3 as (K3' & K3 & _). rewrite K3, CO2. cbn in *. congruence.
      - unfold cur_end. destruct K3 as (_ & K3 & _). rewrite K3, CO2. cbn in *. congruence.
      - unfold cur_end. destruct K3 as (_ & K3 & _). rewrite K3, CO2. reflexivity.
      - left. unfold cur_end. destruct K3 as (_ & K3 & _). rewrite K3, CO2. reflexivity. }
    destruct (((x =? 120) || (x =? 88)) && N.testbit fl bHexadecimal) eqn:HX.
    2:{ apply (FRAC [48]); auto. left. reflexivity. }
    destruct (advance_took _ _ _ R3) as (T4 & K4 & V4 & R4). rewrite R4.
    destruct s as [|h s].
    { cbn. destruct T2 as (_ & _ & A & _). split; [discriminate|]. exact A. }
    destruct (isxdigit h) eqn:XD; cbn [negb].
    2:{ cbn. destruct T2 as (_ & _ & A & _). split; [discriminate|]. exact A. }
    destruct (adv_while_spec isxdigit (advance (advance r2))) as (hs & A & T5 & _ & L5 & V5 & CO5 & CN5 & NE).
    specialize (NE _ _ R4 XD).
    assert (CO6 : curo (adv_while isxdigit (advance (advance r2))) = Some o).
    { destruct K3 as (_ & K3 & _), K4 as (_ & K4 & _). congruence. }
    apply (FIN (48 :: x :: hs) true).
    - apply M_hex; auto.
      + cbn. apply andb_true_iff in HX. apply HX.
      + lia.
      + now apply forallb_xdigits.
    - unfold cur_end. rewrite CO6.
      change (48 :: x :: hs) with ([48] ++ [x] ++ hs). apply took_trans with (advance r2); auto.
      apply took_trans with (advance (advance r2)); auto.
    - unfold cur_end. rewrite CO6. cbn -[adv_while]. rewrite L5. destruct K3, K4. congruence.
    - unfold cur_end. rewrite CO6. cbn -[adv_while]. congruence.
    - unfold cur_end. rewrite CO6. cbn. auto.
    - left. unfold cur_end. rewrite CO6, CO2. reflexivity. }
  destruct (isdigit c) eqn:D.
  { destruct (adv_while_spec isdigit r2) as (ds & A & T5 & _ & L5 & V5 & CO5 & CN5 & NE).
    specialize (NE _ _ R2 D). apply forallb_digits in A.
    assert (I : int_part ds).
    { right. split; [split; auto|]. destruct ds as [|d ds]; [contradiction|].
      destruct T5 as (T5 & _). rewrite R2 in T5. cbn [app hd] in *. congruence. }
    destruct (rest (adv_while isdigit r2)) as [|y ys] eqn:R5.
    - apply (FIN ds true); auto.
      + now apply M_int.
      + congruence.
      + right. split; [congruence|auto].
    - apply (FRAC ds); auto. unfold kept. auto. }
  rewrite PF. cbn [negb orb]. cbn. destruct T2 as (_ & _ & A & _). split; [discriminate|auto].
Qed.

Lemma adv_while_complete p r a b : rest r = a ++ b -> forallb p a = true ->
  (match b with [] => True | c :: _ => p c = false end) ->
  rest (adv_while p r) = b /\ took r a (adv_while p r) /\ kept r (adv_while p r)
  /\ vt (adv_while p r) = vt r.
Proof.
  intros E A B. rewrite (adv_while_app _ _ _ _ E A B). unfold took, kept. cbn. auto 10.
Qed.

(** What may follow a value. *)
Definition follow_ok (z : list N) : Prop :=
  match z with [] => True | c :: _ => wsp c \/ c = 44 \/ c = 93 \/ c = 125 end.

Lemma follow_digit z : follow_ok z -> match z with [] => True | c :: _ => isdigit c = false end.
Proof. destruct z; cbn; auto. unfold wsp, isdigit. lia. Qed.
Lemma follow_xdigit z : follow_ok z -> match z with [] => True | c :: _ => isxdigit c = false end.
Proof. destruct z; cbn; auto. unfold wsp, isxdigit, isdigit. lia. Qed.

Lemma number_exp_complete dot trail r u z : rest r = u ++ z -> u = [] \/ exp_part u -> follow_ok z ->
  exists r0, number_exp true dot trail r = Some (true, cur_end r0) /\ rest r0 = z /\ took r u r0
    /\ kept r r0 /\ vt r0 = match u with [] => vt r | _ => YFloat end.
Proof.
  intros R [->|(e & sg & ds & -> & E & S & N & D)] F.
  - exists r. cbn [app] in R. unfold number_exp, number_end. cbn [negb andb]. rewrite R.
    assert (G : match z with [] => True | c :: _ => (c =? 101) || (c =? 69) = false end)
      by (destruct z; cbn in *; unfold wsp in *; auto; lia).
    destruct z as [|c z]; [|rewrite G]; repeat split; auto; cbn; rewrite ?R; auto; lia.
  - cbn [app] in R. unfold number_exp, number_end. cbn [negb andb]. rewrite R.
    assert (G : (e =? 101) || (e =? 69) = true) by lia. rewrite G, andb_false_r.
    set (r1 := advance (set_vt r YFloat)).
    assert (T1 : took r [e] r1).
    { unfold r1, took, advance. cbn. rewrite R. cbn. repeat split; auto; lia. }
    assert (K1 : kept r r1) by (unfold r1, kept, advance; cbn; auto).
    assert (V1 : vt r1 = YFloat) by reflexivity.
    assert (R1 : rest r1 = (sg ++ ds) ++ z) by (unfold r1, advance; cbn; rewrite R; reflexivity).
    clearbody r1. rewrite <- app_assoc in R1.
    destruct ds as [|d ds]; [contradiction|].
    assert (Dd : isdigit d = true) by (inversion D; now apply isdigit_spec).
    apply forallb_digits in D.
    assert (H : exists r2 c, peek r1 = Some c /\
       (if (c =? 43) || (c =? 45) then advance r1 else r1) = r2 /\
       rest r2 = (d :: ds) ++ z /\ took r1 sg r2 /\ kept r1 r2 /\ vt r2 = vt r1).
    { destruct S as [->|S].
      - exists r1, d. unfold peek. rewrite R1. cbn [app].
        split; [reflexivity|]. unfold isdigit in Dd.
        assert (X : (d =? 43) || (d =? 45) = false) by lia. rewrite X.
        split; [reflexivity|]. split; [reflexivity|]. split; [apply took_refl|].
        split; [apply kept_refl|reflexivity].
      - assert (X : exists c, sg = [c] /\ (c =? 43) || (c =? 45) = true)
          by (destruct S as [->| ->]; eauto).
        destruct X as (c & -> & X). cbn [app] in R1. exists (advance r1), c.
        unfold peek. rewrite R1, X.
        destruct (advance_took r1 _ _ R1) as (A1 & A2 & A3 & A4). auto 10. }
    destruct H as (r2 & c & -> & -> & R2 & T2 & K2 & V2).
    unfold peek. rewrite R2. cbn [app]. rewrite Dd. cbn [negb].
    destruct (adv_while_complete isdigit r2 _ _ R2 D (follow_digit _ F)) as (R3 & T3 & K3 & V3).
    exists (adv_while isdigit r2). split; [reflexivity|]. split; [exact R3|].
    split; [|split].
    + change (e :: sg ++ d :: ds) with ([e] ++ sg ++ d :: ds).
      apply took_trans with r1; auto. apply took_trans with r2; auto.
    + apply kept_trans with r1; auto. apply kept_trans with r2; auto.
    + congruence.
Qed.

Lemma number_frac_complete fl r f e z : N.testbit fl bLeadTrailPoint = false ->
  rest r = f ++ e ++ z -> f = [] \/ frac_part f -> e = [] \/ exp_part e -> follow_ok z ->
  exists r0, number_frac fl true r = Some (true, cur_end r0) /\ rest r0 = z /\ took r (f ++ e) r0
    /\ kept r r0 /\ vt r0 = (if match f, e with [], [] => true | _, _ => false end then vt r else YFloat).
Proof.
  intros PF R [->|(ds & -> & N & D)] E F.
  - cbn [app] in *. unfold number_frac.
    assert (G : match e ++ z with [] => True | c :: _ => c =? 46 = false end).
    { destruct E as [->|(x & sg & ds & -> & X & _)]; cbn [app].
      - destruct z; cbn in *; unfold wsp in *; auto; lia.
      - lia. }
    destruct (number_exp_complete false false r e z R E F) as (r0 & E1 & E2 & E3 & E4 & E5).
    exists r0. rewrite R. rewrite E1.
    destruct (e ++ z); [|rewrite G]; (split; [reflexivity|]);
      repeat split; auto; try apply E3; try apply E4; destruct e; auto.
  - unfold number_frac. rewrite R. cbn [app]. rewrite N.eqb_refl.
    set (r1 := advance (set_vt r YFloat)).
    assert (T1 : took r [46] r1).
    { unfold r1, took, advance. cbn. rewrite R. cbn. repeat split; auto; lia. }
    assert (K1 : kept r r1) by (unfold r1, kept, advance; cbn; auto).
    assert (V1 : vt r1 = YFloat) by reflexivity.
    assert (R1 : rest r1 = ds ++ e ++ z) by (unfold r1, advance; cbn; rewrite R; reflexivity).
    clearbody r1.
    destruct ds as [|d ds]; [contradiction|].
    assert (Dd : isdigit d = true) by (inversion D; now apply isdigit_spec).
    apply forallb_digits in D. rewrite R1. cbn [app]. rewrite Dd.
    assert (G : match e ++ z with [] => True | c :: _ => isdigit c = false end).
    { destruct E as [->|(x & sg & ds' & -> & X & _)]; cbn [app].
      - now apply follow_digit.
      - unfold isdigit. lia. }
    destruct (adv_while_complete isdigit r1 _ _ R1 D G) as (R3 & T3 & K3 & V3).
    destruct (number_exp_complete true true _ e z R3 E F) as (r0 & E1 & E2 & E3 & E4 & E5).
    exists r0. split; [exact E1|]. split; [exact E2|]. split; [|split].
    + exact (took_trans _ [46] _ _ _ T1 (took_trans _ _ _ _ _ T3 E3)).
    + apply kept_trans with r1; auto. apply kept_trans with (adv_while isdigit r1); auto.
    + rewrite E5. destruct e; congruence.
Qed.

Lemma read_number_complete fl r u tk ty z : N.testbit fl bLeadTrailPoint = false ->
  number (dialect_of fl) u tk ty -> rest r = u ++ z -> follow_ok z ->
  exists r', read_number fl r = Some (true, r') /\ rest r' = z /\ took r u r' /\ last r' = TValue
    /\ vt r' = ty /\ exists k, u = k ++ tk /\ curo r' = Some (off r + length k)%nat
    /\ (z <> [] \/ ty = YFloat -> curn r' = length tk).
Proof.
  intros PF NB R F.
  assert (HX : exists sg m i, u = sg ++ m /\ magnitude (dialect_of fl) m i
    /\ ((sg = [] /\ tk = m /\ ty = if i then YUInt else YFloat)
        \/ (sg = [45] /\ tk = 45 :: m /\ ty = if i then YInt else YFloat)
        \/ (sg = [43] /\ N.testbit fl bPlusSign = true /\ tk = m /\ ty = if i then YUInt else YFloat))).
  { inversion NB; subst.
    - exists [], tk, i. auto 10.
    - exists [45], m, i. auto 10.
    - exists [43], tk, i. split; [reflexivity|]. auto 10. }
  destruct HX as (sg & m & i & -> & M & SG). clear NB.
  assert (MH : exists c s, m = c :: s /\ isdigit c = true).
  { assert (IH : forall j, int_part j -> exists c s, j = c :: s /\ isdigit c = true).
    { intros j [->|((N & D) & _)]; [exists 48, []; auto|].
      destruct j as [|c j]; [contradiction|]. exists c, j. split; auto. inversion D.
      now apply isdigit_spec. }
    inversion M; subst; try (destruct (IH _ H) as (c & s & -> & Dc); exists c; eexists; split;
      [reflexivity|exact Dc]).
    exists 48, (x :: hs). auto. }
  destruct MH as (c & s & Em & Dc).
  unfold read_number. rewrite <- app_assoc in R.
  assert (RH : exists c0 s0, rest r = c0 :: s0 /\ match sg with [] => c0 = c | x :: _ => c0 = x end).
  { rewrite R, Em. destruct sg; cbn [app]; eauto. }
  destruct RH as (c0 & s0 & R0 & C0). rewrite R0.
  set (r1 := set_cur (set_last (set_vt r YUInt) TValue) (Some (off r)) (curn r)).
  assert (H : exists r2,
      (if c0 =? 45 then advance (set_vt r1 YInt)
       else if N.testbit fl bPlusSign && (c0 =? 43)
            then set_cur (advance r1) (Some (off (advance r1))) (curn (advance r1)) else r1) = r2
      /\ rest r2 = m ++ z /\ took r sg r2 /\ last r2 = TValue
      /\ exists k, (forall y, y = length m -> (length tk + length k = length sg + y)%nat)
      /\ sg ++ m = k ++ tk /\ curo r2 = Some (off r + length k)%nat
      /\ ty = if i then vt r2 else YFloat).
  { destruct SG as [(-> & -> & ->)|[(-> & -> & ->)|(-> & P & -> & ->)]].
    - subst c0. assert (X : c =? 45 = false) by (unfold isdigit in Dc; lia).
      assert (Y : c =? 43 = false) by (unfold isdigit in Dc; lia).
      rewrite X, Y, andb_false_r. exists r1. split; [reflexivity|]. split; [exact R|].
      split; [exact (took_refl r)|]. split; [reflexivity|].
      exists []. cbn. split; [lia|]. split; [reflexivity|]. split; [f_equal; lia|].
      destruct i; reflexivity.
    - subst c0. cbn [N.eqb Pos.eqb]. eexists. split; [reflexivity|].
      unfold advance, took. cbn. rewrite R. cbn. split; [reflexivity|].
      split; [repeat split; lia|]. split; [reflexivity|]. exists []. cbn.
      split; [lia|]. split; [reflexivity|]. split; [f_equal; lia|]. destruct i; reflexivity.
    - subst c0. rewrite P. cbn [N.eqb Pos.eqb andb]. eexists. split; [reflexivity|].
      unfold advance, took. cbn. rewrite R. cbn. split; [reflexivity|].
      split; [repeat split; lia|]. split; [reflexivity|]. exists [43]. cbn.
      split; [lia|]. split; [reflexivity|]. split; [f_equal; lia|]. destruct i; reflexivity. }
  destruct H as (r2 & -> & R2 & T2 & L2 & k & LK & EK & CO & TY). clear r1.
  assert (FIN : forall r0, rest r0 = z -> took r2 m r0 -> kept r2 r0 ->
    vt r0 = (if i then vt r2 else YFloat) ->
    rest (cur_end r0) = z /\ took r (sg ++ m) (cur_end r0) /\ last (cur_end r0) = TValue
    /\ vt (cur_end r0) = ty /\ exists k, sg ++ m = k ++ tk /\ curo (cur_end r0) = Some (off r + length k)%nat
    /\ (z <> [] \/ ty = YFloat -> curn (cur_end r0) = length tk)).
  { intros r0 A T (K1 & K2 & K3) V.
    pose proof (took_trans _ _ _ _ _ T2 T) as T3.
    unfold cur_end. rewrite K2, CO. cbn -[Nat.add].
    split; [exact A|]. split; [exact T3|]. split; [congruence|]. split; [congruence|].
    exists k. split; [exact EK|]. split; [congruence|]. intros _.
    destruct T3 as (_ & T3 & _). rewrite T3, app_length. specialize (LK _ eq_refl). lia. }
  assert (FRAC : forall ip f e r3, int_part ip -> m = ip ++ f ++ e -> f = [] \/ frac_part f ->
    e = [] \/ exp_part e -> rest r3 = f ++ e ++ z -> took r2 ip r3 -> kept r2 r3 -> vt r3 = vt r2 ->
    i = match f, e with [], [] => true | _, _ => false end ->
    exists r', number_frac fl true r3 = Some (true, r') /\ rest r' = z /\ took r (sg ++ m) r'
      /\ last r' = TValue /\ vt r' = ty
      /\ exists k, sg ++ m = k ++ tk /\ curo r' = Some (off r + length k)%nat
      /\ (z <> [] \/ ty = YFloat -> curn r' = length tk)).
  { intros ip f e r3 IP Ms FP EP R3 T3 K3 V3 Ei.
    destruct (number_frac_complete fl r3 f e z PF R3 FP EP F) as (r0 & E1 & E2 & E3 & E4 & E5).
    exists (cur_end r0). split; [exact E1|]. apply FIN; auto.
    - rewrite Ms. apply took_trans with r3; auto.
    - apply kept_trans with r3; auto.
    - rewrite E5, V3, Ei. reflexivity. }
  assert (DEC : forall ip f e, int_part ip -> m = ip ++ f ++ e -> f = [] \/ frac_part f ->
    e = [] \/ exp_part e -> i = match f, e with [], [] => true | _, _ => false end ->
    exists r', match rest r2 with
      | [] => Some (false, set_error r2 JUnexpectedEof)
      | c :: _ =>
          if c =? 48 then
            let r := advance r2 in
            match rest r with
            | [] => Some (true, cur_end r)
            | x :: _ =>
                if ((x =? 120) || (x =? 88)) && N.testbit fl bHexadecimal then
                  let r := advance r in
                  match rest r with
                  | [] => Some (false, set_error r JUnexpectedEof)
                  | h :: _ =>
                      if negb (isxdigit h) then Some (false, set_error r JUnexpectedToken)
                      else Some (true, cur_end (adv_while isxdigit r))
                  end
                else number_frac fl true r
            end
          else if isdigit c then
            let r := adv_while isdigit r2 in
            match rest r with
            | [] => Some (true, r)
            | _ => number_frac fl true r
            end
          else if negb (N.testbit fl bLeadTrailPoint) || negb (c =? 46) then
            Some (false, set_error r2 JUnexpectedToken)
          else number_frac fl false r2
      end = Some (true, r') /\ rest r' = z /\ took r (sg ++ m) r'
      /\ last r' = TValue /\ vt r' = ty
      /\ exists k, sg ++ m = k ++ tk /\ curo r' = Some (off r + length k)%nat
      /\ (z <> [] \/ ty = YFloat -> curn r' = length tk)).
  { intros ip f e IP Ms FP EP Ei.
    assert (Z : match f ++ e ++ z with [] => f = [] /\ e = [] /\ z = []
                | x :: _ => (x =? 120) || (x =? 88) = false /\ isdigit x = false end).
    { destruct FP as [->|(ds & -> & _)]; cbn [app].
      - destruct EP as [->|(x & sg' & ds & -> & X & _)]; cbn [app].
        + destruct z; auto. cbn in F. unfold wsp, isdigit in *. lia.
        + unfold isdigit. lia.
      - auto. }
    rewrite Ms, <- !app_assoc in R2.
    destruct IP as [->|((N & D) & NZ)].
    - cbn [app] in R2. rewrite R2. cbn [N.eqb Pos.eqb].
      destruct (advance_took r2 _ _ R2) as (T3 & K3 & V3 & R3). cbv zeta. rewrite R3.
      destruct (f ++ e ++ z) as [|x t] eqn:FE.
      + destruct Z as (-> & -> & ->). cbn [app] in Ms.
        eexists. split; [reflexivity|]. apply FIN; auto.
        * rewrite Ms. exact T3.
        * rewrite V3, Ei. reflexivity.
      + destruct Z as (Z1 & Z2). rewrite Z1. cbn [andb].
        apply (FRAC [48] f e); auto. left. reflexivity. rewrite FE. exact R3.
    - destruct ip as [|d ip]; [contradiction|]. cbn [hd] in NZ.
      rewrite R2. cbn [app].
      assert (X : d =? 48 = false) by lia. rewrite X.
      assert (Dd : isdigit d = true) by (inversion D; now apply isdigit_spec). rewrite Dd.
      assert (G : match f ++ e ++ z with [] => True | c :: _ => isdigit c = false end)
        by (destruct (f ++ e ++ z); [exact I|apply Z]).
      assert (D' : forallb isdigit (d :: ip) = true) by now apply forallb_digits.
      destruct (adv_while_complete isdigit r2 _ _ R2 D' G) as (R3 & T3 & K3 & V3).
      cbv zeta. rewrite R3.
      destruct (f ++ e ++ z) as [|x t] eqn:FE.
      + destruct Z as (-> & -> & ->). rewrite !app_nil_r in Ms.
        exists (adv_while isdigit r2). split; [reflexivity|]. split; [exact R3|].
        rewrite Ms. split; [apply took_trans with r2; auto|].
        destruct K3 as (K3 & K3' & _). split; [congruence|]. split.
        { rewrite V3, TY, Ei. reflexivity. }
        exists k. split; [congruence|]. split; [congruence|].
        intros [Q|Q]; [contradiction|]. exfalso. rewrite Ei in TY, SG. subst.
        destruct SG as [(_ & _ & SG)|[(_ & _ & SG)|(_ & _ & _ & SG)]]; congruence.
      + apply (FRAC (d :: ip) f e); auto.
        right. split; [split; auto|auto]. rewrite FE. exact R3. }
  clear Em. inversion M; subst i; subst m.
  - apply (DEC i0 [] []); auto. now rewrite app_nil_r.
  - destruct H0 as (ds & -> & H0). apply (DEC i0 (46 :: ds) []); auto.
    + now rewrite app_nil_r.
    + right. exists ds. auto.
  - apply (DEC i0 [] e); auto.
    destruct H0 as (x & sg' & ds & -> & _). reflexivity.
  - destruct H0 as (ds & -> & H0). apply (DEC i0 (46 :: ds) e); auto.
    right. exists ds. auto.
  - cbn [app] in R2. rewrite R2. cbn [N.eqb Pos.eqb].
    destruct (advance_took r2 _ _ R2) as (T3 & K3 & V3 & R3). cbv zeta. rewrite R3.
    assert (X : ((x =? 120) || (x =? 88)) && N.testbit fl bHexadecimal = true).
    { cbn in H. unfold bHexadecimal. rewrite H. lia. }
    rewrite X. destruct (advance_took _ _ _ R3) as (T4 & K4 & V4 & R4). rewrite R4.
    destruct hs as [|h hs]; [contradiction|]. cbn [app].
    apply forallb_xdigits in H2.
    assert (Y : isxdigit h = true) by (cbn [forallb] in H2; apply andb_true_iff in H2; apply H2).
    rewrite Y. cbn [negb].
    destruct (adv_while_complete isxdigit _ _ _ R4 H2 (follow_xdigit _ F)) as (R5 & T5 & K5 & V5).
    eexists. split; [reflexivity|]. apply FIN; auto.
    + change (48 :: x :: h :: hs) with ([48] ++ [x] ++ h :: hs).
      apply took_trans with (advance r2); auto. apply took_trans with (advance (advance r2)); auto.
Qed.
