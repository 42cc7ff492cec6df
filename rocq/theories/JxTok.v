(** The tokens of the extensions. *)
From Coq Require Import Arith NArith List Bool Lia ZifyBool ZifyNat ZifyN.
From Verif Require Import Base JsonModel JsonSpec JsonString JsonLex JsonTok JsonCopy JxModel JxSame JxSpec.
Import ListNotations.
Local Open Scope N_scope.

Lemma skip_ex_app fl r w x z : rest r = w ++ x :: z -> ws w -> is_ws5 x = false ->
  rest (skip_ws_ex fl r) = x :: z /\ took r w (skip_ws_ex fl r)
  /\ last (skip_ws_ex fl r) = last r.
Proof.
  intros R W X.
  assert (XW : is_ws x = false).
  { destruct (is_ws x) eqn:E; [|reflexivity]. apply is_ws_ws5 in E. congruence. }
  destruct (skip_ws_app r w (x :: z) R W) as [R0 T0]; [right; eauto|].
  rewrite skip_same by (now rewrite R0). split; [exact R0|]. split; [exact T0|].
  destruct (skip_ws_spec r) as (_ & _ & _ & _ & E & _). exact E.
Qed.

Lemma skip_ex_id fl r x z : rest r = x :: z -> is_ws5 x = false -> skip_ws_ex fl r = r.
Proof.
  intros R X. unfold skip_ws_ex. rewrite R.
  assert (P : (if N.testbit fl bExtendedWhitespace then is_ws5 else is_ws) x = false).
  { destruct (N.testbit fl bExtendedWhitespace); [exact X|].
    destruct (is_ws x) eqn:E; [|reflexivity]. apply is_ws_ws5 in E. congruence. }
  cbn [skip_loop_ex]. rewrite P. destruct r; cbn in *. now subst.
Qed.

Lemma dialect_equal fl : d_equal (dialect_of fl) = N.testbit fl 13.
Proof. reflexivity. Qed.

(** Whitespace, a comma or a colon in front of a token. *)
Lemma at_lexeme fl c r p l x z : err r = JOk -> prefix (dialect_of fl) c (last r) p l ->
  rest r = p ++ x :: z -> is_ws5 x = false ->
  exists r0, rest r0 = x :: z /\ last r0 = l /\ err r0 = JOk /\ root r0 = root r
    /\ off r0 = (off r + length p)%nat /\ skip_ws_ex fl r0 = r0
    /\ (forall buf, inside buf r -> inside buf r0)
    /\ (forall t r', next_step_ex fl c r0 = Some (inl (t, r')) -> next_token_ex fl c r = Some (t, r')).
Proof.
  intros OK P R X.
  assert (STEP : forall w r, rest r = w ++ x :: z -> ws w -> err r = JOk ->
    exists r0, rest r0 = x :: z /\ last r0 = last r /\ err r0 = JOk /\ root r0 = root r
    /\ off r0 = (off r + length w)%nat /\ skip_ws_ex fl r0 = r0
    /\ (forall buf, inside buf r -> inside buf r0)
    /\ next_step_ex fl c r = next_step_ex fl c r0).
  { clear - X. intros w r R W OK. exists (skip_ws_ex fl r).
    destruct (skip_ex_app fl r w x z R W X) as (R0 & T0 & L0).
    pose proof (skip_ex_id fl _ x z R0 X) as ID.
    split; [exact R0|]. split; [exact L0|].
    split; [destruct T0 as (_ & _ & _ & ->); exact OK|]. split; [apply T0|]. split; [apply T0|].
    split; [exact ID|]. split; [intro buf; apply moved_inside with w; now apply took_moved|].
    unfold next_step_ex. now rewrite ID. }
  inversion P; subst.
  - destruct (STEP _ _ R H OK) as (r0 & A & B & C & D & E & F & G & H1). exists r0.
    split; [exact A|]. split; [exact B|]. split; [exact C|]. split; [exact D|]. split; [exact E|]. split; [exact F|].
    split; [exact G|]. intros t r' S. unfold next_token_ex. cbn [next_loop_ex]. now rewrite H1, S.
  - rewrite <- app_assoc in R. cbn [app] in R.
    destruct (skip_ex_app fl r w 44 _ R H eq_refl) as (R1 & T1 & L1).
    destruct (advance_took _ _ _ R1) as (T2 & _ & _ & R2).
    set (r1 := set_last (advance (skip_ws_ex fl r)) TComma).
    assert (TT : took r (w ++ [44]) r1) by (eapply took_trans; eauto).
    assert (NS : next_step_ex fl c r = Some (inr r1)).
    { unfold next_step_ex. cbv zeta. rewrite R1. cbn [N.eqb Pos.eqb orb].
      destruct c; [congruence| |]; rewrite L1; destruct H2 as [->|[-> | ->]]; reflexivity. }
    destruct (STEP w' r1) as (r0 & A & B & C & D & E & F & G & H3); auto.
    { destruct TT as (_ & _ & _ & ->). exact OK. }
    exists r0. split; [exact A|]. split; [exact B|]. split; [exact C|].
    split; [destruct TT as (_ & _ & TT & _); congruence|].
    split; [rewrite E; destruct TT as (_ & -> & _); rewrite !app_length; cbn [length]; lia|].
    split; [exact F|].
    split; [intros buf I; apply G; revert I; apply moved_inside with (w ++ [44]); now apply took_moved|].
    intros t r' S. unfold next_token_ex. rewrite R, app_length. cbn [length]. rewrite Nat.add_succ_r.
    cbn [next_loop_ex]. now rewrite NS, H3, S.
  - rewrite <- app_assoc in R. cbn [app] in R.
    assert (XN : is_ws5 x0 = false) by (destruct H3 as [->|[_ ->]]; reflexivity).
    destruct (skip_ex_app fl r w x0 _ R H XN) as (R1 & T1 & L1).
    destruct (advance_took _ _ _ R1) as (T2 & _ & _ & R2).
    set (r1 := set_last (advance (skip_ws_ex fl r)) TPropertyColon).
    assert (TT : took r (w ++ [x0]) r1) by (eapply took_trans; eauto).
    assert (NS : next_step_ex fl CObject r = Some (inr r1)).
    { unfold next_step_ex. cbv zeta. rewrite R1.
      destruct H3 as [->|[EQ ->]]; cbn [N.eqb Pos.eqb orb andb]; rewrite L1, H2; cbn [ctx_eqb tok_eqb negb orb].
      - reflexivity.
      - rewrite dialect_equal in EQ. unfold bAllowEqual. rewrite EQ. reflexivity. }
    destruct (STEP w' r1) as (r0 & A & B & C & D & E & F & G & H4); auto.
    { destruct TT as (_ & _ & _ & ->). exact OK. }
    exists r0. split; [exact A|]. split; [exact B|]. split; [exact C|].
    split; [destruct TT as (_ & _ & TT & _); congruence|].
    split; [rewrite E; destruct TT as (_ & -> & _); rewrite !app_length; cbn [length]; lia|].
    split; [exact F|].
    split; [intros buf I; apply G; revert I; apply moved_inside with (w ++ [x0]); now apply took_moved|].
    intros t r' S. unfold next_token_ex. rewrite R, app_length. cbn [length]. rewrite Nat.add_succ_r.
    cbn [next_loop_ex]. now rewrite NS, H4, S.
Qed.

(** ** Values *)

Definition special (x : N) : bool :=
  (x =? 47) || (x =? 35) || (x =? 39) || (x =? 34) || (x =? 123) || (x =? 91) || (x =? 125) || (x =? 93)
  || (x =? 58) || (x =? 61) || (x =? 44).

Lemma other_step fl c r x s : rest r = x :: s -> skip_ws_ex fl r = r -> special x = false ->
  next_step_ex fl c r = (t <- parse_other fl c x r;; Some (inl t)).
Proof.
  intros R SK SP. unfold next_step_ex. cbv zeta. rewrite SK, R. unfold special in SP.
  repeat (apply orb_false_elim in SP; destruct SP as [SP ?]).
  repeat match goal with H : (x =? _) = false |- _ => rewrite H; clear H end. reflexivity.
Qed.

Lemma follows_can c r l : follows c (root r) l -> last r = l -> can_value_follow r c = true.
Proof.
  intros F L. unfold can_value_follow. destruct c; cbn in F.
  - now rewrite F.
  - now rewrite L, F.
  - rewrite L. destruct F as [-> | ->]; reflexivity.
Qed.

Lemma no_name fl c r rt : follows c rt (last r) -> parse_unquoted fl c r = Some (false, r).
Proof.
  intro F. unfold parse_unquoted. destruct c; cbn in F; try reflexivity. rewrite F.
  cbn [ctx_eqb tok_eqb negb]. now rewrite !andb_false_r.
Qed.

Lemma value_step fl c r x s : rest r = x :: s -> skip_ws_ex fl r = r -> err r = JOk ->
  follows c (root r) (last r) -> special x = false -> x <> 114 -> x <> 82 ->
  next_step_ex fl c r = (t <- read_value_ex fl (set_root r);; Some (inl t)).
Proof.
  intros R SK OK F SP N1 N2. rewrite (other_step fl c r x s R SK SP). unfold parse_other.
  rewrite (no_name fl c r _ F).
  rewrite (proj2 (N.eqb_neq x 114) N1), (proj2 (N.eqb_neq x 82) N2). cbn [orb].
  rewrite OK. cbn [err_ok negb]. rewrite (follows_can c r _ F eq_refl). reflexivity.
Qed.

Definition lower_word (k : list N) : Prop := Forall (fun d => 97 <= d <= 122) k.

Lemma spells_ic x k z : spells x k -> lower_word k -> starts_with_ic (x ++ z) k = true.
Proof.
  intros S W. induction S as [|c d x k L S IH]; [now destruct (_ ++ z)|]. inversion W; subst.
  cbn [app starts_with_ic]. rewrite IH by assumption. rewrite andb_true_r. apply N.eqb_eq.
  unfold to_lower. destruct L as [->|[_ ->]].
  - destruct (_ && _) eqn:E; [|reflexivity]. lia.
  - destruct (_ && _) eqn:E; lia.
Qed.

Lemma lower_of_to_lower c d : lower_of c d -> 97 <= d <= 122 -> to_lower c = d.
Proof. unfold lower_of, to_lower. intros. destruct (_ && _) eqn:E; lia. Qed.

Lemma ic_wrong x z k a b : to_lower x = a -> a <> b -> starts_with_ic (x :: z) (b :: k) = false.
Proof. intros <- N. cbn [starts_with_ic]. rewrite (proj2 (N.eqb_neq b (to_lower x))); auto. Qed.

Lemma wrong_true x z a : to_lower x = a -> a <> 116 -> starts_with_ic (x :: z) str_true = false.
Proof. intros. eapply ic_wrong; eauto. Qed.
Lemma wrong_false x z a : to_lower x = a -> a <> 102 -> starts_with_ic (x :: z) str_false = false.
Proof. intros. eapply ic_wrong; eauto. Qed.

Lemma spells_length x k : spells x k -> length x = length k.
Proof. intro S. induction S; cbn [length]; lia. Qed.

Lemma spells_head x d k : spells x (d :: k) -> exists c y, x = c :: y /\ lower_of c d /\ spells y k.
Proof. intro S. inversion S; subst. eauto. Qed.

Lemma advance_value_at r n x z buf : inside buf r -> rest r = x ++ z -> length x = n ->
  rest (advance_value r n) = z /\ current buf (advance_value r n) = x /\ inside buf (advance_value r n).
Proof.
  intros I R L. subst n. unfold advance_value. cbv zeta. unfold current, inside in *.
  cbn [rest curo curn off set_last set_cur set_pos]. rewrite R, skipn_add, I, R, skipn_app_length.
  split; [reflexivity|]. split; [|reflexivity]. rewrite firstn_app, Nat.sub_diag, firstn_all, firstn_O.
  apply app_nil_r.
Qed.

Definition keyword (k : list N) (ty : vtype) : Prop :=
  (k = str_true /\ ty = YBool) \/ (k = str_false /\ ty = YBool) \/ (k = str_null /\ ty = YNull).

Lemma lower_true : lower_word str_true. Proof. repeat constructor; lia. Qed.
Lemma lower_false : lower_word str_false. Proof. repeat constructor; lia. Qed.
Lemma lower_null : lower_word str_null. Proof. repeat constructor; lia. Qed.
Lemma lower_infinity : lower_word str_infinity. Proof. repeat constructor; lia. Qed.
Lemma lower_nan : lower_word str_nan. Proof. repeat constructor; lia. Qed.

Lemma read_keyword fl r x k ty z : N.testbit fl 15 = true -> keyword k ty -> spells x k ->
  rest r = x ++ z -> read_value_ex fl r = Some (TValue, advance_value (set_vt r ty) (length x)).
Proof.
  intros B K S R. unfold read_value_ex, bIgnoreCase. rewrite B, R.
  rewrite (spells_length _ _ S). cbv zeta.
  destruct K as [(-> & ->)|[(-> & ->)|(-> & ->)]].
  - rewrite (spells_ic _ _ z S lower_true). reflexivity.
  - destruct (spells_head _ _ _ S) as (c & y & -> & L & _). cbn [app].
    rewrite (wrong_true c (y ++ z) 102) by (try (apply lower_of_to_lower; [exact L|lia]); lia).
    change (c :: y ++ z) with ((c :: y) ++ z). rewrite (spells_ic _ _ z S lower_false). reflexivity.
  - destruct (spells_head _ _ _ S) as (c & y & -> & L & _). cbn [app].
    rewrite (wrong_true c (y ++ z) 110) by (try (apply lower_of_to_lower; [exact L|lia]); lia).
    rewrite (wrong_false c (y ++ z) 110) by (try (apply lower_of_to_lower; [exact L|lia]); lia).
    change (c :: y ++ z) with ((c :: y) ++ z). rewrite (spells_ic _ _ z S lower_null). reflexivity.
Qed.

Lemma lower_head_special c d : lower_of c d -> 97 <= d <= 122 -> special c = false /\ is_ws5 c = false.
Proof. intros. unfold special, is_ws5, lower_of in *. lia. Qed.

Lemma keyword_head k ty : keyword k ty -> exists d k', k = d :: k' /\ 97 <= d <= 122 /\ d <> 114.
Proof. intros [(-> & _)|[(-> & _)|(-> & _)]]; (eexists _, _; split; [reflexivity|lia]). Qed.

Lemma keyword_token fl c buf r p l x k ty z : N.testbit fl 15 = true -> err r = JOk -> inside buf r ->
  prefix (dialect_of fl) c (last r) p l -> follows c (root r) l -> keyword k ty -> spells x k ->
  rest r = p ++ x ++ z -> exists r', reports fl c buf r TValue x z r' /\ vt r' = ty.
Proof.
  intros B OK I P F K S R. destruct (keyword_head k ty K) as (d & k' & -> & D & D'). pose proof S as S0.
  destruct (spells_head _ _ _ S) as (h & y & -> & L & _). cbn [app] in R.
  destruct (lower_head_special h d L D) as [SP WS].
  destruct (at_lexeme fl c r p l h (y ++ z) OK P R WS) as (r0 & R0 & L0 & E0 & RT & _ & SK & IN & NT).
  specialize (IN buf I).
  set (r1 := advance_value (set_vt (set_root r0) ty) (length (h :: y))).
  assert (ST : next_step_ex fl c r0 = Some (inl (TValue, r1))).
  { rewrite (value_step fl c r0 h (y ++ z)); auto.
    - rewrite (read_keyword fl (set_root r0) (h :: y) (d :: k') ty z B K S0); [reflexivity|exact R0].
    - rewrite RT, L0. exact F.
    - unfold lower_of in L. lia.
    - unfold lower_of in L. lia. }
  destruct (advance_value_at (set_vt (set_root r0) ty) (length (h :: y)) (h :: y) z buf) as (A & B' & C); auto.
  exists r1. split; [|reflexivity]. split; [now apply NT|]. split; [exact A|]. split; [reflexivity|].
  split; [exact E0|]. split; [exact B'|exact C].
Qed.

Definition names_float (fl : N) (x : list N) : Prop :=
  if N.testbit fl 15 then spells x str_infinity \/ spells x str_nan else x = str_Infinity \/ x = str_NaN.

Lemma not_keyword_sign fl c s : c = 45 \/ c = 43 -> forall k ty, keyword k ty ->
  (if N.testbit fl bIgnoreCase then starts_with_ic (c :: s) else starts_with (c :: s)) k = false.
Proof.
  intros C k ty K. destruct (N.testbit fl bIgnoreCase);
    destruct C as [->| ->]; destruct K as [(-> & _)|[(-> & _)|(-> & _)]]; reflexivity.
Qed.

Lemma not_keyword_float fl x z : names_float fl x -> forall k ty, keyword k ty ->
  (if N.testbit fl bIgnoreCase then starts_with_ic (x ++ z) else starts_with (x ++ z)) k = false.
Proof.
  unfold names_float, bIgnoreCase. intros C k ty K. destruct (N.testbit fl 15).
  - assert (H : exists a b x', x = a :: b :: x' /\ to_lower a = 105 \/ x = a :: b :: x' /\ to_lower a = 110 /\ to_lower b = 97).
    { destruct C as [S|S]; destruct (spells_head _ _ _ S) as (a & y & -> & L & S');
        destruct (spells_head _ _ _ S') as (b & y' & -> & L' & _); exists a, b, y'; [left|right];
        repeat split; apply lower_of_to_lower; auto; lia. }
    destruct H as (a & b & x' & [(-> & A)|(-> & A & B)]); cbn [app];
      destruct K as [(-> & _)|[(-> & _)|(-> & _)]]; unfold str_true, str_false, str_null; cbn [starts_with_ic];
      rewrite ?A, ?B; reflexivity.
  - destruct C as [->| ->]; destruct K as [(-> & _)|[(-> & _)|(-> & _)]]; reflexivity.
Qed.

Lemma float_name_read fl s x z r k : names_float fl x -> s = x ++ z ->
  (if N.testbit fl bIgnoreCase then
     if starts_with_ic s str_infinity then Some (true, advance_value (set_vt r YFloat) (8 + k))
     else if starts_with_ic s str_nan then Some (true, advance_value (set_vt r YFloat) (3 + k))
     else read_number fl r
   else
     if starts_with s str_Infinity then Some (true, advance_value (set_vt r YFloat) (8 + k))
     else if starts_with s str_NaN then Some (true, advance_value (set_vt r YFloat) (3 + k))
     else read_number fl r) = Some (true, advance_value (set_vt r YFloat) (length x + k)).
Proof.
  unfold names_float, bIgnoreCase. intros C ->. destruct (N.testbit fl 15).
  - destruct C as [S|S]; rewrite (spells_length _ _ S).
    + rewrite (spells_ic _ _ z S lower_infinity). reflexivity.
    + assert (W : starts_with_ic (x ++ z) str_infinity = false).
      { destruct (spells_head _ _ _ S) as (a & y & -> & L & _). cbn [app]. eapply ic_wrong;
          [apply lower_of_to_lower; [exact L|lia]|lia]. }
      rewrite W, (spells_ic _ _ z S lower_nan). reflexivity.
  - destruct C as [->| ->]; destruct z; reflexivity.
Qed.

Lemma read_float_name fl r sg x z : N.testbit fl 6 = true -> sign_ok fl sg -> names_float fl x ->
  rest r = sg ++ x ++ z ->
  read_value_ex fl r = Some (TValue, advance_value (set_vt r YFloat) (length (sg ++ x))).
Proof.
  intros B SG NF R. unfold read_value_ex. cbv zeta.
  assert (K : forall k ty, keyword k ty ->
    (if N.testbit fl bIgnoreCase then starts_with_ic (rest r) else starts_with (rest r)) k = false).
  { rewrite R. destruct SG as [->|[->|(-> & _)]]; cbn [app].
    - now apply not_keyword_float.
    - apply not_keyword_sign; auto.
    - apply not_keyword_sign; auto. }
  rewrite (K str_true YBool), (K str_false YBool), (K str_null YNull) by (unfold keyword; auto).
  assert (RN : read_number_ex fl r = Some (true, advance_value (set_vt r YFloat) (length x + length sg))).
  { unfold read_number_ex, bExtendedFloats. rewrite R, B.
    destruct SG as [->|[->|(-> & PL)]]; cbn [app length].
    - assert (H : exists c t, x ++ z = c :: t /\ (c =? 45) = false /\ (c =? 43) = false).
      { unfold names_float in NF. destruct (N.testbit fl 15).
        - destruct NF as [S|S]; destruct (spells_head _ _ _ S) as (a & y & -> & L & _);
            (eexists _, _; split; [reflexivity|]); unfold lower_of in L; lia.
        - destruct NF as [->| ->]; (eexists _, _; split; [reflexivity|]); split; reflexivity. }
      destruct H as (c & t & E & C1 & C2). rewrite E, C1, C2. cbn [andb]. cbv iota.
      apply float_name_read with z; auto.
    - cbn [N.eqb Pos.eqb]. apply float_name_read with z; auto.
    - cbn [N.eqb Pos.eqb]. unfold bPlusSign. rewrite PL. cbn [andb]. apply float_name_read with z; auto. }
  rewrite RN. rewrite app_length, (Nat.add_comm (length sg)). reflexivity.
Qed.

Lemma float_name_token fl c buf r p l sg x z : N.testbit fl 6 = true -> sign_ok fl sg -> names_float fl x ->
  err r = JOk -> inside buf r -> prefix (dialect_of fl) c (last r) p l -> follows c (root r) l ->
  rest r = p ++ (sg ++ x) ++ z -> exists r', reports fl c buf r TValue (sg ++ x) z r' /\ vt r' = YFloat.
Proof.
  intros B SG NF OK I P F R.
  assert (H : exists h y, sg ++ x = h :: y /\ special h = false /\ is_ws5 h = false /\ h <> 114 /\ h <> 82).
  { destruct SG as [->|[->|(-> & _)]]; cbn [app]; [|eexists _, _; repeat split; try reflexivity; lia..].
    unfold names_float in NF. destruct (N.testbit fl 15).
    - destruct NF as [S|S]; destruct (spells_head _ _ _ S) as (a & y & -> & L & _);
        (eexists _, _; split; [reflexivity|]); (destruct (lower_head_special _ _ L) as [? ?]; [lia|]);
        unfold lower_of in L; (split; [assumption|]); (split; [assumption|]); lia.
    - destruct NF as [->| ->]; (eexists _, _; repeat split; try reflexivity; lia). }
  destruct H as (h & y & E & SP & WS & N1 & N2). pose proof R as R'. rewrite E in R'. cbn [app] in R'.
  destruct (at_lexeme fl c r p l h (y ++ z) OK P R' WS) as (r0 & R0 & L0 & E0 & RT & _ & SK & IN & NT).
  specialize (IN buf I).
  set (r1 := advance_value (set_vt (set_root r0) YFloat) (length (sg ++ x))).
  assert (RR : rest r0 = (sg ++ x) ++ z) by (rewrite R0, E; reflexivity).
  assert (ST : next_step_ex fl c r0 = Some (inl (TValue, r1))).
  { rewrite (value_step fl c r0 h (y ++ z)); auto.
    - rewrite (read_float_name fl (set_root r0) sg x z B SG NF); [reflexivity|].
      cbn [rest set_root]. now rewrite RR, app_assoc.
    - rewrite RT, L0. exact F. }
  destruct (advance_value_at (set_vt (set_root r0) YFloat) (length (sg ++ x)) (sg ++ x) z buf) as (A & B' & C); auto.
  exists r1. split; [|reflexivity]. split; [now apply NT|]. split; [exact A|]. split; [reflexivity|].
  split; [exact E0|]. split; [exact B'|exact C].
Qed.

(** ** Names without quotation marks *)

Definition name_start (c : N) : Prop := 65 <= c <= 90 \/ 97 <= c <= 122 \/ c = 95 \/ c = 36.
Definition name_char (c : N) : Prop := name_start c \/ 48 <= c <= 57.

Lemma span_all p a b : Forall (fun c => p c = true) a -> (match b with c :: _ => p c = false | [] => True end) ->
  span p (a ++ b) = (a, b).
Proof.
  intros F B. induction F as [|c a C F IH]; cbn [app].
  - destruct b as [|c b]; [reflexivity|]. cbn [span]. now rewrite B.
  - cbn [span]. now rewrite C, IH.
Qed.

Lemma unquoted_token fl buf r p l h y z : N.testbit fl 4 = true -> name_start h -> Forall name_char y ->
  (match z with c :: _ => ~ name_char c | [] => True end) ->
  err r = JOk -> inside buf r -> prefix (dialect_of fl) CObject (last r) p l -> l = TObjectStart \/ l = TComma ->
  rest r = p ++ (h :: y) ++ z -> exists r', reports fl CObject buf r TPropertyName (h :: y) z r'.
Proof.
  intros B NS NC NZ OK I P L R. cbn [app] in R.
  assert (WS : is_ws5 h = false) by (unfold is_ws5, name_start in *; lia).
  destruct (at_lexeme fl CObject r p l h (y ++ z) OK P R WS) as (r0 & R0 & L0 & E0 & RT & _ & SK & IN & NT).
  specialize (IN buf I).
  set (r1 := set_last (cur_end (adv_while is_ident (advance (set_cur r0 (Some (off r0)) 0)))) TPropertyName).
  assert (SPAN : span is_ident (y ++ z) = (y, z)).
  { apply span_all.
    - eapply Forall_impl; [|exact NC]. intros c. unfold name_char, name_start, is_ident, isalpha, isdigit. lia.
    - destruct z as [|c z]; auto. revert NZ. unfold name_char, name_start, is_ident, isalpha, isdigit. lia. }
  assert (ST : next_step_ex fl CObject r0 = Some (inl (TPropertyName, r1))).
  { rewrite (other_step fl CObject r0 h (y ++ z)); auto.
    2:{ unfold special, name_start in *. lia. }
    assert (PU : parse_unquoted fl CObject r0 = Some (true, r1)).
    { unfold parse_unquoted, bUnquotedNames. rewrite B, L0. cbn [ctx_eqb andb].
      assert (E : negb (tok_eqb l TPropertyColon) = true /\ tok_eqb l TObjectStart || tok_eqb l TComma = true)
        by (destruct L as [->| ->]; split; reflexivity).
      destruct E as [-> ->]. unfold peek. rewrite R0.
      assert (E : isdigit h || negb (is_ident_start h) = false).
      { unfold isdigit, is_ident_start, isalpha, name_start in *. lia. }
      rewrite E. reflexivity. }
    unfold parse_other. rewrite PU. reflexivity. }
  assert (E1 : r1 = set_last (set_cur (set_pos r0 z (S (off r0) + length y) (line r0) (S (col r0) + length y))
                 (Some (off r0)) (S (length y))) TPropertyName).
  { unfold r1, adv_while, advance. cbn [rest set_pos set_cur off line col]. rewrite R0. cbn [tl]. rewrite SPAN.
    unfold cur_end. cbn [curo set_pos set_cur off].
    replace (S (off r0) + length y - off r0)%nat with (S (length y)) by lia. reflexivity. }
  exists r1. split; [now apply NT|]. rewrite E1. split; [reflexivity|]. split; [reflexivity|]. split; [exact E0|].
  unfold current, inside in *. cbn [curo curn set_last set_cur set_pos off rest].
  rewrite IN, R0.
  split.
  - change (h :: y ++ z) with ((h :: y) ++ z). change (S (length y)) with (length (h :: y)).
    rewrite firstn_app, Nat.sub_diag, firstn_all, firstn_O. apply app_nil_r.
  - replace (S (off r0) + length y)%nat with (off r0 + length (h :: y))%nat by (cbn [length]; lia).
    rewrite skipn_add, IN, R0. change (h :: y ++ z) with ((h :: y) ++ z). apply skipn_app_length.
Qed.

(** ** Comments *)

Lemma free_of_tail (m a b : list N) : free_of m (a ++ b) -> free_of m b.
Proof. intros F x y ->. apply (F (a ++ x) y). now rewrite <- app_assoc. Qed.

(** Either [c] does not occur, or there is a first occurrence. *)
Lemma first_of (c : N) (s : list N) : ~ In c s \/ exists a b, s = a ++ c :: b /\ ~ In c a.
Proof.
  induction s as [|x s IH]; [left; intros []|]. destruct (N.eq_dec x c) as [E|D].
  - right. exists [], s. subst. split; [reflexivity|intros []].
  - destruct IH as [H|(a & b & E & H)].
    + left. intros [E|I]; auto.
    + right. exists (x :: a), b. subst. split; [reflexivity|]. intros [E|I]; auto.
Qed.

Lemma add_newlines_keeps s r : rest (add_newlines s r) = rest r /\ off (add_newlines s r) = off r
  /\ curo (add_newlines s r) = curo r /\ curn (add_newlines s r) = curn r /\ last (add_newlines s r) = last r
  /\ root (add_newlines s r) = root r /\ err (add_newlines s r) = err r.
Proof. unfold add_newlines. destruct (count_newlines s 0 0) as [[|n] k]; repeat split. Qed.

Lemma block_loop_ok n : forall r acc body z, (length (rest r) < n)%nat -> rest r = body ++ 42 :: 47 :: z ->
  free_of [42; 47] body -> exists r', block_loop n r acc = Some (TComment, r') /\ rest r' = z
    /\ off r' = (off r + length body + 2)%nat /\ curo r' = curo r /\ curn r' = (length acc + length body)%nat
    /\ last r' = last r /\ root r' = root r /\ err r' = err r.
Proof.
  induction n as [|n IH]; intros r acc body z LN R F; [lia|]. cbn [block_loop]. rewrite R.
  destruct (first_of 42 body) as [NI|(a & b & -> & NI)].
  - rewrite memchr_app by exact NI. cbn [N.eqb Pos.eqb]. cbv zeta.
    match goal with |- context [add_newlines ?s ?q] => destruct (add_newlines_keeps s q) as (A1 & A2 & A3 & A4 & A5 & A6 & A7);
      set (q' := add_newlines s q) in * end.
    eexists. split; [reflexivity|]. cbn [rest set_pos off curo curn last root err set_cur] in *.
    rewrite A1, A2, A3, A4, A5, A6, A7, app_length. repeat split; lia.
  - rewrite <- app_assoc. cbn [app]. rewrite memchr_app by exact NI. cbv zeta.
    set (r1 := set_pos r (b ++ 42 :: 47 :: z) (off r + length a + 1) (line r) (col r)).
    assert (HD : exists x t, b ++ 42 :: 47 :: z = x :: t /\ (x =? 47) = false).
    { destruct b as [|x b]; [eexists _, _; split; reflexivity|]. exists x, (b ++ 42 :: 47 :: z).
      split; [reflexivity|]. apply N.eqb_neq. intros ->. apply (F a b). reflexivity. }
    destruct HD as (x & t & E & X). rewrite E. cbv beta iota. rewrite X.
    destruct (IH r1 (acc ++ a ++ [42]) b z) as (r' & BL & H1 & H2 & H3 & H4 & H5 & H6 & H7).
    { cbn [rest r1 set_pos]. rewrite R, !app_length in LN. cbn [length] in LN. rewrite app_length. cbn [length]. lia. }
    { reflexivity. }
    { apply (free_of_tail _ (a ++ [42])). rewrite <- app_assoc. exact F. }
    exists r'. unfold r1 in *. split; [exact BL|]. split; [exact H1|].
    cbn [off set_pos] in H2. split; [rewrite H2, app_length; cbn [length]; lia|]. split; [exact H3|].
    split; [rewrite H4, !app_length; cbn [length]; lia|]. auto.
Qed.

Lemma content_at buf r o body z k : inside buf r -> rest r = o ++ body ++ z -> k = (off r + length o)%nat ->
  firstn (length body) (skipn k buf) = body.
Proof.
  intros I R ->. unfold inside in I. rewrite skipn_add, I, R, skipn_app_length, firstn_app, Nat.sub_diag, firstn_all.
  cbn [firstn]. apply app_nil_r.
Qed.

Lemma inside_at buf r r' u : inside buf r -> rest r = u ++ rest r' -> off r' = (off r + length u)%nat -> inside buf r'.
Proof. intros I R O. unfold inside in *. now rewrite O, skipn_add, I, R, skipn_app_length. Qed.

Lemma block_token fl c buf r p l body z : N.testbit fl 1 = true -> free_of [42; 47] body ->
  err r = JOk -> inside buf r -> prefix (dialect_of fl) c (last r) p l ->
  rest r = p ++ [47; 42] ++ body ++ [42; 47] ++ z ->
  exists r', reports_comment fl c buf r l body z r'.
Proof.
  intros B F OK I P R. cbn [app] in R.
  destruct (at_lexeme fl c r p l 47 _ OK P R eq_refl) as (r0 & R0 & L0 & E0 & RT & _ & SK & IN & NT).
  specialize (IN buf I).
  set (r1 := set_cur (advance (advance r0)) (Some (off (advance (advance r0)))) 0).
  assert (R1 : rest r1 = body ++ 42 :: 47 :: z) by (cbn [rest r1 set_cur advance set_pos]; rewrite R0; reflexivity).
  destruct (block_loop_ok (S (length (rest r1))) r1 [] body z (Nat.lt_succ_diag_r _) R1 F)
    as (r' & BL & H1 & H2 & H3 & H4 & H5 & H6 & H7).
  assert (ST : next_step_ex fl c r0 = Some (inl (TComment, r'))).
  { unfold next_step_ex. cbv zeta. rewrite SK, R0. cbn [N.eqb Pos.eqb]. unfold parse_comment_ex, parse_block.
    unfold bBlockComments. rewrite B, orb_true_r, R0. cbn [N.eqb Pos.eqb].
    assert (RA : rest (advance r0) = 42 :: body ++ 42 :: 47 :: z) by (cbn [rest advance set_pos]; now rewrite R0).
    assert (RB : rest (advance (advance r0)) = body ++ 42 :: 47 :: z) by (cbn [rest advance set_pos]; now rewrite R0).
    rewrite RA. cbn [N.eqb Pos.eqb]. rewrite RB.
    destruct (body ++ 42 :: 47 :: z) as [|y t] eqn:EB; [now destruct body|].
    change (set_cur (advance (advance r0)) (Some (off (advance (advance r0)))) 0) with r1.
    replace (S (length (y :: t))) with (S (length (rest r1))) by (now rewrite R1). rewrite BL. reflexivity. }
  exists r'. split; [now apply NT|]. split; [exact H1|].
  split; [rewrite H5; exact L0|]. split; [rewrite H7; exact E0|].
  split; [|split; [|rewrite H6; exact RT]].
  - unfold current. rewrite H3, H4. cbn [curo r1 set_cur length Nat.add advance set_pos off].
    apply (content_at buf r0 [47; 42] body (42 :: 47 :: z)); auto. cbn [length]. lia.
  - apply (inside_at buf r0 r' ([47; 42] ++ body ++ [42; 47])); auto.
    + rewrite R0, H1. now rewrite <- !app_assoc.
    + rewrite H2. cbn [off r1 set_cur advance set_pos app length]. rewrite app_length. cbn [length]. lia.
Qed.

(** A comment up to the end of the line; the rest is [z], and behind the last line nothing. *)
Definition line_of (fl : N) (body t z : list N) : Prop :=
  ~ In 10 body /\ (t = body ++ 10 :: z \/ (t = body /\ z = [] /\ N.testbit fl 17 = false)).

Lemma comment_line_ok fl r body t z : line_of fl body t z -> rest r = t -> exists u, t = body ++ u ++ z
  /\ read_comment_line fl r = set_pos (set_cur r (Some (off r)) (length body)) z (off r + length (body ++ u)) (S (line r)) 0.
Proof.
  intros (NI & [->|(-> & -> & B)]) R; unfold read_comment_line; cbv zeta; rewrite R.
  - exists [10]. split; [reflexivity|]. rewrite memchr_app by exact NI. rewrite !app_length. cbn [length].
    f_equal. lia.
  - exists []. split; [now rewrite !app_nil_r|]. rewrite memchr_not_in by exact NI. unfold bExtendedWhitespace.
    rewrite B, app_nil_r. cbn [length]. f_equal. lia.
Qed.

Lemma line_token fl c buf r p l mark body t z : (mark = [47; 47] /\ N.testbit fl 0 = true) \/ (mark = [35] /\ N.testbit fl 2 = true) ->
  line_of fl body t z -> err r = JOk -> inside buf r -> prefix (dialect_of fl) c (last r) p l ->
  rest r = p ++ mark ++ t -> exists r', reports_comment fl c buf r l body z r'.
Proof.
  intros M LO OK I P R.
  assert (H : exists h t', mark ++ t = h :: t' /\ is_ws5 h = false).
  { destruct M as [(-> & _)|(-> & _)]; (eexists _, _; split; reflexivity). }
  destruct H as (h & t' & EM & WS). rewrite EM in R.
  destruct (at_lexeme fl c r p l h t' OK P R WS) as (r0 & R0 & L0 & E0 & RT & _ & SK & IN & NT).
  specialize (IN buf I). rewrite <- EM in R0.
  set (r1 := match mark with [_] => advance r0 | _ => advance (advance r0) end).
  assert (R1 : rest r1 = t /\ off r1 = (off r0 + length mark)%nat /\ last r1 = last r0 /\ err r1 = err r0 /\ root r1 = root r0).
  { unfold r1. destruct M as [(-> & _)|(-> & _)]; cbn [rest advance set_pos off length]; rewrite R0; cbn [app tl];
      repeat split; lia. }
  destruct R1 as (R1 & O1 & L1 & E1 & RT1).
  destruct (comment_line_ok fl r1 body t z LO R1) as (u & ET & RC).
  set (r' := set_pos (set_cur r1 (Some (off r1)) (length body)) z (off r1 + length (body ++ u)) (S (line r1)) 0) in *.
  assert (ST : next_step_ex fl c r0 = Some (inl (TComment, r'))).
  { unfold next_step_ex. cbv zeta. rewrite SK, R0. unfold r1 in *.
    destruct M as [(-> & B)|(-> & B)]; cbn [app N.eqb Pos.eqb].
    - unfold parse_comment_ex, parse_comment, bSingleLineComments. rewrite B, R0. cbn [app orb N.eqb Pos.eqb].
      assert (RA : rest (advance r0) = 47 :: t) by (cbn [rest advance set_pos]; now rewrite R0).
      cbv zeta. rewrite RA. cbn [N.eqb Pos.eqb]. rewrite RC. reflexivity.
    - unfold parse_python_comment, bPythonComments. rewrite B, RC. reflexivity. }
  exists r'. split; [now apply NT|]. split; [reflexivity|].
  cbn [last err root r' set_pos set_cur]. rewrite L1, E1, RT1.
  split; [exact L0|]. split; [exact E0|]. split; [|split; [|exact RT]].
  - unfold current. cbn [curo curn r' set_pos set_cur]. apply (content_at buf r0 mark body (u ++ z)); auto.
    now rewrite R0, ET.
  - apply (inside_at buf r0 r' (mark ++ body ++ u)); auto.
    + rewrite R0, ET. cbn [rest r' set_pos]. now rewrite <- !app_assoc.
    + cbn [off r' set_pos]. rewrite O1, !app_length. lia.
Qed.

(** ** Raw strings *)

Lemma raw_loop_ok n : forall r body z o, (length (rest r) < n)%nat -> rest r = body ++ 41 :: 34 :: z ->
  free_of [41; 34] body -> curo r = Some o -> (o <= off r)%nat ->
  exists r', raw_loop n [34] r = Some (true, r') /\ rest r' = z
    /\ off r' = (off r + length body + 2)%nat /\ curo r' = Some o /\ curn r' = (off r - o + length body)%nat
    /\ last r' = last r /\ root r' = root r /\ err r' = err r.
Proof.
  induction n as [|n IH]; intros r body z o LN R F CO LO; [lia|]. cbn [raw_loop]. rewrite R.
  destruct (first_of 41 body) as [NI|(a & b & -> & NI)].
  - rewrite memchr_app by exact NI. cbv zeta. cbn [length Nat.ltb Nat.leb].
    assert (SW : starts_with (34 :: z) [34] = true) by (destruct z; reflexivity). rewrite SW.
    cbn [curo set_pos]. rewrite CO. eexists. split; [reflexivity|].
    cbn [rest set_pos off curo curn last root err set_cur skipn]. repeat split; lia.
  - rewrite <- app_assoc. cbn [app]. rewrite memchr_app by exact NI. cbv zeta.
    assert (LB : Nat.ltb (length (b ++ 41 :: 34 :: z)) (length [34]) = false).
    { apply Nat.ltb_ge. rewrite app_length. cbn [length]. lia. }
    rewrite LB.
    assert (SW : starts_with (b ++ 41 :: 34 :: z) [34] = false).
    { destruct b as [|x b]; [reflexivity|]. cbn [app starts_with].
      rewrite (proj2 (N.eqb_neq 34 x)); [reflexivity|]. intros <-. apply (F a b). reflexivity. }
    rewrite SW.
    destruct (IH (set_pos r (b ++ 41 :: 34 :: z) (S (off r + length a)) (line r) (col r)) b z o)
      as (r' & BL & H1 & H2 & H3 & H4 & H5 & H6 & H7).
    { cbn [rest set_pos]. rewrite R, !app_length in LN. cbn [length] in LN. rewrite app_length. cbn [length]. lia. }
    { reflexivity. }
    { apply (free_of_tail _ (a ++ [41])). rewrite <- app_assoc. exact F. }
    { exact CO. }
    { cbn [off set_pos]. lia. }
    exists r'. split; [exact BL|]. split; [exact H1|]. cbn [off set_pos] in H2, H4.
    split; [rewrite H2, app_length; cbn [length]; lia|]. split; [exact H3|].
    split; [rewrite H4, !app_length; cbn [length]; lia|]. auto.
Qed.

Lemma raw_allowed_at c r l : c <> CNull -> follows c (root r) l -> last r = l -> raw_allowed c r = true.
Proof. intros NC F L. unfold raw_allowed. destruct c; [congruence| |reflexivity]. cbn in F. now rewrite L, F. Qed.

Lemma cpp_raw_token fl c buf r p l h body z : N.testbit fl 9 = true -> h = 114 \/ h = 82 -> c <> CNull ->
  free_of [41; 34] body -> err r = JOk -> inside buf r ->
  prefix (dialect_of fl) c (last r) p l -> follows c (root r) l ->
  rest r = p ++ [h; 34; 40] ++ body ++ [41; 34] ++ z ->
  exists r', reports fl c buf r TValue body z r' /\ vt r' = YRaw.
Proof.
  intros B H NC FR OK I P F R. cbn [app] in R.
  assert (WS : is_ws5 h = false /\ special h = false) by (destruct H as [->| ->]; split; reflexivity).
  destruct WS as [WS SP].
  destruct (at_lexeme fl c r p l h _ OK P R WS) as (r0 & R0 & L0 & E0 & RT & _ & SK & IN & NT).
  specialize (IN buf I).
  set (r3 := advance (advance (advance r0))).
  assert (R3 : rest r3 = body ++ 41 :: 34 :: z) by (cbn [rest r3 advance set_pos]; rewrite R0; reflexivity).
  set (r4 := set_cur r3 (Some (off r3)) 0).
  destruct (raw_loop_ok (S (length (rest r3))) r4 body z (off r3) (Nat.lt_succ_diag_r _) R3 FR eq_refl (Nat.le_refl _))
    as (r' & RL & H1 & H2 & H3 & H4 & H5 & H6 & H7).
  set (r5 := set_vt (set_last r' TValue) YRaw).
  assert (PC : parse_cpp_raw fl c r0 = Some (true, r5)).
  { unfold parse_cpp_raw, bCppRaw. rewrite (raw_allowed_at c r0 l NC) by (rewrite ?RT; auto). rewrite B. cbn [andb]. cbv zeta.
    assert (RA : rest (advance r0) = 34 :: 40 :: body ++ 41 :: 34 :: z) by (cbn [rest advance set_pos]; now rewrite R0).
    assert (RB : rest (advance (advance r0)) = 40 :: body ++ 41 :: 34 :: z) by (cbn [rest advance set_pos]; now rewrite R0).
    rewrite RA. cbn [N.eqb Pos.eqb]. rewrite RB.
    assert (DL : delim_loop 16 (advance (advance r0)) [] = Some (advance (advance r0), [])).
    { cbn [delim_loop]. rewrite RB. reflexivity. }
    rewrite DL, RB. cbn [N.eqb Pos.eqb app]. fold r3. fold r4. change (rest r4) with (rest r3).
    destruct (rest r3) as [|y t] eqn:E3; [destruct body; discriminate R3|].
    rewrite RL. reflexivity. }
  assert (ST : next_step_ex fl c r0 = Some (inl (TValue, r5))).
  { rewrite (other_step fl c r0 h _ R0 SK SP). unfold parse_other.
    rewrite (no_name fl c r0 (root r)) by (rewrite L0; exact F).
    assert (HH : (h =? 114) || (h =? 82) = true) by (destruct H as [->| ->]; reflexivity).
    rewrite HH, PC. reflexivity. }
  exists r5. split; [|reflexivity]. split; [now apply NT|]. split; [exact H1|]. split; [reflexivity|].
  cbn [err r5 set_vt set_last]. split; [rewrite H7; exact E0|]. split.
  - unfold current. cbn [curo curn r5 set_vt set_last]. rewrite H3, H4. cbn [off r4 set_cur]. rewrite Nat.sub_diag.
    cbn [Nat.add]. apply (content_at buf r0 [h; 34; 40] body (41 :: 34 :: z)); auto.
    cbn [off r3 advance set_pos length]. lia.
  - apply (inside_at buf r0 r5 ([h; 34; 40] ++ body ++ [41; 34])); auto.
    + rewrite R0. cbn [rest r5 set_vt set_last]. rewrite H1. now rewrite <- !app_assoc.
    + cbn [off r5 set_vt set_last]. rewrite H2. cbn [off r4 r3 set_cur advance set_pos app length]. rewrite app_length. cbn [length]. lia.
Qed.

Lemma python_raw_token fl c buf r p l h raw o z : N.testbit fl 10 = true -> N.testbit fl 9 = false ->
  N.testbit fl 8 = false -> h = 114 \/ h = 82 -> c <> CNull -> unescape raw o ->
  err r = JOk -> inside buf r -> prefix (dialect_of fl) c (last r) p l -> follows c (root r) l ->
  rest r = p ++ h :: quoted raw ++ z ->
  exists r', reports fl c buf r TValue raw z r' /\ vt r' = YRaw.
Proof.
  intros B B9 B8 H NC U OK I P F R.
  assert (WS : is_ws5 h = false /\ special h = false) by (destruct H as [->| ->]; split; reflexivity).
  destruct WS as [WS SP].
  destruct (at_lexeme fl c r p l h _ OK P R WS) as (r0 & R0 & L0 & E0 & RT & _ & SK & IN & NT).
  specialize (IN buf I).
  destruct (advance_took _ _ _ R0) as (T1 & _ & _ & R1).
  destruct (read_quoted_complete fl (advance r0) raw o z B8 U R1) as (r' & RQ & H1 & H2 & H3 & H4 & H5).
  set (r5 := set_vt (set_last r' TValue) YRaw).
  assert (PP : parse_python_raw fl c r0 = Some (true, r5)).
  { unfold parse_python_raw, bPythonRaw. rewrite (raw_allowed_at c r0 l NC) by (rewrite ?RT; auto). rewrite B.
    cbn [andb]. cbv zeta. rewrite R1. unfold quoted at 1. cbn [app N.eqb Pos.eqb orb]. rewrite RQ. reflexivity. }
  assert (PC : parse_cpp_raw fl c r0 = Some (false, r0)).
  { unfold parse_cpp_raw, bCppRaw. now rewrite B9, andb_false_r. }
  assert (ST : next_step_ex fl c r0 = Some (inl (TValue, r5))).
  { rewrite (other_step fl c r0 h _ R0 SK SP). unfold parse_other.
    rewrite (no_name fl c r0 (root r)) by (rewrite L0; exact F).
    assert (HH : (h =? 114) || (h =? 82) = true) by (destruct H as [->| ->]; reflexivity).
    rewrite HH, PC, E0. cbn [err_ok negb]. rewrite PP. reflexivity. }
  pose proof (took_trans _ _ _ _ _ T1 H2) as T2.
  exists r5. split; [|reflexivity]. split; [now apply NT|]. split; [exact H1|]. split; [reflexivity|].
  cbn [err r5 set_vt set_last]. split; [destruct T2 as (_ & _ & _ & ->); exact E0|]. split.
  - unfold current. cbn [curo curn r5 set_vt set_last]. rewrite H4, H5.
    apply (content_at buf r0 [h; 34] raw (34 :: z)); auto.
    + rewrite R0. unfold quoted. cbn [app]. now rewrite <- app_assoc.
    + cbn [off advance set_pos length]. lia.
  - apply (moved_inside buf r0 ([h] ++ quoted raw)); [|exact IN]. apply (took_moved _ _ _ T2).
Qed.
