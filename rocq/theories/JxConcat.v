(** Concatenated strings. *)
From Coq Require Import Arith NArith List Bool Lia ZifyBool ZifyNat ZifyN.
From Verif Require Import Base JsonModel JsonSpec JsonString JsonLex JsonTok JsonCopy JsonBuild JxModel JxSame JxSpec JxTok.
Import ListNotations.
Local Open Scope N_scope.

(** Strings one directly behind the other, without the last quotation mark. *)
Fixpoint joined (bs : list (list N)) : list N :=
  match bs with
  | [] => []
  | b :: bs' => 34 :: b ++ match bs' with [] => [] | _ => 34 :: joined bs' end
  end.

Lemma joined_cons b c bs : joined (b :: c :: bs) = quoted b ++ joined (c :: bs).
Proof. unfold quoted. cbn [joined app]. now rewrite <- app_assoc. Qed.

Lemma joined_quoted b bs : concat (map quoted (b :: bs)) = joined (b :: bs) ++ [34].
Proof.
  revert b. induction bs as [|c bs IH]; intro b.
  - unfold quoted. cbn [map concat joined app]. now rewrite !app_nil_r.
  - rewrite joined_cons, <- app_assoc, <- IH. reflexivity.
Qed.

Definition is_text (raw : list N) : Prop := exists o, unescape raw o.

Lemma concat_loop_ok fl n : N.testbit fl 8 = false -> forall bs w r cd cn y z, (length (rest r) < n)%nat ->
  rest r = w ++ concat (map quoted bs) ++ y :: z -> ws w -> bs <> [] -> Forall is_text bs -> y <> 34 ->
  exists r', concat_loop n fl 34 r cd cn = Some (r', (off r' - 1 - cd)%nat)
    /\ took r (w ++ concat (map quoted bs)) r' /\ rest r' = y :: z /\ vt r' = YConcat /\ last r' = last r.
Proof.
  intros M. induction n as [|n IH]; intros bs w r cd cn y z LN R W NB FB NY; [lia|].
  destruct bs as [|b bs]; [congruence|]. inversion FB as [|? ? [o U] FB']; subst.
  cbn [concat_loop]. cbv zeta.
  assert (R' : rest r = w ++ 34 :: (b ++ [34]) ++ concat (map quoted bs) ++ y :: z).
  { rewrite R. cbn [map concat]. unfold quoted at 1. cbn [app]. now rewrite <- !app_assoc. }
  destruct (skip_ex_app fl r w 34 _ R' W eq_refl) as (R0 & T0 & L0).
  rewrite R0. cbn [N.eqb Pos.eqb].
  destruct (read_quoted_complete fl (skip_ws_ex fl r) b o (concat (map quoted bs) ++ y :: z) M U) as (r1 & RQ & R1 & T1 & L1 & C1 & N1).
  { rewrite R0. reflexivity. }
  rewrite RQ, C1, N1. set (r2 := set_vt r1 YConcat).
  assert (TT : took r (w ++ quoted b) r2) by (eapply took_trans; eauto).
  assert (R2 : rest r2 = concat (map quoted bs) ++ y :: z) by exact R1.
  assert (O2 : off r2 = (S (off (skip_ws_ex fl r)) + length b + 1)%nat).
  { destruct T1 as (_ & O & _). change (off r2) with (off r1). rewrite O. unfold quoted. cbn [length].
    rewrite app_length. cbn [length]. lia. }
  unfold peek. change (rest r2) with (rest r1). rewrite R1.
  destruct bs as [|c bs].
  - cbn [map concat app]. rewrite (proj2 (N.eqb_neq y 34) NY). exists r2.
    split; [do 2 f_equal; lia|]. split; [rewrite app_nil_r; exact TT|]. split; [exact R2|].
    split; [reflexivity|]. change (last r2) with (last r1). congruence.
  - assert (HD : exists t, concat (map quoted (c :: bs)) ++ y :: z = 34 :: t) by (eexists; reflexivity).
    destruct HD as (t & HD). rewrite HD. cbn [N.eqb Pos.eqb].
    destruct (IH (c :: bs) [] r2 cd (S (off (skip_ws_ex fl r)) + length b - cd)%nat y z) as (r' & CL & T & RR & V & L);
      auto; try discriminate; [|constructor|].
    { rewrite R2. rewrite R' in LN. clear - LN. revert LN. generalize (concat (map quoted (c :: bs)) ++ y :: z).
      intros k LN. rewrite app_length in LN. cbn [length] in LN. rewrite !app_length in LN. cbn [length] in LN. lia. }
    exists r'. split; [exact CL|]. split.
    { assert (E : w ++ concat (map quoted (b :: c :: bs)) = (w ++ quoted b) ++ [] ++ concat (map quoted (c :: bs))).
      { rewrite <- app_assoc. reflexivity. }
      rewrite E. eapply took_trans; eauto. }
    split; [exact RR|]. split; [exact V|]. rewrite L. change (last r2) with (last r1). congruence.
Qed.

Definition concat_here (fl : N) (c : ctx) : Prop :=
  (c = CObject /\ N.testbit fl 11 = true) \/ (c = CArray /\ N.testbit fl 12 = true).

Lemma concat_token fl c buf r p l a w bs y z : concat_here fl c -> N.testbit fl 8 = false ->
  err r = JOk -> inside buf r -> prefix (dialect_of fl) c (last r) p l -> follows c (root r) l ->
  is_text a -> ws w -> bs <> [] -> Forall is_text bs -> y <> 34 ->
  rest r = p ++ quoted a ++ w ++ concat (map quoted bs) ++ y :: z ->
  exists r', reports fl c buf r TValue (34 :: a ++ 34 :: w ++ joined bs) (y :: z) r' /\ vt r' = YConcat.
Proof.
  intros CH M OK I P F [o U] W NB FB NY R.
  assert (R' : rest r = p ++ 34 :: (a ++ [34]) ++ w ++ concat (map quoted bs) ++ y :: z) by exact R.
  destruct (at_lexeme fl c r p l 34 _ OK P R' eq_refl) as (r0 & R0 & L0 & E0 & RT & _ & SK & IN & NT).
  specialize (IN buf I).
  destruct (read_quoted_complete fl r0 a o (w ++ concat (map quoted bs) ++ y :: z) M U) as (r1 & RQ & R1 & T1 & L1 & C1 & N1).
  { rewrite R0. reflexivity. }
  set (r2 := set_last (set_vt r1 YString) TValue).
  assert (PQ : parse_quoted fl c r0 = Some (TValue, r2)).
  { unfold parse_quoted. rewrite RQ. cbv zeta. change (last (set_vt r1 YString)) with (last r1).
    rewrite L1, L0.
    assert (CV : can_value_follow (set_vt r1 YString) c = true).
    { apply (follows_can c _ l); [|cbn [last set_vt]; congruence]. destruct T1 as (_ & _ & T1 & _).
      cbn [root set_vt]. rewrite T1, RT. exact F. }
    rewrite CV. destruct CH as [(-> & _)|(-> & _)]; [|reflexivity]. cbn in F. rewrite F. reflexivity. }
  destruct (concat_loop_ok fl (S (length (rest r2))) M bs w r2 (S (off r0)) (length a) y z) as (r3 & CL & T3 & R3 & V3 & L3); auto.
  set (r4 := set_cur r3 (Some (off r0)) (S (off r3 - 1 - S (off r0)))).
  assert (ST : next_step_ex fl c r0 = Some (inl (TValue, r4))).
  { unfold next_step_ex. cbv zeta. rewrite SK, R0. cbn [N.eqb Pos.eqb]. unfold parse_quoted_ex, peek. rewrite R0, PQ.
    assert (BB : tok_eqb TValue TValue && ((N.testbit fl bConcatenated && ctx_eqb c CObject)
         || (N.testbit fl bConcatenatedInArrays && ctx_eqb c CArray)) = true).
    { unfold bConcatenated, bConcatenatedInArrays. destruct CH as [(-> & ->)|(-> & ->)]; cbn; rewrite ?orb_true_r, ?andb_true_r; reflexivity. }
    rewrite BB. change (curo r2) with (curo r1). change (curn r2) with (curn r1). rewrite C1, N1, CL, V3.
    cbn [Nat.sub]. rewrite Nat.sub_0_r. reflexivity. }
  pose proof (took_trans _ _ _ _ _ T1 (T3 : took r1 _ r3)) as TT.
  assert (E3 : err r3 = JOk) by (destruct TT as (_ & _ & _ & ->); exact E0).
  assert (JQ : concat (map quoted bs) = joined bs ++ [34]).
  { destruct bs as [|b bs]; [congruence|]. apply joined_quoted. }
  assert (O3 : off r3 = (off r0 + length (34%N :: a ++ 34%N :: w ++ joined bs) + 1)%nat).
  { destruct TT as (_ & -> & _). rewrite JQ. unfold quoted. cbn [length app]. rewrite !app_length. cbn [length].
    rewrite !app_length. cbn [length]. lia. }
  exists r4. split; [|exact V3]. split; [now apply NT|]. split; [exact R3|]. split; [exact L3|]. split; [exact E3|].
  split.
  - unfold current. cbn [curo curn r4 set_cur].
    replace (S (off r3 - 1 - S (off r0))) with (length (34 :: a ++ 34 :: w ++ joined bs)) by (rewrite O3; cbn [length]; lia).
    apply (content_at buf r0 [] _ (34 :: y :: z)); auto.
    rewrite R0, JQ. cbn [app]. f_equal. rewrite <- !app_assoc. cbn [app]. now rewrite <- !app_assoc.
  - apply (moved_inside buf r0 _ r4) with (2 := IN) (1 := took_moved _ _ _ TT).
Qed.

(** ** Copying *)

Lemma copy_plain s size : ~ In 92 s -> (length s <= size)%nat -> copy_unescaped_string s size = Some s.
Proof.
  intros N L. unfold copy_unescaped_string. destruct s as [|x s]; [reflexivity|].
  destruct (Nat.eqb_spec size 0); [cbn [length] in L; lia|]. cbn [copy_unescaped].
  rewrite memchr_not_in by exact N. unfold copy_tail, put. rewrite firstn_all2 by exact L. cbn [length Nat.add] in *.
  destruct (Nat.leb_spec (S (length s)) size); [reflexivity|lia].
Qed.

Lemma no_backslash_unescaped a : ~ In 92 a -> is_char_unescaped a = true.
Proof.
  intro NI. unfold is_char_unescaped. destruct (rev a) as [|x t] eqn:E; [reflexivity|]. cbn [leading_backslashes].
  destruct (N.eqb_spec x 92) as [->|]; [|reflexivity]. exfalso. apply NI. rewrite in_rev, E. now left.
Qed.

Definition plain_text (s : list N) : Prop := ~ In 92 s /\ ~ In 34 s.

Lemma copy_joined bs : forall n w out size, (length (w ++ joined bs) < n)%nat -> ~ In 34 w -> bs <> [] -> Forall plain_text bs ->
  (length (concat bs) <= size)%nat -> exists pre b,
  concat_copy_loop n 34 (w ++ joined bs) out size false = Some (b, out ++ pre, (size - length pre)%nat)
  /\ pre ++ b = concat bs.
Proof.
  induction bs as [|b bs IH]; intros n w out size LN NW NB FB LS; [congruence|].
  inversion FB as [|? ? [N92 N34] FB']; subst. destruct n as [|n]; [lia|]. cbn [concat_copy_loop].
  cbn [joined]. rewrite memchr_app by exact NW.
  assert (LJ : (length (b ++ match bs with [] => [] | _ => 34%N :: joined bs end) < n)%nat).
  { rewrite app_length in LN. cbn [joined length] in LN. lia. }
  destruct n as [|n]; [lia|]. cbn [concat_copy_loop].
  destruct bs as [|c bs].
  - rewrite app_nil_r. rewrite memchr_not_in by exact N34. exists [], b. rewrite app_nil_r. cbn [length].
    rewrite Nat.sub_0_r. split; [reflexivity|]. cbn [app concat]. now rewrite app_nil_r.
  - rewrite memchr_app by exact N34. cbv zeta. rewrite no_backslash_unescaped by exact N92.
    cbn [negb]. rewrite andb_false_r. cbn [concat] in LS. rewrite app_length in LS.
    rewrite copy_plain by (auto; lia).
    destruct (IH n [] (out ++ b) (size - length b)%nat) as (pre & d & CL & E); auto; try discriminate.
    { rewrite app_length in LJ. cbn [app length] in *. lia. }
    { cbn [concat]. lia. }
    cbn [app] in CL. exists (b ++ pre), d. rewrite CL. split.
    + rewrite <- app_assoc, app_length. do 2 f_equal. lia.
    + rewrite <- app_assoc, E. reflexivity.
Qed.

(** Every string is copied once, whatever stands between the first one and the second one. *)
Lemma copy_concatenated_ok a w bs avail : plain_text a -> ~ In 34 w -> bs <> [] -> Forall plain_text bs ->
  2 * N.of_nat (length (a ++ concat bs)) < avail ->
  copy_concatenated (34 :: a ++ 34 :: w ++ joined bs) (length (34 :: a ++ 34 :: w ++ joined bs)) avail
  = Some (a ++ concat bs).
Proof.
  intros [N92 N34] NW NB FB AV. unfold copy_concatenated.
  destruct (a ++ 34 :: w ++ joined bs) as [|x t] eqn:E; [destruct a; discriminate|].
  cbn [length Nat.eqb]. rewrite <- E.
  assert (LC : forall ds, (length (concat ds) <= length (joined ds))%nat).
  { induction ds as [|d ds IH]; [auto|]. cbn [concat joined length]. rewrite !app_length.
    destruct ds; cbn [length concat] in *; lia. }
  assert (LT : S (length t) = (length a + S (length w + length (joined bs)))%nat).
  { change (S (length t)) with (length (x :: t)). rewrite <- E, app_length. cbn [length]. rewrite app_length. reflexivity. }
  rewrite firstn_all2 by (rewrite E; cbn [length]; lia).
  assert (FU : exists n, n = S (length t)) by eauto. destruct FU as (n & FU).
  rewrite <- FU in *.
  cbn [concat_copy_loop]. rewrite memchr_app by exact N34. cbv zeta.
  rewrite no_backslash_unescaped by exact N92. cbn [negb]. rewrite andb_false_r.
  rewrite copy_plain by (auto; lia). cbn [app].
  destruct (copy_joined bs n w a (S n - length a)%nat) as (pre & b & CL & EP); auto.
  { rewrite app_length. lia. }
  { specialize (LC bs). lia. }
  rewrite CL. specialize (LC bs). unfold put.
  assert (LP : length (concat bs) = (length pre + length b)%nat) by (now rewrite <- EP, app_length).
  rewrite !app_length. destruct (Nat.leb_spec (length a + length pre + length b) (S n)); [|lia].
  rewrite <- app_assoc, EP. rewrite !app_length in *.
  destruct (Nat.ltb _ _); [|reflexivity]. unfold assert_.
  destruct (N.ltb_spec (N.of_nat (length a + length (concat bs) + (length a + length (concat bs)))) avail); [reflexivity|lia].
Qed.

(** The value stored in a document. *)
Lemma allocate_concatenated_ok a x w bs : plain_text x -> ~ In 34 w -> bs <> [] -> Forall plain_text bs ->
  let s := 34 :: x ++ 34 :: w ++ joined bs in
  a_size a + 2 * N.of_nat (length s) < a_cap a -> a_cap a < 2 ^ 64 ->
  exists a', allocate_concatenated a s = Some (VString (x ++ concat bs), a').
Proof.
  intros PX NW NB FB s FA FC. unfold allocate_concatenated, allocate. cbv zeta. change (1 - 1) with 0.
  rewrite N.land_0_r, N.add_0_r. unfold w64 at 1 2.
  rewrite N.mod_small by (change W64 with (2 ^ 64); lia).
  destruct (N.ltb_spec (a_cap a) (a_size a + N.of_nat (length s))); [lia|].
  cbn [a_size a_cap a_ptr].
  assert (LC : (length (x ++ concat bs) <= length s)%nat).
  { assert (LC : forall ds, (length (concat ds) <= length (joined ds))%nat).
    { induction ds as [|d ds IH]; [auto|]. cbn [concat joined length]. rewrite !app_length.
      destruct ds; cbn [length concat] in *; lia. }
    specialize (LC bs). unfold s. cbn [length]. rewrite !app_length. cbn [length]. rewrite app_length. lia. }
  assert (CC : copy_concatenated s (length s) (a_cap a - (a_size a + N.of_nat (length s) - N.of_nat (length s)))
    = Some (x ++ concat bs)) by (apply copy_concatenated_ok; auto; lia).
  rewrite CC. eexists. reflexivity.
Qed.
