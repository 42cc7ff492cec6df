(** The command line parser reads exactly the command lines of the specification. *)
From Coq Require Import Arith NArith ZArith List Bool Lia ZifyBool ZifyNat ZifyN.
From Verif Require Import Base CliModel CliSpec.
Import ListNotations.
Local Open Scope N_scope.

(** ** Characters *)

Lemma isdigit_spec c : isdigit c = true <-> digit c.
Proof. unfold isdigit, digit. lia. Qed.
Lemma isalpha_spec c : isalpha c = true <-> letter c.
Proof. unfold isalpha, letter. lia. Qed.
Lemma isalnum_spec c : isalnum c = true <-> digit c \/ letter c.
Proof. unfold isalnum. rewrite orb_true_iff, isdigit_spec, isalpha_spec. tauto. Qed.

(** ** Lookup *)

Lemma find_short_spec os : Forall (fun o => o_short o <> Some []) os -> forall k c,
  match find_short os k c with
  | None => False
  | Some None => forall j o s, nth_error os j = Some o -> o_short o <> Some (c :: s)
  | Some (Some i) => exists j o, i = (k + j)%nat /\ short_is os c j o
  end.
Proof.
  induction 1 as [|o os N _ IH]; intros k c; cbn [find_short].
  - intros j o s. destruct j; discriminate.
  - specialize (IH (S k) c).
    assert (SKIP : (forall s, o_short o <> Some (c :: s)) ->
      match find_short os (S k) c with
      | None => False
      | Some None => forall j o' s, nth_error (o :: os) j = Some o' -> o_short o' <> Some (c :: s)
      | Some (Some i) => exists j o', i = (k + j)%nat /\ short_is (o :: os) c j o'
      end).
    { intros NE. destruct (find_short os (S k) c) as [[i|]|]; [| |exact IH].
      - destruct IH as (j & o' & -> & H1 & H2 & H3). exists (S j), o'. split; [lia|].
        split; [exact H1|]. split; [exact H2|]. intros [|j'] o2 s L E.
        + cbn in E. assert (o = o2) by congruence. subst. apply NE.
        + apply (H3 j'); [lia|exact E].
      - intros [|j] o' s E; [cbn in E; assert (o = o') by congruence; subst; apply NE|now apply (IH j)]. }
    destruct (o_short o) as [[|d s]|] eqn:SO.
    + congruence.
    + destruct (N.eqb_spec c d) as [->|ND].
      * exists 0%nat, o. split; [lia|]. split; [reflexivity|]. split; [eauto|]. intros j o' s' L. lia.
      * apply SKIP. intros s' E. congruence.
    + apply SKIP. intros s' E. congruence.
Qed.

Lemma strip_spec p s : match strip p s with Some t => s = p ++ t | None => forall t, s <> p ++ t end.
Proof.
  revert s. induction p as [|a p IH]; intros s; cbn [strip app]; [reflexivity|].
  destruct s as [|b s]; [discriminate|]. destruct (N.eqb_spec a b) as [->|N].
  - specialize (IH s). destruct (strip p s); [now subst|]. intros t E. injection E as E. now apply (IH t).
  - intros t E. congruence.
Qed.

(** The text behind a name: the end or '='. *)
Definition tail_of (s : list N) : Prop := s = [] \/ exists a, s = 61 :: a.

Lemma head_tail s : ~ In 0 s -> (head s =? 0) || (head s =? 61) = true <-> tail_of s.
Proof.
  intro Z. unfold tail_of, head. destruct s as [|c s]; cbn [hd].
  - cbn. split; auto.
  - split.
    + intro H. right. assert (c = 61). { destruct (N.eqb_spec c 0); [subst; cbn in Z; tauto|]. lia. } subst. eauto.
    + intros [H|(a & H)]; [discriminate|]. injection H as -> _. reflexivity.
Qed.

Lemma name_tail_unique n1 n2 t1 t2 : ~ In 61 n1 -> ~ In 61 n2 -> tail_of t1 -> tail_of t2 ->
  n1 ++ t1 = n2 ++ t2 -> n1 = n2 /\ t1 = t2.
Proof.
  revert n2. induction n1 as [|a n1 IH]; intros [|b n2] H1 H2 T1 T2 E; cbn [app] in E.
  - auto.
  - exfalso. destruct T1 as [->|(a & ->)]; [discriminate|]. injection E as <- _. apply H2. now left.
  - exfalso. destruct T2 as [->|(b & ->)]; [discriminate|]. injection E as -> _. apply H1. now left.
  - injection E as <- E. destruct (IH n2) as [-> ->]; auto; cbn in H1, H2; tauto.
Qed.

Definition long_ok (o : opt) : Prop := exists n, o_long o = Some n /\ ~ In 61 n.

Lemma find_long_spec os : Forall long_ok os -> forall k s, ~ In 0 s ->
  match find_long os k s with
  | None => False
  | Some None => forall j o n t, nth_error os j = Some o -> o_long o = Some n -> s = n ++ t -> ~ tail_of t
  | Some (Some (i, t)) => exists j o n, i = (k + j)%nat /\ s = n ++ t /\ tail_of t /\ long_is os n j o
  end.
Proof.
  induction 1 as [|o os (n & LN & NE) _ IH]; intros k s Z; cbn [find_long].
  - intros j o n t. destruct j; discriminate.
  - specialize (IH (S k) s Z). rewrite LN.
    assert (SKIP : (forall t, s = n ++ t -> ~ tail_of t) ->
      match find_long os (S k) s with
      | None => False
      | Some None => forall j o' n t, nth_error (o :: os) j = Some o' -> o_long o' = Some n -> s = n ++ t -> ~ tail_of t
      | Some (Some (i, t)) => exists j o' n, i = (k + j)%nat /\ s = n ++ t /\ tail_of t /\ long_is (o :: os) n j o'
      end).
    { intros NT. destruct (find_long os (S k) s) as [[[i t]|]|]; [| |exact IH].
      - destruct IH as (j & o' & n' & -> & ES & TT & H1 & H2 & H3). exists (S j), o', n'. split; [lia|].
        split; [exact ES|]. split; [exact TT|].
        split; [exact H1|]. split; [exact H2|]. intros [|j'] o2 L E.
        + cbn in E. assert (o = o2) by congruence. subst o2. rewrite LN. intro EN.
          assert (n = n') by congruence. subst n'. apply (NT t); auto.
        + apply (H3 j'); [lia|exact E].
      - intros [|j] o' n' t E LN'; [|now apply (IH j o' n' t)].
        cbn in E. assert (o = o') by congruence. subst o'. assert (n = n') by congruence. subst n'. apply NT. }
    pose proof (strip_spec n s) as ST. destruct (strip n s) as [t|].
    + assert (ZT : ~ In 0 t) by (intro I; apply Z; rewrite ST; apply in_or_app; auto).
      destruct ((head t =? 0) || (head t =? 61)) eqn:HT.
      * apply head_tail in HT; auto. exists 0%nat, o, n. split; [lia|]. split; [exact ST|]. split; [exact HT|].
        split; [reflexivity|]. split; [exact LN|]. intros j o' L. lia.
      * apply SKIP. intros t' E. assert (t' = t) by (rewrite ST in E; now apply app_inv_head in E). subst t'.
        intro TT. apply head_tail in TT; auto. congruence.
    + apply SKIP. intros t E. contradiction (ST t E).
Qed.

Lemma short_is_unique os c i o i' o' : short_is os c i o -> short_is os c i' o' -> i = i' /\ o = o'.
Proof.
  intros (A1 & (s1 & A2) & A3) (B1 & (s2 & B2) & B3).
  destruct (Nat.lt_trichotomy i i') as [L|[->|L]].
  - contradiction (B3 i o s1 L A1 A2).
  - split; congruence.
  - contradiction (A3 i' o' s2 L B1 B2).
Qed.
Lemma long_is_unique os n i o i' o' : long_is os n i o -> long_is os n i' o' -> i = i' /\ o = o'.
Proof.
  intros (A1 & A2 & A3) (B1 & B2 & B3).
  destruct (Nat.lt_trichotomy i i') as [L|[->|L]].
  - contradiction (B3 i o L A1 A2).
  - split; congruence.
  - contradiction (A3 i' o' L B1 B2).
Qed.

(** ** The bits of the options given *)

Lemma flag_pair_spec i : (i < 128)%nat -> flag_pair i = Some (Nat.div i 32, 2 ^ N.of_nat (Nat.modulo i 32)).
Proof.
  intro L. unfold flag_pair. cbv zeta.
  assert (D : (Nat.div i 32 < 4)%nat) by (apply Nat.div_lt_upper_bound; lia).
  assert (M : (Nat.modulo i 32 < 32)%nat) by (apply Nat.mod_upper_bound; lia).
  assert (E : w32 (N.shiftl 1 (N.of_nat (i mod 32))) = 2 ^ N.of_nat (i mod 32)).
  { unfold w32. rewrite N.shiftl_1_l. apply N.mod_small. change 4294967296 with (2 ^ 32).
    apply N.pow_lt_mono_r; lia. }
  rewrite E. unfold assert_. destruct (Nat.ltb_spec (i / 32) 4); [|lia].
  destruct (N.eqb_spec (2 ^ N.of_nat (i mod 32)) 0) as [Z|_]; [|reflexivity].
  exfalso. revert Z. apply N.pow_nonzero. discriminate.
Qed.

Lemma land_pow2 x k : (N.land x (2 ^ k) =? 0) = negb (N.testbit x k).
Proof.
  destruct (N.testbit x k) eqn:T; cbn [negb].
  - apply N.eqb_neq. intro E. assert (N.testbit (N.land x (2 ^ k)) k = true)
      by (rewrite N.land_spec, T, N.pow2_bits_true; reflexivity).
    rewrite E, N.bits_0 in H. discriminate.
  - apply N.eqb_eq. apply N.bits_inj. intro j. rewrite N.land_spec, N.bits_0.
    destruct (N.eq_dec j k) as [->|NE]; [now rewrite T|]. rewrite N.pow2_bits_false by auto. apply andb_false_r.
Qed.

Definition given_bit (g : list N) (i : nat) : bool := N.testbit (nth (Nat.div i 32) g 0) (N.of_nat (Nat.modulo i 32)).
Definition mark (g : list N) (i : nat) : list N :=
  update g (Nat.div i 32) (N.lor (nth (Nat.div i 32) g 0) (2 ^ N.of_nat (Nat.modulo i 32))).

Lemma update_length {A} (l : list A) i x : length (update l i x) = length l.
Proof. revert i. induction l; intros [|i]; cbn; auto. Qed.
Lemma nth_update {A} (l : list A) i j x d : (i < length l)%nat ->
  nth j (update l i x) d = if Nat.eqb j i then x else nth j l d.
Proof.
  revert i j. induction l as [|y l IH]; intros i j L; cbn in L; [lia|].
  destruct i, j; cbn [update nth Nat.eqb]; auto. apply IH. lia.
Qed.

Lemma mark_bit g i j : length g = 4%nat -> (i < 128)%nat -> given_bit (mark g i) j = Nat.eqb j i || given_bit g j.
Proof.
  intros LG LI. unfold given_bit, mark.
  assert (D : (Nat.div i 32 < 4)%nat) by (apply Nat.div_lt_upper_bound; lia).
  rewrite nth_update by lia. destruct (Nat.eqb_spec (j / 32) (i / 32)) as [E|NE].
  - rewrite <- E, N.lor_spec. destruct (Nat.eq_dec j i) as [->|NJ].
    + rewrite Nat.eqb_refl, N.pow2_bits_true, orb_true_r. reflexivity.
    + destruct (Nat.eqb_spec j i); [contradiction|]. rewrite N.pow2_bits_false, orb_false_r; [reflexivity|].
      intro M. apply NJ. rewrite (Nat.div_mod j 32), (Nat.div_mod i 32) by lia. lia.
  - destruct (Nat.eqb_spec j i); [subst; congruence|reflexivity].
Qed.

(** ** The state of the parser after some options *)

Definition occurs (es : list item) (i : nat) : bool := negb (Nat.eqb (occurrences es i) 0).

Lemma occurs_snoc es e i : occurs (es ++ [e]) i = match p_option e with Some j => Nat.eqb i j | None => false end || occurs es i.
Proof.
  unfold occurs, occurrences. rewrite filter_app, app_length. cbn [filter].
  destruct (match p_option e with Some j => Nat.eqb i j | None => false end); cbn [length orb].
  - rewrite Nat.add_1_r. reflexivity.
  - now rewrite Nat.add_0_r.
Qed.

Record inv (os : list opt) (argv : list (list N)) (m0 : mem) (done : list item) (p : parser) (m : mem) : Prop := Inv {
  inv_error : error p = false;
  inv_len : length (given p) = 4%nat;
  inv_given : forall i, (i < length os)%nat -> given_bit (given p) i = occurs done i;
  inv_mem : m = effects os done m0;
  inv_cur : (current p <= length argv)%nat }.

(** The option may be used once more. *)
Definition once_more (os : list opt) (m0 : mem) (done : list item) (i : nat) (o : opt) : Prop :=
  occurs done i = true -> too_many o (fst (count_option o (effects os done m0))) = false.

Definition after_count (o : opt) (m : mem) : mem := write_output o (snd (count_option o m)).

Definition marked (p : parser) (i : nat) : parser := Parser (current p) (mark (given p) i) (cur_arg p) (error p).

Lemma use_option_eq os argv m0 done p m i o sh s : (length os <= 128)%nat -> inv os argv m0 done p m ->
  nth_error os i = Some o ->
  use_option os argv p m i sh s =
    if occurs done i && too_many o (fst (count_option o m)) then fail p (snd (count_option o m))
    else finish os argv (marked p i) (after_count o m) i o sh s.
Proof.
  intros LO I E. unfold use_option. rewrite E. destruct (count_option o m) as [k m1] eqn:CO. cbn [fst snd].
  assert (LI : (i < length os)%nat) by (apply nth_error_Some; congruence).
  rewrite flag_pair_spec by lia. rewrite land_pow2. fold (given_bit (given p) i).
  rewrite (inv_given _ _ _ _ _ _ I i LI), negb_involutive. unfold after_count. rewrite CO. reflexivity.
Qed.

Lemma inv_marked os argv m0 done p m i o a : (length os <= 128)%nat -> inv os argv m0 done p m ->
  nth_error os i = Some o -> inv os argv m0 (done ++ [Parsed (Some i) a]) (marked p i) (after_count o m).
Proof.
  intros LO [I1 I2 I3 I4 I5] E.
  assert (LI : (i < length os)%nat) by (apply nth_error_Some; congruence).
  constructor; cbn [marked error given current]; auto.
  - unfold mark. now rewrite update_length.
  - intros j LJ. rewrite mark_bit by (auto; lia). rewrite occurs_snoc. cbn [p_option]. now rewrite I3.
  - unfold effects. rewrite fold_left_app. cbn [fold_left effect p_option]. fold (effects os done m0).
    unfold effect. cbn [p_option]. rewrite E. unfold after_count. now rewrite <- I4.
Qed.

(** ** The argument of an option *)

Inductive shape (o : opt) : bool -> list N -> list (list N) -> option (list N) -> list (list N) -> Prop :=
| S_flag s ws : o_arg o = ANone -> letter (hd 0 s) -> shape o true s ws None ws
| S_last sh ws : o_arg o <> ARequired -> no_plain ws -> shape o sh [] ws None ws
| S_equal sh a ws : takes o a -> shape o sh (61 :: a) ws (Some a) ws
| S_attached s ws : takes o s -> s <> [] -> hd 0 s <> 61 -> no_plain ws -> shape o true s ws (Some s) ws
| S_next sh a ws : takes o a -> plain a -> shape o sh [] (a :: ws) (Some a) ws.

Definition valid_for (o : opt) (arg : option (list N)) : Prop :=
  forall a v, arg = Some a -> o_validator o = Some v -> v a = true.

Lemma nth_error_skipn {A} (l : list A) k : nth_error l k = hd_error (skipn k l).
Proof. revert l. induction k as [|k IH]; intros [|x l]; cbn; auto. Qed.
Lemma skipn_S {A} (l : list A) k x r : skipn k l = x :: r -> skipn (S k) l = r /\ (S k <= length l)%nat.
Proof.
  revert l. induction k as [|k IH]; intros [|y l] E; try discriminate.
  - injection E as -> ->. cbn. split; [reflexivity|lia].
  - destruct (IH l E). split; [exact H|cbn; lia].
Qed.

Definition done_arg (p : parser) (k : nat) (arg : option (list N)) : parser :=
  Parser k (given p) (match arg with Some _ => None | None => cur_arg p end) (error p).

Lemma finish_spec os argv p m i o sh s : ~ In 0 s -> (sh = false -> tail_of s) ->
  (current p <= length argv)%nat ->
  (exists arg ws' k, shape o sh s (skipn (current p) argv) arg ws' /\ valid_for o arg
     /\ skipn k argv = ws' /\ (k <= length argv)%nat
     /\ finish os argv p m i o sh s = Some (Some (Parsed (Some i) arg), done_arg p k arg, m))
  \/ (exists p', finish os argv p m i o sh s = Some (None, p', m) /\ error p' = true
       /\ forall arg ws', ~ (shape o sh s (skipn (current p) argv) arg ws' /\ valid_for o arg)).
Proof.
  intros Z TL CU. unfold finish.
  set (ws := skipn (current p) argv). rewrite nth_error_skipn. fold ws.
  assert (HZ : forall t, s = t -> head s = 0 -> s = []).
  { intros t _ H. unfold head in H. destruct s as [|c s']; [reflexivity|]. cbn [hd] in H. subst. exfalso. apply Z. now left. }
  (* what each shape says *)
  destruct (sh && negb (head s =? 0) && match o_arg o with ANone => true | _ => false end) eqn:FL.
  - (* letters of options without argument *)
    apply andb_prop in FL. destruct FL as [FL A]. apply andb_prop in FL. destruct FL as [SH H0].
    assert (AN : o_arg o = ANone) by (destruct (o_arg o); congruence). subst sh.
    destruct (isalpha (head s)) eqn:AL.
    + left. exists None, ws, (current p). apply isalpha_spec in AL. split; [now constructor|].
      split; [intros a v X; discriminate|]. split; [reflexivity|]. split; [exact CU|].
      unfold done_arg. destruct p; reflexivity.
    + right. eexists. split; [reflexivity|]. split; [reflexivity|]. intros arg ws' [SP V].
      inversion SP; subst.
      * apply isalpha_spec in H1. unfold head in AL. congruence.
      * discriminate.
      * destruct H. congruence.
      * destruct H. congruence.
      * discriminate.
  - assert (FL' : sh = true -> head s <> 0 -> o_arg o <> ANone).
    { intros -> H. destruct (N.eqb_spec (head s) 0); [contradiction|]. destruct (o_arg o); cbn in FL; congruence. }
    clear FL.
    (* the next word *)
    set (nx := if head s =? 61 then None else match hd_error ws with Some w => if head w =? 45 then None else Some w | None => None end).
    assert (NX : match nx with
                 | Some w => head s <> 61 /\ exists r, ws = w :: r /\ plain w
                 | None => head s = 61 \/ no_plain ws
                 end).
    { unfold nx. destruct (N.eqb_spec (head s) 61); [auto|]. destruct ws as [|w r]; cbn [hd_error].
      - right. exact I.
      - destruct (N.eqb_spec (head w) 45) as [D|D].
        + right. cbn [no_plain]. unfold plain. unfold head in D. tauto.
        + split; [auto|]. exists r. split; [reflexivity|exact D]. }
    clearbody nx.
    destruct s as [|c t].
    + (* nothing behind the name *)
      destruct nx as [w|].
      * destruct NX as (_ & r & EW & PW). destruct (skipn_S argv (current p) w r EW) as [SK LE].
        cbn [current given cur_arg error].
        destruct (o_arg o) eqn:OA.
        -- right. eexists. split; [reflexivity|]. split; [reflexivity|]. rewrite EW. intros arg ws' [SP V].
           inversion SP; subst; cbn [hd no_plain] in *; try (unfold letter in *; lia); try contradiction;
             try (match goal with X : takes _ _ |- _ => destruct X; congruence end); congruence.
        -- destruct (o_validator o) as [v|] eqn:OV.
           ++ destruct (v w) eqn:VW; cbn [negb].
              ** left. exists (Some w), r, (S (current p)). rewrite EW.
                 split; [constructor; [split; congruence|exact PW]|].
                 split; [intros a v' X Y; congruence|]. auto.
              ** right. eexists. split; [reflexivity|]. split; [reflexivity|]. rewrite EW. intros arg ws' [SP V].
                 inversion SP; subst; cbn [no_plain] in *; try congruence; try contradiction.
                 pose proof (V w v eq_refl OV). congruence.
           ++ left. exists (Some w), r, (S (current p)). rewrite EW.
              split; [constructor; [split; congruence|exact PW]|].
              split; [intros a v' X Y; congruence|]. auto.
        -- destruct w as [|x w].
           ++ right. eexists. split; [reflexivity|]. split; [reflexivity|]. rewrite EW. intros arg ws' [SP V].
              inversion SP; subst; cbn [no_plain] in *; try congruence; try contradiction.
              match goal with X : takes _ _ |- _ => destruct X as [_ X]; now apply X end.
           ++ destruct (o_validator o) as [v|] eqn:OV.
              ** destruct (v (x :: w)) eqn:VW; cbn [negb].
                 --- left. exists (Some (x :: w)), r, (S (current p)). rewrite EW.
                     split; [constructor; [split; congruence|exact PW]|].
                     split; [intros a v' X Y; congruence|]. auto.
                 --- right. eexists. split; [reflexivity|]. split; [reflexivity|]. rewrite EW. intros arg ws' [SP V].
                     inversion SP; subst; cbn [no_plain] in *; try congruence; try contradiction.
                     pose proof (V (x :: w) v eq_refl OV). congruence.
              ** left. exists (Some (x :: w)), r, (S (current p)). rewrite EW.
                 split; [constructor; [split; congruence|exact PW]|].
                 split; [intros a v' X Y; congruence|]. auto.
      * destruct NX as [NX|NX]; [discriminate|].
        assert (NW : forall a r, ws = a :: r -> plain a -> False).
        { intros a r -> PA. cbn in NX. contradiction. }
        destruct (o_arg o) eqn:OA.
        -- left. exists None, ws, (current p). split; [constructor; [congruence|exact NX]|].
           split; [intros a v X; discriminate|]. split; [reflexivity|]. split; [exact CU|]. destruct p; reflexivity.
        -- left. exists None, ws, (current p). split; [constructor; [congruence|exact NX]|].
           split; [intros a v X; discriminate|]. split; [reflexivity|]. split; [exact CU|]. destruct p; reflexivity.
        -- right. eexists. split; [reflexivity|]. split; [reflexivity|]. intros arg ws' [SP V].
           inversion SP; subst; try congruence. eapply NW; eauto.
    + (* an argument in the same word *)
      assert (HC : c <> 0) by (intros ->; apply Z; now left).
      unfold head in *. cbn [hd] in *.
      destruct (N.eqb_spec c 61) as [->|NE].
      * (* = *)
        assert (NN : nx = None) by (destruct nx; [destruct NX; congruence|reflexivity]). subst nx. clear NX.
        destruct (o_arg o) eqn:OA.
        -- right. eexists. split; [reflexivity|]. split; [reflexivity|]. intros arg ws' [SP V].
           inversion SP; subst; cbn [hd] in *; try (unfold letter in *; lia); try congruence;
             match goal with X : takes _ _ |- _ => destruct X; congruence end.
        -- destruct (o_validator o) as [v|] eqn:OV.
           ++ destruct (v t) eqn:VW; cbn [negb].
              ** left. exists (Some t), ws, (current p).
                 split; [constructor; split; congruence|].
                 split; [intros a v' X Y; congruence|]. auto.
              ** right. eexists. split; [reflexivity|]. split; [reflexivity|]. intros arg ws' [SP V].
                 inversion SP; subst; cbn [hd] in *; try congruence.
                 pose proof (V t v eq_refl OV). congruence.
           ++ left. exists (Some t), ws, (current p).
              split; [constructor; split; congruence|].
              split; [intros a v' X Y; congruence|]. auto.
        -- destruct t as [|x t].
           ++ right. eexists. split; [reflexivity|]. split; [reflexivity|]. intros arg ws' [SP V].
              inversion SP; subst; cbn [hd] in *; try congruence.
              match goal with X : takes _ _ |- _ => destruct X as [_ X]; now apply X end.
           ++ destruct (o_validator o) as [v|] eqn:OV.
              ** destruct (v (x :: t)) eqn:VW; cbn [negb].
                 --- left. exists (Some (x :: t)), ws, (current p).
                     split; [constructor; split; congruence|].
                     split; [intros a v' X Y; congruence|]. auto.
                 --- right. eexists. split; [reflexivity|]. split; [reflexivity|]. intros arg ws' [SP V].
                     inversion SP; subst; cbn [hd] in *; try congruence.
                     pose proof (V (x :: t) v eq_refl OV). congruence.
              ** left. exists (Some (x :: t)), ws, (current p).
                 split; [constructor; split; congruence|].
                 split; [intros a v' X Y; congruence|]. auto.
      * (* attached *)
        assert (SH : sh = true).
        { destruct sh; [reflexivity|]. destruct (TL eq_refl) as [X|(a & X)]; [discriminate|congruence]. }
        subst sh. assert (NA : o_arg o <> ANone) by (apply FL'; auto).
        destruct nx as [w|].
        -- destruct NX as (_ & r & EW & PW).
           assert (R : forall arg ws', ~ (shape o true (c :: t) ws arg ws' /\ valid_for o arg)).
           { intros arg ws' [SP V]. rewrite EW in SP. inversion SP; subst; cbn [hd no_plain] in *; try congruence; contradiction. }
           destruct (o_arg o); [contradiction| |]; (right; eexists; split; [reflexivity|]; split; [reflexivity|exact R]).
        -- destruct NX as [NX|NX]; [congruence|].
           assert (T : takes o (c :: t)) by (split; [exact NA|discriminate]).
           destruct (o_validator o) as [v|] eqn:OV.
           ++ destruct (v (c :: t)) eqn:VW.
              ** left. exists (Some (c :: t)), ws, (current p).
                 split; [constructor; auto; discriminate|].
                 split; [intros a v' X Y; congruence|]. split; [reflexivity|]. split; [exact CU|].
                 destruct (o_arg o); [contradiction| |]; reflexivity.
              ** right. exists (Parser (current p) (given p) (cur_arg p) true).
                 split; [destruct (o_arg o); [contradiction| |]; reflexivity|]. split; [reflexivity|].
                 intros arg ws' [SP V]. inversion SP; subst; cbn [hd] in *; try congruence.
                 pose proof (V (c :: t) v eq_refl OV). congruence.
           ++ left. exists (Some (c :: t)), ws, (current p).
              split; [constructor; auto; discriminate|].
              split; [intros a v' X Y; congruence|]. split; [reflexivity|]. split; [exact CU|].
              destruct (o_arg o); [contradiction| |]; reflexivity.
Qed.

Lemma shape_det o sh s ws a1 w1 a2 w2 : shape o sh s ws a1 w1 -> shape o sh s ws a2 w2 ->
  a1 = a2 /\ w1 = w2.
Proof.
  intros H1 H2. inversion H1; subst; inversion H2; subst; cbn [hd no_plain] in *; auto;
    try (unfold letter in *; lia); try contradiction; try congruence;
    repeat match goal with X : takes _ _ |- _ => destruct X end; try congruence.
Qed.

(** ** One call *)

Definition short_ok (o : opt) : Prop := o_short o <> Some [] /\ forall s, o_short o <> Some (0 :: s).
Definition table_ok (os : list opt) : Prop := (length os <= 128)%nat /\ Forall long_ok os /\ Forall short_ok os.

Lemma usable_table os : usable os -> table_ok os.
Proof.
  intros [L F]. split; [exact L|]. rewrite !Forall_forall in *. split; intros o I.
  - destruct (F o I) as ((n & E & A & _) & _). exists n. auto.
  - destruct (F o I) as (_ & B & C). split; auto.
Qed.

Definition outcome (os : list opt) (argv : list (list N)) (m0 : mem) (done : list item)
    (r : option (option parsed * parser * mem)) (named : nat -> opt -> Prop) (sh : bool) (s : list N)
    (ws : list (list N)) : Prop :=
  (exists i o arg ws' p' m', named i o /\ nth_error os i = Some o /\ once_more os m0 done i o /\ shape o sh s ws arg ws'
     /\ valid_for o arg /\ r = Some (Some (Parsed (Some i) arg), p', m')
     /\ inv os argv m0 (done ++ [Parsed (Some i) arg]) p' m'
     /\ skipn (current p') argv = ws'
     /\ cur_arg p' = match arg with Some _ => None | None => if sh then Some s else None end)
  \/ (exists p' m', r = Some (None, p', m') /\ error p' = true
       /\ forall i o arg ws', named i o -> once_more os m0 done i o ->
            shape o sh s ws arg ws' -> valid_for o arg -> False).

Lemma use_outcome os argv m0 done p m i o sh s (named : nat -> opt -> Prop) : table_ok os ->
  inv os argv m0 done p m -> nth_error os i = Some o -> named i o ->
  (forall i' o', named i' o' -> i' = i /\ o' = o) ->
  ~ In 0 s -> (sh = false -> tail_of s) -> cur_arg p = (if sh then Some s else None) ->
  outcome os argv m0 done (use_option os argv p m i sh s) named sh s (skipn (current p) argv).
Proof.
  intros TO INV E NM UN Z TL CA. rewrite (use_option_eq os argv m0 done p m i o sh s (proj1 TO) INV E).
  destruct (occurs done i && too_many o (fst (count_option o m))) eqn:TM.
  - right. unfold fail. eexists _, _. split; [reflexivity|]. split; [reflexivity|].
    intros i' o' arg ws' N' OM _ _. destruct (UN i' o' N') as [-> ->].
    apply andb_prop in TM. destruct TM as [O T]. unfold once_more in OM.
    rewrite <- (inv_mem _ _ _ _ _ _ INV) in OM. rewrite (OM O) in T. discriminate.
  - assert (OM : once_more os m0 done i o).
    { intros O. rewrite O in TM. cbn in TM. now rewrite <- (inv_mem _ _ _ _ _ _ INV). }
    destruct (finish_spec os argv (marked p i) (after_count o m) i o sh s Z TL (inv_cur _ _ _ _ _ _ INV))
      as [(arg & ws' & k & SP & V & SK & LE & F)|(p' & F & ER & NO)]; cbn [marked current] in *.
    + left. exists i, o, arg, ws', (done_arg (marked p i) k arg), (after_count o m).
      split; [exact NM|]. split; [exact E|]. split; [exact OM|]. split; [exact SP|]. split; [exact V|].
      split; [exact F|].
      destruct (inv_marked os argv m0 done p m i o arg (proj1 TO) INV E) as [I1 I2 I3 I4 I5].
      split; [constructor; cbn [done_arg error given current]; auto|].
      split; [exact SK|]. cbn [done_arg cur_arg marked]. destruct arg; auto.
    + right. exists p', (after_count o m). split; [exact F|]. split; [exact ER|].
      intros i' o' arg ws' N' _ SP V. destruct (UN i' o' N') as [-> ->]. apply (NO arg ws'). auto.
Qed.

Lemma inv_cur_arg os argv m0 done p m k a : inv os argv m0 done p m -> (k <= length argv)%nat ->
  inv os argv m0 done (Parser k (given p) a (error p)) m.
Proof. intros [I1 I2 I3 I4 I5] L. constructor; auto. Qed.

Lemma short_outcome os argv m0 done p m c s : table_ok os -> inv os argv m0 done p m -> ~ In 0 (c :: s) ->
  outcome os argv m0 done (short_option os argv p m (c :: s)) (short_is os c) true s (skipn (current p) argv).
Proof.
  intros TO INV Z. unfold short_option. cbn [head hd tl].
  assert (FS : Forall (fun o => o_short o <> Some []) os).
  { destruct TO as (_ & _ & F). eapply Forall_impl; [|exact F]. intros o [A _]. exact A. }
  pose proof (find_short_spec os FS 0%nat c) as FND.
  unfold head. cbn [hd]. destruct (find_short os 0 c) as [[i|]|]; [| |contradiction].
  - destruct FND as (j & o & EI & SI). cbn [Nat.add] in EI. subst j.
    apply (use_outcome os argv m0 done (Parser (current p) (given p) (Some s) (error p)) m i o true s); auto.
    + apply inv_cur_arg; auto. apply (inv_cur _ _ _ _ _ _ INV).
    + apply SI.
    + intros i' o' S'. destruct (short_is_unique _ _ _ _ _ _ SI S') as [-> ->]. auto.
    + intro X. apply Z. now right.
    + discriminate.
  - right. unfold fail. eexists _, _. split; [reflexivity|]. split; [reflexivity|].
    intros i o arg ws' (A & (s' & B) & _). contradiction (FND i o s' A B).
Qed.

Lemma long_outcome os argv m0 done p m s : table_ok os -> inv os argv m0 done p m -> ~ In 0 s ->
  match find_long os 0 s with
  | None => False
  | Some None => forall n i o t, long_is os n i o -> s = n ++ t -> tail_of t -> False
  | Some (Some (i, t)) => exists n, ~ In 61 n /\ s = n ++ t /\ tail_of t /\
      outcome os argv m0 done (use_option os argv (Parser (current p) (given p) None (error p)) m i false t)
        (long_is os n) false t (skipn (current p) argv)
  end.
Proof.
  intros TO INV Z. destruct TO as (LE & FL & FS). assert (TO : table_ok os) by (split; auto).
  pose proof (find_long_spec os FL 0%nat s Z) as FND.
  destruct (find_long os 0 s) as [[[i t]|]|]; [| |contradiction].
  - destruct FND as (j & o & n & EI & ES & TT & LI). cbn [Nat.add] in EI. subst j.
    exists n. split.
    { destruct LI as (A & B & _). rewrite Forall_forall in FL.
      destruct (FL o) as (n' & E & X); [eapply nth_error_In; eauto|]. congruence. }
    split; [exact ES|]. split; [exact TT|].
    apply (use_outcome os argv m0 done (Parser (current p) (given p) None (error p)) m i o false t); auto.
    + apply inv_cur_arg; auto. apply (inv_cur _ _ _ _ _ _ INV).
    + apply LI.
    + intros i' o' S'. destruct (long_is_unique _ _ _ _ _ _ LI S') as [-> ->]. auto.
    + intro X. apply Z. rewrite ES. apply in_or_app. auto.
  - intros n i o t (A & B & _) ES TT. apply (FND i o n t A B ES TT).
Qed.

(** ** The specification, one call at a time *)

Fixpoint chain (os : list opt) (m0 : mem) (done es : list item) : Prop :=
  match es with
  | [] => True
  | e :: es => (forall i o, p_option e = Some i -> nth_error os i = Some o ->
                  once_more os m0 done i o /\ valid_for o (p_argument e))
               /\ chain os m0 (done ++ [e]) es
  end.

(** What is left: the rest [pend] of a word of letters, and the words behind it. *)
Inductive line (os : list opt) (free : bool) : list N -> list (list N) -> list item -> list (list N) -> Prop :=
| Ln_word ws es rest : cmdline false os free ws es rest -> line os free [] ws es rest
| Ln_pend c s ws es ws' es' rest : letters false os (c :: s) ws es ws' -> cmdline false os free ws' es' rest ->
    line os free (c :: s) ws (es ++ es') rest.

Definition pend_of (arg : option (list N)) (s : list N) : list N := match arg with Some _ => [] | None => s end.

(** Letters: the first one, then the rest. *)
Lemma line_pend os free c s ws es rest :
  line os free (c :: s) ws es rest <->
  exists i o arg ws1 es', short_is os c i o /\ shape o true s ws arg ws1
    /\ es = Parsed (Some i) arg :: es' /\ line os free (pend_of arg s) ws1 es' rest.
Proof.
  split.
  - intro H. inversion H as [|? ? ? e1 ws' e2 ? LT CM]; subst. clear H.
    inversion LT; subst.
    + exists i, o, None, ws. eexists. split; [eassumption|]. split; [now constructor|]. split; [reflexivity|].
      cbn [pend_of]. destruct s as [|c' s']; [unfold letter in *; cbn in *; lia|]. econstructor; eassumption.
    + match goal with X : _ \/ _ |- _ => destruct X as [X|[X _]]; [|discriminate] end.
      exists i, o, None, ws', e2. split; [assumption|]. split; [now constructor|]. split; [reflexivity|].
      now constructor.
    + exists i, o, (Some a), ws', e2. split; [assumption|]. split; [now constructor|]. split; [reflexivity|].
      now constructor.
    + match goal with X : _ \/ _ |- _ => destruct X as [X|X]; [|discriminate] end.
      exists i, o, (Some s), ws', e2. split; [assumption|]. split; [now constructor|]. split; [reflexivity|].
      now constructor.
    + exists i, o, (Some a), ws', e2. split; [assumption|]. split; [now constructor|]. split; [reflexivity|].
      now constructor.
  - intros (i & o & arg & ws1 & es' & SI & SP & -> & LN).
    inversion SP; subst; cbn [pend_of] in LN.
    + destruct s as [|c' s']; [unfold letter in *; cbn in *; lia|].
      inversion LN; subst. rewrite app_comm_cons. econstructor; [|eassumption]. econstructor; eassumption.
    + inversion LN; subst. change (Parsed (Some i) None :: es') with ([Parsed (Some i) None] ++ es').
      econstructor; [|eassumption]. eapply L_last; eauto.
    + inversion LN; subst. change (Parsed (Some i) (Some a) :: es') with ([Parsed (Some i) (Some a)] ++ es').
      econstructor; [|eassumption]. eapply L_equal; eauto.
    + inversion LN; subst. change (Parsed (Some i) (Some s) :: es') with ([Parsed (Some i) (Some s)] ++ es').
      econstructor; [|eassumption]. eapply L_attached; eauto.
    + inversion LN; subst. change (Parsed (Some i) (Some a) :: es') with ([Parsed (Some i) (Some a)] ++ es').
      econstructor; [|eassumption]. eapply L_next; eauto.
Qed.

Lemma line_short_word os free c s ws es rest : c <> 45 ->
  line os free [] ((45 :: c :: s) :: ws) es rest <-> line os free (c :: s) ws es rest.
Proof.
  intro NC. split; intro H; inversion H; subst.
  - match goal with X : cmdline _ _ _ _ _ _ |- _ => inversion X; subst end; [congruence|].
    match goal with X : word _ _ _ _ _ _ _ |- _ => inversion X; subst end; try congruence.
    + match goal with X : plain _ |- _ => now contradiction X end.
    + econstructor; eassumption.
  - constructor. econstructor; [|eassumption]. now constructor.
Qed.

Lemma line_long_word os free s ws es rest : table_ok os -> isalnum (hd 0 s) = true ->
  line os free [] ((45 :: 45 :: s) :: ws) es rest <->
  exists n t i o arg ws1 es', s = n ++ t /\ tail_of t /\ ~ In 61 n /\ long_is os n i o /\ shape o false t ws arg ws1
    /\ es = Parsed (Some i) arg :: es' /\ line os free [] ws1 es' rest.
Proof.
  intros (_ & FL & _) AL. apply isalnum_spec in AL.
  assert (LE : forall n i o, long_is os n i o -> ~ In 61 n).
  { intros n i o (A & B & _). rewrite Forall_forall in FL.
    destruct (FL o) as (n' & E & X); [eapply nth_error_In; eauto|]. congruence. }
  split.
  - intro H. inversion H; subst.
    match goal with X : cmdline _ _ _ _ _ _ |- _ => inversion X; subst end; [tauto|].
    match goal with X : word _ _ _ _ _ _ _ |- _ => inversion X; subst end; try congruence.
    + match goal with X : plain _ |- _ => now contradiction X end.
    + match goal with X : _ \/ (_ /\ _) |- _ => destruct X as [X|[X _]]; [|discriminate] end.
      exists s, [], i, o, None, ws', es'. rewrite app_nil_r. split; [reflexivity|]. split; [now left|].
      split; [eapply LE; eassumption|]. split; [assumption|]. split; [now constructor|]. split; [reflexivity|]. now constructor.
    + exists name, (61 :: a), i, o, (Some a), ws', es'. split; [reflexivity|]. split; [right; eauto|].
      split; [eapply LE; eassumption|]. split; [assumption|]. split; [now constructor|]. split; [reflexivity|]. now constructor.
    + exists s, [], i, o, (Some a), ws', es'. rewrite app_nil_r. split; [reflexivity|]. split; [now left|].
      split; [eapply LE; eassumption|]. split; [assumption|]. split; [now constructor|]. split; [reflexivity|]. now constructor.
  - intros (n & t & i & o & arg & ws1 & es' & ES & TT & NE & LI & SP & -> & LN). inversion LN; subst.
    constructor. change (Parsed (Some i) arg :: es') with ([Parsed (Some i) arg] ++ es').
    assert (HN : digit (hd 0 n) \/ letter (hd 0 n)).
    { destruct n as [|x n]; [|exact AL]. cbn [app] in AL.
      destruct TT as [->|(a & ->)]; cbn [hd] in AL; unfold digit, letter in AL; lia. }
    econstructor; [|eassumption]. inversion SP; subst.
    + rewrite app_nil_r. eapply W_long; eauto.
    + eapply W_long_equal; eauto.
    + rewrite app_nil_r. eapply W_long_next; eauto.
Qed.

Lemma line_stop_word os free s ws es rest : isalnum (hd 0 s) = false ->
  line os free [] ((45 :: 45 :: s) :: ws) es rest <-> es = [] /\ rest = ws.
Proof.
  intro AL. assert (ND : ~ digit (hd 0 s) /\ ~ letter (hd 0 s)).
  { rewrite <- isdigit_spec, <- isalpha_spec. unfold isalnum in AL. destruct (isdigit _), (isalpha _); try discriminate. split; discriminate. }
  split.
  - intro H. inversion H; subst.
    match goal with X : cmdline _ _ _ _ _ _ |- _ => inversion X; subst end; [auto|].
    match goal with X : word _ _ _ _ _ _ _ |- _ => inversion X; subst end; try congruence; try tauto.
    + match goal with X : plain _ |- _ => now contradiction X end.
    + exfalso. destruct name as [|x n]; cbn [app hd] in *; [|tauto]. unfold digit, letter in *. lia.
  - intros [-> ->]. constructor. now constructor.
Qed.

Lemma line_free_word os free w ws es rest : plain w ->
  line os free [] (w :: ws) es rest <->
  exists es', free = true /\ es = Parsed None (Some w) :: es' /\ line os free [] ws es' rest.
Proof.
  intro PW. split.
  - intro H. inversion H; subst.
    match goal with X : cmdline _ _ _ _ _ _ |- _ => inversion X; subst end; [now contradiction PW|].
    match goal with X : word _ _ _ _ _ _ _ |- _ => inversion X; subst end; try (now contradiction PW).
    exists es'. repeat split; auto. now constructor.
  - intros (es' & -> & -> & LN). inversion LN; subst. constructor.
    change (Parsed None (Some w) :: es') with ([Parsed None (Some w)] ++ es'). econstructor; [|eassumption]. now constructor.
Qed.

Lemma line_dash_word os free ws es rest : ~ line os free [] ([45] :: ws) es rest.
Proof.
  intro H. inversion H; subst.
  match goal with X : cmdline _ _ _ _ _ _ |- _ => inversion X; subst end.
  match goal with X : word _ _ _ _ _ _ _ |- _ => inversion X; subst end.
  match goal with X : plain _ |- _ => now contradiction X end.
Qed.

(** ** Whole runs *)

Definition size_of (pend : list N) (ws : list (list N)) : nat := (length pend + (length ws + length (concat ws)))%nat.

Definition at_state (argv : list (list N)) (p : parser) (pend : list N) : Prop :=
  match pend with
  | [] => cur_arg p = None \/ (cur_arg p = Some [] /\ no_plain (skipn (current p) argv))
  | c :: s => cur_arg p = Some (c :: s) /\ letter c
  end.

Lemma shape_size o sh s ws arg ws' : shape o sh s ws arg ws' -> (size_of (pend_of arg s) ws' <= size_of s ws)%nat.
Proof.
  intro H. inversion H; subst; unfold size_of; cbn [pend_of length concat]; rewrite ?app_length; lia.
Qed.

Lemma shape_state o sh s argv p ws arg : shape o sh s ws arg (skipn (current p) argv) ->
  cur_arg p = match arg with Some _ => None | None => if sh then Some s else None end ->
  (sh = false -> pend_of arg s = []) ->
  at_state argv p (pend_of arg s).
Proof.
  intros H CA SH. inversion H; subst; cbn [pend_of] in *; unfold at_state; auto.
  - destruct s as [|c s]; [unfold letter in *; cbn in *; lia|]. auto.
  - destruct sh; auto.
Qed.

Lemma shape_c_strings o sh s ws arg ws' : shape o sh s ws arg ws' -> c_strings ws -> c_strings ws'.
Proof. intros H C. inversion H; subst; auto. now inversion C. Qed.

Definition verdict (os : list opt) (free : bool) (argv : list (list N)) (m0 : mem) (done : list item)
    (pend : list N) (ws : list (list N)) (r : option (list parsed * parser * mem)) : Prop :=
  exists es p' m', r = Some (es, p', m') /\
    ((error p' = false /\ inv os argv m0 (done ++ es) p' m' /\ chain os m0 done es
      /\ line os free pend ws es (skipn (current p') argv))
     \/ (error p' = true /\ forall es' rest, line os free pend ws es' rest -> chain os m0 done es' -> False)).

Lemma verdict_step os free argv m0 done (named : nat -> opt -> Prop) sh s ws pend ws0 r n
  (NU : forall i o i' o', named i o -> named i' o' -> i = i' /\ o = o')
  (EQ : forall es rest, line os free pend ws0 es rest <->
     exists i o arg ws1 es', named i o /\ nth_error os i = Some o /\ shape o sh s ws arg ws1 /\ es = Parsed (Some i) arg :: es'
       /\ line os free (pend_of arg s) ws1 es' rest)
  (SH : sh = false -> tail_of s)
  (OUT : outcome os argv m0 done r named sh s ws)
  (CS : c_strings ws)
  (IH : forall p' m' done' pend', inv os argv m0 done' p' m' -> at_state argv p' pend' -> ~ In 0 pend' ->
     c_strings (skipn (current p') argv) -> (size_of pend' (skipn (current p') argv) <= size_of s ws)%nat ->
     verdict os free argv m0 done' pend' (skipn (current p') argv) (run n os free argv p' m'))
  (Z : ~ In 0 s) :
  verdict os free argv m0 done pend ws0
    (' (r, p, m) <- r;;
     match r with
     | None => Some ([], p, m)
     | Some e => ' (es, p, m) <- run n os free argv p m;; Some (e :: es, p, m)
     end).
Proof.
  destruct OUT as [(i & o & arg & ws' & p' & m' & NM & E & OM & SP & V & -> & I' & SK & CA)|(p' & m' & -> & ER & NO)].
  - assert (PS : sh = false -> pend_of arg s = []).
    { intros ->. inversion SP; subst; reflexivity. }
    assert (CS' : c_strings ws') by (eapply shape_c_strings; eauto).
    rewrite <- SK in SP, CS'.
    assert (NZ : ~ In 0 (pend_of arg s)) by (destruct arg; cbn [pend_of]; auto).
    destruct (IH p' m' _ (pend_of arg s) I' (shape_state o sh s argv p' ws arg SP CA PS) NZ CS' (shape_size _ _ _ _ _ _ SP))
      as (es & pf & mf & R & H).
    rewrite R. exists (Parsed (Some i) arg :: es), pf, mf. split; [reflexivity|].
    destruct H as [(ER & IF & CH & LN)|(ER & NL)].
    + left. split; [exact ER|]. split; [now rewrite <- app_assoc in IF|]. split.
      * cbn [chain]. split; [|exact CH]. cbn [p_option p_argument]. intros i' o' Ei Eo.
        assert (i' = i) by congruence. subst i'. assert (o' = o) by congruence. subst o'. auto.
      * apply EQ. exists i, o, arg, (skipn (current p') argv), es. auto.
    + right. split; [exact ER|]. intros es' rest LN CH. apply EQ in LN.
      destruct LN as (i2 & o2 & arg2 & ws2 & es2 & N2 & E2 & SP2 & -> & LN).
      destruct (NU _ _ _ _ NM N2) as [<- <-].
      destruct (shape_det _ _ _ _ _ _ _ _ SP SP2) as [<- <-].
      cbn [chain] in CH. destruct CH as [_ CH]. eapply NL; eauto.
  - exists [], p', m'. split; [reflexivity|]. right. split; [exact ER|]. intros es' rest LN CH.
    apply EQ in LN. destruct LN as (i2 & o2 & arg2 & ws2 & es2 & N2 & E2 & SP2 & -> & LN).
    cbn [chain p_option p_argument] in CH. destruct CH as [CH _]. destruct (CH i2 o2 eq_refl E2). eapply NO; eauto.
Qed.

Lemma run_verdict os free argv m0 : table_ok os -> forall n p m done pend,
  inv os argv m0 done p m -> at_state argv p pend -> ~ In 0 pend ->
  c_strings (skipn (current p) argv) -> (size_of pend (skipn (current p) argv) < n)%nat ->
  verdict os free argv m0 done pend (skipn (current p) argv) (run n os free argv p m).
Proof.
  intros TO. induction n as [|n IH]; [lia|]. intros p m done pend INV AT Z CS LN.
  cbn [run]. unfold next.
  replace (negb (error p)) with true by (rewrite (inv_error _ _ _ _ _ _ INV); reflexivity).
  cbn [assert_]. cbv zeta.
  destruct pend as [|c s].
  - (* at a word *)
    set (ws := skipn (current p) argv) in *.
    assert (FE : (match cur_arg p with
       | Some (c :: s) => Some (c :: s, p)
       | _ => match nth_error argv (current p) with
              | Some w => Some (w, Parser (S (current p)) (given p) (cur_arg p) (error p))
              | None => None
              end
       end) = match ws with w :: _ => Some (w, Parser (S (current p)) (given p) (cur_arg p) (error p)) | [] => None end).
    { rewrite nth_error_skipn. fold ws. destruct AT as [->|[-> _]]; destruct ws; reflexivity. }
    rewrite FE. clear FE. destruct ws as [|w r] eqn:WS.
    + cbn. exists [], p, m. split; [reflexivity|]. left. rewrite app_nil_r. split; [apply (inv_error _ _ _ _ _ _ INV)|].
      split; [exact INV|]. split; [exact I|]. fold ws. rewrite WS. constructor. constructor.
    + destruct (skipn_S argv (current p) w r WS) as [SK LE].
      assert (ZW : ~ In 0 w) by (now inversion CS). assert (CR : c_strings r) by (now inversion CS).
      set (p1 := Parser (S (current p)) (given p) (cur_arg p) (error p)).
      assert (I1 : inv os argv m0 done p1 m) by (apply inv_cur_arg; auto).
      assert (SK1 : skipn (current p1) argv = r) by exact SK.
      destruct (N.eqb_spec (head w) 45) as [HW|HW].
      * destruct w as [|x w]; [discriminate|]. cbn [head hd] in HW. assert (x = 45) by exact HW. subst x. cbn [tl].
        destruct w as [|c s].
        -- (* "-" *)
           cbn [head hd]. change (head [] =? 45) with false. cbv iota.
           exists [], (Parser (current p1) (given p1) (cur_arg p1) true), m.
           assert (FS : Forall (fun o => o_short o <> Some []) os).
           { destruct TO as (_ & _ & F). eapply Forall_impl; [|exact F]. intros o [A _]. exact A. }
           pose proof (find_short_spec os FS 0%nat 0) as FND. unfold short_option.
           change (head []) with 0. destruct (find_short os 0 0) as [[i|]|]; [| |contradiction].
           ++ exfalso. destruct FND as (j & o & _ & A & (s' & B) & _). destruct TO as (_ & _ & F).
              rewrite Forall_forall in F. destruct (F o) as [_ F2]; [eapply nth_error_In; eauto|]. now apply (F2 s').
           ++ split; [reflexivity|]. right. split; [reflexivity|]. intros es' rest LNE. now apply line_dash_word in LNE.
        -- unfold head at 1. cbn [hd]. destruct (N.eqb_spec c 45) as [->|NC].
           ++ (* long *)
              cbn [tl]. unfold head at 1. destruct (isalnum (hd 0 s)) eqn:AL; cbn [negb].
              ** assert (ZS : ~ In 0 s) by (intro X; apply ZW; right; now right).
                 pose proof (long_outcome os argv m0 done p1 m s TO I1 ZS) as LO.
                 destruct (find_long os 0 s) as [[[i t]|]|]; [| |contradiction].
                 --- destruct LO as (nm & NE & ES & TT & LO). rewrite SK1 in LO.
                     eapply (verdict_step os free argv m0 done (long_is os nm) false t r _ _ _ n); eauto.
                     +++ intros. eapply long_is_unique; eauto.
                     +++ intros es rest. rewrite (line_long_word os free s r es rest TO AL). split.
                         *** intros (n2 & t2 & i2 & o2 & arg & ws1 & es' & ES2 & TT2 & NE2 & LI2 & SP & -> & LX).
                             rewrite ES in ES2. destruct (name_tail_unique _ _ _ _ NE NE2 TT TT2 ES2) as [<- <-].
                             exists i2, o2, arg, ws1, es'. split; [exact LI2|]. split; [apply LI2|]. split; [exact SP|].
                             split; [reflexivity|]. inversion SP; subst; exact LX.
                         *** intros (i2 & o2 & arg & ws1 & es' & LI2 & _ & SP & -> & LX).
                             exists nm, t, i2, o2, arg, ws1, es'. repeat (split; [assumption|]). split; [reflexivity|].
                             inversion SP; subst; exact LX.
                     +++ intros p' m' done' pend' A B C D E. apply IH; auto.
                         revert LN E. unfold size_of. cbn [length concat]. rewrite ES. rewrite !app_length. cbn [length]. rewrite app_length. lia.
                     +++ intro X. apply ZS. rewrite ES. apply in_or_app. auto.
                 --- unfold fail. exists [], (Parser (current p1) (given p1) (cur_arg p1) true), m. split; [reflexivity|].
                     right. split; [reflexivity|]. intros es' rest LX _. apply line_long_word in LX; auto.
                     destruct LX as (n2 & t2 & i2 & o2 & arg & ws1 & es2 & ES2 & TT2 & NE2 & LI2 & _). eapply LO; eauto.
              ** exists [], p1, m. split; [reflexivity|]. left. rewrite app_nil_r. split; [apply (inv_error _ _ _ _ _ _ INV)|].
                 split; [exact I1|]. split; [exact I|]. rewrite SK1. apply line_stop_word; auto.
           ++ (* short *)
              assert (ZS : ~ In 0 (c :: s)) by (intro X; apply ZW; now right).
              pose proof (short_outcome os argv m0 done p1 m c s TO I1 ZS) as SO. rewrite SK1 in SO.
              eapply (verdict_step os free argv m0 done (short_is os c) true s r _ _ _ n); eauto.
              ** intros. eapply short_is_unique; eauto.
              ** intros es rest. rewrite line_short_word by exact NC. rewrite line_pend. split.
                 --- intros (i & o & arg & ws1 & es' & A & B & C & D). exists i, o, arg, ws1, es'.
                     split; [exact A|]. split; [apply A|]. auto.
                 --- intros (i & o & arg & ws1 & es' & A & _ & B & C & D). exists i, o, arg, ws1, es'. auto.
              ** discriminate.
              ** intros p' m' done' pend' A B C D E. apply IH; auto.
                 revert LN E. unfold size_of. cbn [length concat]. rewrite !app_length. cbn [length]. lia.
              ** intro X. apply ZS. now right.
      * (* a plain word *)
        assert (PW : plain w) by exact HW.
        destruct AT as [CA|[CA NP]]; [|exfalso; fold ws in NP; rewrite WS in NP; exact (NP PW)].
        change (cur_arg p1) with (cur_arg p). rewrite CA. destruct free.
        -- assert (I2 : inv os argv m0 (done ++ [Parsed None (Some w)]) p1 m).
           { destruct I1 as [J1 J2 J3 J4 J5]. constructor; auto.
             - intros i LI. rewrite occurs_snoc. cbn. auto.
             - unfold effects. rewrite fold_left_app. cbn. exact J4. }
           destruct (IH p1 m (done ++ [Parsed None (Some w)]) [] I2) as (es & pf & mf & R & H).
           ++ left. exact CA.
           ++ auto.
           ++ now rewrite SK1.
           ++ rewrite SK1. revert LN. unfold size_of. cbn [length concat]. rewrite app_length. lia.
           ++ rewrite R. exists (Parsed None (Some w) :: es), pf, mf. split; [reflexivity|].
              destruct H as [(ER & IF & CH & LX)|(ER & NL)].
              ** left. split; [exact ER|]. split; [now rewrite <- app_assoc in IF|]. split.
                 --- cbn [chain]. split; [|exact CH]. discriminate.
                 --- apply line_free_word; auto. exists es. rewrite SK1 in LX. auto.
              ** right. split; [exact ER|]. intros es' rest LX CH. apply line_free_word in LX; auto.
                 destruct LX as (e2 & _ & -> & LX). destruct CH as [_ CH]. rewrite SK1 in NL. eapply NL; eauto.
        -- unfold fail. exists [], (Parser (current p1) (given p1) (cur_arg p1) true), m. split; [reflexivity|].
           right. split; [reflexivity|]. intros es' rest LX _. apply line_free_word in LX; auto.
           destruct LX as (e2 & X & _). discriminate.
  - (* in a word of letters *)
    destruct AT as [CA LC]. rewrite CA. unfold head at 1. cbn [hd].
    assert (NC : c <> 45) by (unfold letter in LC; lia). destruct (N.eqb_spec c 45); [contradiction|].
    pose proof (short_outcome os argv m0 done p m c s TO INV Z) as SO.
    eapply (verdict_step os free argv m0 done (short_is os c) true s _ _ _ _ n); eauto.
    + intros. eapply short_is_unique; eauto.
    + intros es rest. rewrite line_pend. split.
      * intros (i & o & arg & ws1 & es' & A & B & C & D). exists i, o, arg, ws1, es'.
        split; [exact A|]. split; [apply A|]. auto.
      * intros (i & o & arg & ws1 & es' & A & _ & B & C & D). exists i, o, arg, ws1, es'. auto.
    + discriminate.
    + rewrite CA. exact SO.
    + intros p' m' done' pend' A B C D E. apply IH; auto.
      revert LN E. unfold size_of. cbn [length]. lia.
    + intro X. apply Z. now right.
Qed.

(** ** From the start *)

Lemma parser_start os argv m : inv os argv m [] (Parser 0 [0; 0; 0; 0] None false) m.
Proof.
  constructor; try reflexivity; [|cbn; lia]. intros i _. unfold given_bit, occurs. cbn [given occurrences filter length negb Nat.eqb].
  assert (nth (i / 32) [0; 0; 0; 0] 0 = 0).
  { destruct (i / 32)%nat as [|[|[|[|k]]]]; auto. destruct k; reflexivity. }
  rewrite H, N.bits_0. reflexivity.
Qed.

Lemma parse_verdict os free argv m : table_ok os -> forallb has_name os = true -> c_strings argv ->
  exists es p m', parse_line os free argv m = Some (es, p, m') /\
    ((error p = false /\ inv os argv m es p m' /\ chain os m [] es
      /\ cmdline false os free argv es (skipn (current p) argv))
     \/ (error p = true /\ forall es' rest, cmdline false os free argv es' rest -> chain os m [] es' -> False)).
Proof.
  intros TO HN CS. unfold parse_line, make_parser_ex.
  destruct (Nat.leb_spec (length os) 128); [|destruct TO; lia]. rewrite HN. cbn [assert_].
  destruct (run_verdict os free argv m TO (line_fuel argv) _ m [] [] (parser_start os argv m)) as (es & p & m' & R & H1);
    [now left|auto|exact CS|unfold size_of, line_fuel; cbn; lia|].
  exists es, p, m'. split; [exact R|]. destruct H1 as [(A & B & C & D)|(A & B)].
  - left. split; [exact A|]. split; [exact B|]. split; [exact C|]. inversion D; subst; assumption.
  - right. split; [exact A|]. intros es' rest CM CH. apply (B es' rest); auto. now constructor.
Qed.

Lemma usable_names os : usable os -> forallb has_name os = true.
Proof.
  intros [_ F]. apply forallb_forall. intros o I. rewrite Forall_forall in F.
  destruct (F o I) as ((n & E & _ & _ & D) & B & _). unfold has_name. rewrite E.
  destruct (o_short o) as [[|c s]|]; try reflexivity; [congruence|]. destruct D as [D|D]; [|congruence].
  destruct n; [congruence|reflexivity].
Qed.
