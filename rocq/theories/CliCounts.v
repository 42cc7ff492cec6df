(** How often options are given, counters, outputs, required options and validators. *)
From Coq Require Import Arith NArith ZArith List Bool Lia ZifyBool ZifyNat ZifyN.
From Verif Require Import Base CliModel CliSpec CliProofs.
Import ListNotations.
Local Open Scope N_scope.

(** ** Limits *)

Lemma occurrences_app es1 es2 i : occurrences (es1 ++ es2) i = (occurrences es1 i + occurrences es2 i)%nat.
Proof. unfold occurrences. rewrite filter_app, app_length. reflexivity. Qed.
Lemma occurrences_one e i : occurrences [e] i = match p_option e with Some j => if Nat.eqb i j then 1%nat else 0%nat | None => 0%nat end.
Proof. unfold occurrences. cbn [filter]. destruct (p_option e) as [j|]; [destruct (Nat.eqb i j)|]; reflexivity. Qed.

Lemma store_same m a v : store m a v a = v.
Proof. unfold store. now rewrite Nat.eqb_refl. Qed.
Lemma store_other m a v b : b <> a -> store m a v b = m b.
Proof. intro H. unfold store. destruct (Nat.eqb_spec b a); congruence. Qed.

Lemma write_output_other o m a : (o_output o = Some a -> o_outtype o = ONone) -> write_output o m a = m a.
Proof.
  intro H. unfold write_output. destruct (o_output o) as [b|]; [|reflexivity].
  destruct (Nat.eq_dec a b) as [->|N].
  - rewrite H by reflexivity. reflexivity.
  - destruct (o_outtype o); rewrite ?store_other by auto; reflexivity.
Qed.
Lemma count_other o m a : o_counter o <> Some a -> snd (count_option o m) a = m a.
Proof.
  intro H. unfold count_option. destruct (o_counter o) as [b|]; [|reflexivity]. cbn [snd].
  apply store_other. congruence.
Qed.

Lemma effects_snoc os es e m : effects os (es ++ [e]) m = effect os e (effects os es m).
Proof. unfold effects. rewrite fold_left_app. reflexivity. Qed.

Lemma counter_value os m i o a : nth_error os i = Some o -> o_counter o = Some a -> m a = 0 ->
  (forall j o', nth_error os j = Some o' -> j <> i -> o_counter o' <> Some a) ->
  (forall j o', nth_error os j = Some o' -> o_output o' = Some a -> o_outtype o' = ONone) ->
  forall es, effects os es m a = w32 (N.of_nat (occurrences es i)).
Proof.
  intros E CO M0 NC NO es. induction es as [|e es IH] using rev_ind; [exact M0|].
  rewrite effects_snoc, occurrences_app, occurrences_one. unfold effect.
  destruct (p_option e) as [j|]; [|now rewrite Nat.add_0_r].
  destruct (Nat.eqb_spec i j) as [<-|NE].
  - rewrite E, write_output_other by (now apply (NO i)). unfold count_option. rewrite CO. cbn [snd].
    rewrite store_same, IH. unfold w32. rewrite N.add_mod_idemp_l by discriminate. f_equal. lia.
  - rewrite Nat.add_0_r. destruct (nth_error os j) as [o'|] eqn:EJ; [|exact IH].
    rewrite write_output_other by (now apply (NO j)). rewrite count_other by (apply (NC j); auto). exact IH.
Qed.

Lemma once_more_amount os m done i o : counted os m -> nth_error os i = Some o ->
  amount_ok o (occurrences done i) ->
  once_more os m done i o <-> amount_ok o (S (occurrences done i)).
Proof.
  intros C E A. unfold once_more, occurs, too_many, amount_ok in *.
  destruct (Nat.eqb_spec (occurrences done i) 0) as [Z|NZ]; cbn [negb].
  - rewrite Z. split; [lia|discriminate].
  - destruct (Z.leb_spec 2 (o_max o)) as [G|G].
    + destruct (C i o E G) as (L & a & CO & M0 & NC & NO).
      assert (V : fst (count_option o (effects os done m)) = N.of_nat (S (occurrences done i))).
      { unfold count_option. rewrite CO. cbn [fst]. rewrite (counter_value os m i o a E CO M0 NC NO).
        unfold w32. rewrite (N.mod_small (N.of_nat (occurrences done i))) by lia. rewrite N.mod_small by lia. lia. }
      rewrite V. split; intro H; [specialize (H eq_refl)|intros _]; lia.
    + split; intro H; [specialize (H eq_refl)|intros _]; lia.
Qed.

Lemma amount_le o n k : (n <= k)%nat -> amount_ok o k -> amount_ok o n.
Proof. unfold amount_ok. lia. Qed.

Lemma chain_amount os m : counted os m -> forall es done,
  (forall i o, nth_error os i = Some o -> amount_ok o (occurrences done i)) ->
  chain os m done es <->
  Forall (valid_argument os) es
  /\ forall i o, nth_error os i = Some o -> amount_ok o (occurrences (done ++ es) i).
Proof.
  intros C. induction es as [|e es IH]; intros done D; cbn [chain].
  - rewrite app_nil_r. split; auto.
  - assert (AE : done ++ e :: es = (done ++ [e]) ++ es) by (now rewrite <- app_assoc).
    assert (ST : (forall i o, p_option e = Some i -> nth_error os i = Some o -> once_more os m done i o)
                 <-> forall i o, nth_error os i = Some o -> amount_ok o (occurrences (done ++ [e]) i)).
    { split.
      - intros H i o E. rewrite occurrences_app, occurrences_one. destruct (p_option e) as [j|] eqn:PE.
        + destruct (Nat.eqb_spec i j) as [<-|NE]; [|rewrite Nat.add_0_r; auto].
          rewrite Nat.add_1_r. apply (once_more_amount os m done i o C E (D i o E)). apply H; auto.
        + rewrite Nat.add_0_r. auto.
      - intros H i o PE E. apply (once_more_amount os m done i o C E (D i o E)).
        specialize (H i o E). rewrite occurrences_app, occurrences_one, PE, Nat.eqb_refl, Nat.add_1_r in H. exact H. }
    rewrite AE. split.
    + intros [H CH]. assert (D' : forall i o, nth_error os i = Some o -> amount_ok o (occurrences (done ++ [e]) i)).
      { apply ST. intros i o PE E. now apply H. }
      apply (IH _ D') in CH. destruct CH as [V A]. split; [|exact A]. constructor; [|exact V].
      intros i o a v PE E PA OV. destruct (H i o PE E) as [_ VF]. exact (VF a v PA OV).
    + intros [V A]. inversion V as [|? ? VE V']; subst.
      assert (D' : forall i o, nth_error os i = Some o -> amount_ok o (occurrences (done ++ [e]) i)).
      { intros i o E. apply (amount_le o _ (occurrences ((done ++ [e]) ++ es) i)); [|auto].
        rewrite (occurrences_app (done ++ [e]) es). lia. }
      split.
      * intros i o PE E. split; [now apply ST|]. intros a v PA OV. eapply VE; eauto.
      * apply IH; auto.
Qed.

(** ** Required options *)

Lemma validate_loop_spec os0 argv m0 done p m : inv os0 argv m0 done p m -> (length os0 <= 128)%nat -> forall os i,
  (i + length os = length os0)%nat ->
  match validate_loop os i p with
  | None => False
  | Some (true, p') => p' = p /\ forall j o, nth_error os j = Some o -> o_required o = true -> occurs done (i + j) = true
  | Some (false, p') => error p' = true /\
      exists j o, nth_error os j = Some o /\ o_required o = true /\ occurs done (i + j) = false
  end.
Proof.
  intros INV LE. induction os as [|o os IH]; intros i L; cbn [validate_loop].
  - split; [reflexivity|]. intros [|j]; discriminate.
  - cbn [length] in L. specialize (IH (S i) ltac:(lia)).
    assert (SHIFT : forall P : bool, (o_required o = true -> occurs done i = true) ->
      match validate_loop os (S i) p with
      | None => False
      | Some (true, p') => p' = p /\ forall j o', nth_error (o :: os) j = Some o' -> o_required o' = true -> occurs done (i + j) = true
      | Some (false, p') => error p' = true /\
          exists j o', nth_error (o :: os) j = Some o' /\ o_required o' = true /\ occurs done (i + j) = false
      end).
    { intros _ R. destruct (validate_loop os (S i) p) as [[[|] p']|]; [| |exact IH].
      - destruct IH as [-> IH]. split; [reflexivity|]. intros [|j] o' E RQ.
        + cbn in E. assert (o = o') by congruence. subst. rewrite Nat.add_0_r. auto.
        + replace (i + S j)%nat with (S i + j)%nat by lia. eapply IH; eauto.
      - destruct IH as (ER & j & o' & E & RQ & OC). split; [exact ER|]. exists (S j), o'.
        replace (i + S j)%nat with (S i + j)%nat by lia. auto. }
    destruct (o_required o) eqn:RQ; [|apply (SHIFT true); discriminate].
    rewrite flag_pair_spec by lia. rewrite land_pow2. fold (given_bit (given p) i).
    rewrite (inv_given _ _ _ _ _ _ INV i ltac:(lia)). destruct (occurs done i) eqn:OC; cbn [negb].
    + apply (SHIFT true). auto.
    + split; [reflexivity|]. exists 0%nat, o. rewrite Nat.add_0_r. auto.
Qed.

Lemma occurs_spec es i : occurs es i = true <-> occurrences es i <> 0%nat.
Proof. unfold occurs. destruct (Nat.eqb_spec (occurrences es i) 0); cbn [negb]; split; congruence. Qed.

(** ** Outputs *)

Lemma given_options_snoc os es e : given_options os (es ++ [e]) =
  given_options os es ++ match p_option e with
                         | Some i => match nth_error os i with Some o => [o] | None => [] end
                         | None => []
                         end.
Proof. unfold given_options. rewrite flat_map_app. cbn [flat_map]. now rewrite app_nil_r. Qed.

Lemma given_options_in os es o : In o (given_options os es) -> In o os.
Proof.
  unfold given_options. rewrite in_flat_map. intros (e & _ & H).
  destruct (p_option e) as [i|]; [|contradiction]. destruct (nth_error os i) eqn:E; [|contradiction].
  destruct H as [<-|[]]. eapply nth_error_In; eauto.
Qed.

Lemma effects_flag os a m : only_output a OFlag os -> forall es k,
  N.testbit (effects os es m a) k = true <->
  N.testbit (m a) k = true \/ exists o, In o (given_options os es) /\ writes a OFlag o /\ N.testbit (o_value o) k = true.
Proof.
  intros F es k. induction es as [|e es IH] using rev_ind.
  - cbn. split; [auto|]. intros [H|(o & [] & _)]. exact H.
  - rewrite effects_snoc, given_options_snoc. unfold effect. destruct (p_option e) as [i|]; [|now rewrite app_nil_r].
    destruct (nth_error os i) as [o|] eqn:E; [|now rewrite app_nil_r].
    unfold only_output in F. rewrite Forall_forall in F. destruct (F o) as [NC OK]; [eapply nth_error_In; eauto|].
    assert (W : N.testbit (write_output o (snd (count_option o (effects os es m))) a) k = true <->
                N.testbit (effects os es m a) k = true \/ (writes a OFlag o /\ N.testbit (o_value o) k = true)).
    { unfold write_output, writes. destruct (o_output o) as [b|]; [|rewrite count_other by auto; split; [auto|intros [X|[[X _] _]]; [exact X|discriminate]]].
      destruct (Nat.eq_dec a b) as [<-|NB].
      - destruct (OK eq_refl) as [->| ->].
        + rewrite store_same, N.lor_spec, orb_true_iff, count_other by auto. tauto.
        + rewrite count_other by auto. split; [auto|]. intros [X|[[_ X] _]]; [exact X|discriminate].
      - assert (X : forall v, store (snd (count_option o (effects os es m))) b v a = effects os es m a)
          by (intro v; rewrite store_other by auto; now apply count_other).
        destruct (o_outtype o); rewrite ?X, ?count_other by auto; (split; [auto|intros [Y|[[Y _] _]]; [exact Y|congruence]]). }
    rewrite W, IH. split.
    + intros [[H|(o' & I' & H)]|H]; [auto|right; exists o'; rewrite in_app_iff; auto|right; exists o; rewrite in_app_iff; cbn; auto].
    + intros [H|(o' & I' & H)]; [auto|]. rewrite in_app_iff in I'. destruct I' as [I'|[<-|[]]]; [|auto].
      left. right. exists o'. auto.
Qed.

Lemma effects_assign os a m : only_output a OAssign os -> forall es,
  effects os es m a =
  match find (fun o => match o_output o, o_outtype o with Some b, OAssign => Nat.eqb a b | _, _ => false end)
             (rev (given_options os es)) with
  | Some o => o_value o
  | None => m a
  end.
Proof.
  intros F es. induction es as [|e es IH] using rev_ind; [reflexivity|].
  rewrite effects_snoc, given_options_snoc. unfold effect. destruct (p_option e) as [i|]; [|now rewrite app_nil_r].
  destruct (nth_error os i) as [o|] eqn:E; [|now rewrite app_nil_r].
  unfold only_output in F. rewrite Forall_forall in F. destruct (F o) as [NC OK]; [eapply nth_error_In; eauto|].
  rewrite rev_app_distr. cbn [rev app find]. unfold write_output.
  destruct (o_output o) as [b|]; [|rewrite count_other by auto; exact IH].
  destruct (Nat.eqb_spec a b) as [<-|NB].
  - destruct (OK eq_refl) as [->| ->]; [now rewrite store_same|]. rewrite count_other by auto. exact IH.
  - destruct (o_outtype o); rewrite ?store_other, count_other by auto; exact IH.
Qed.

Lemma effects_count os a m : only_counted a os -> forall es,
  effects os es m a mod 4294967296 = (m a + fold_right (fun o s => increase a o + s) 0 (given_options os es)) mod 4294967296
  /\ (m a < 4294967296 -> effects os es m a < 4294967296).
Proof.
  intros F es. induction es as [|e es IH] using rev_ind; [rewrite N.add_0_r; auto|].
  rewrite effects_snoc, given_options_snoc. unfold effect. destruct (p_option e) as [i|]; [|now rewrite app_nil_r].
  destruct (nth_error os i) as [o|] eqn:E; [|now rewrite app_nil_r].
  unfold only_counted in F. rewrite Forall_forall in F. specialize (F o (nth_error_In _ _ E)).
  assert (SUM : forall l (x : opt), fold_right (fun o s => increase a o + s) 0 (l ++ [x]) =
                 fold_right (fun o s => increase a o + s) 0 l + increase a x).
  { induction l as [|y l IHl]; intro x; cbn [app fold_right]; [lia|]. rewrite IHl. lia. }
  rewrite SUM, N.add_assoc. destruct IH as [IH1 IH2].
  rewrite <- N.add_mod_idemp_l, <- IH1, N.add_mod_idemp_l by discriminate.
  set (M := effects os es m) in *.
  assert (C1 : snd (count_option o M) a mod 4294967296 =
     (M a + match o_counter o with Some b => if Nat.eqb a b then 1 else 0 | None => 0 end) mod 4294967296
     /\ (M a < 4294967296 -> snd (count_option o M) a < 4294967296)).
  { unfold count_option. destruct (o_counter o) as [b|]; cbn [snd]; [|rewrite N.add_0_r; auto].
    destruct (Nat.eqb_spec a b) as [<-|NB].
    - rewrite store_same. unfold w32. rewrite N.mod_mod by discriminate. split; [reflexivity|].
      intros _. apply N.mod_lt. discriminate.
    - rewrite store_other by auto. rewrite N.add_0_r. auto. }
  set (M1 := snd (count_option o M)) in *. clearbody M1. destruct C1 as [C1 C2]. unfold increase. rewrite N.add_assoc.
  rewrite <- N.add_mod_idemp_l, <- C1, N.add_mod_idemp_l by discriminate. unfold write_output.
  destruct (o_output o) as [b|]; [|rewrite N.add_0_r; auto].
  destruct (Nat.eqb_spec a b) as [<-|NB].
  - destruct (F eq_refl) as [->| ->].
    + rewrite store_same. unfold w32. rewrite N.mod_mod by discriminate. split; [reflexivity|].
      intros _. apply N.mod_lt. discriminate.
    + rewrite N.add_0_r. auto.
  - assert (Z : match o_outtype o with OCounter => 0 | _ => 0 end = 0) by (destruct (o_outtype o); reflexivity).
    destruct (o_outtype o); rewrite ?store_other by auto; rewrite N.add_0_r; auto.
Qed.

(** ** Validators *)

Lemma skip_loop_spec s : exists d t, s = d ++ t /\ Forall digit d /\ skip_digits_loop s = t /\ ~ digit (hd 0 t).
Proof.
  induction s as [|c s (d & t & E & F & K & N)]; cbn [skip_digits_loop].
  - exists [], []. cbn. unfold digit. repeat split; auto. lia.
  - destruct (isdigit c) eqn:D.
    + exists (c :: d), t. apply isdigit_spec in D. rewrite E at 1. repeat (split; [auto|]); auto.
    + exists [], (c :: s). repeat split; auto. cbn [hd]. rewrite <- isdigit_spec. congruence.
Qed.

Lemma skip_digits_spec s t : skip_digits s = Some t <-> exists d, s = d ++ t /\ digits d /\ ~ digit (hd 0 t).
Proof.
  unfold skip_digits. destruct s as [|c s].
  - split; [discriminate|]. intros (d & E & [NE _] & _). destruct d; [congruence|discriminate].
  - destruct (isdigit c) eqn:D.
    + destruct (skip_loop_spec s) as (d & t' & E & F & K & N). rewrite K. apply isdigit_spec in D. split.
      * intro H. clear K. injection H as ->. exists (c :: d). rewrite E. split; [reflexivity|]. split; [split; [discriminate|now constructor]|exact N].
      * intros (d2 & E2 & [NE F2] & N2). destruct d2 as [|x d2]; [congruence|]. cbn [app] in E2. injection E2 as <- E2.
        rewrite E in E2. assert (H2 : Forall digit d2) by (inversion F2; auto). f_equal. clear K E D F2 NE.
        revert d2 E2 H2. induction F as [|y d Y F IH]; intros d2 E2 H2.
        -- cbn in E2. destruct d2 as [|z d2]; [exact E2|]. subst t'. cbn in N. inversion H2; subst. contradiction.
        -- destruct d2 as [|z d2].
           ++ cbn in E2. subst t. cbn in N2. contradiction.
           ++ cbn in E2. injection E2 as -> E2. inversion H2; subst. apply (IH d2); auto.
    + split; [discriminate|]. intros (d & E & [NE F] & _). destruct d as [|x d]; [congruence|]. injection E as <- _.
      inversion F; subst. apply isdigit_spec in H1. congruence.
Qed.

Lemma is_end_spec {A} (t : list A) : match t with [] => true | _ => false end = true <-> t = [].
Proof. destruct t; split; congruence. Qed.

Lemma uint_spec s : argument_uint s = true <-> digits s.
Proof.
  unfold argument_uint. destruct s as [|c s]; [split; [discriminate|intros [H _]; congruence]|].
  destruct (skip_digits (c :: s)) as [t|] eqn:E.
  - apply skip_digits_spec in E. destruct E as (d & E & D & N). unfold is_end. rewrite is_end_spec. split.
    + intros ->. rewrite app_nil_r in E. now rewrite E.
    + intros [_ F]. rewrite E in F. apply Forall_app in F. destruct F as [_ F].
      destruct t as [|x t]; [reflexivity|]. inversion F; subst. contradiction.
  - split; [discriminate|]. intro D. assert (X : skip_digits (c :: s) = Some []).
    { apply skip_digits_spec. exists (c :: s). rewrite app_nil_r. repeat split; try apply D. cbn. unfold digit. lia. }
    congruence.
Qed.

Lemma int_spec s : argument_int s = true <-> integer s.
Proof.
  unfold argument_int, integer. destruct s as [|c s].
  - split; [discriminate|]. intros [[H _]|(t & H & _)]; congruence.
  - destruct (N.eqb_spec c 45) as [->|NE]; rewrite uint_spec.
    + split; [intro H; right; eauto|]. intros [[_ H]|(t & H & D)]; [|now injection H as ->].
      inversion H; subst. unfold digit in *. lia.
    + split; [auto|]. intros [H|(t & H & D)]; [exact H|]. congruence.
Qed.

Definition exponent (e : list N) : Prop :=
  e = [] \/ exists x g ds, e = x :: g ++ ds /\ (x = 101 \/ x = 69) /\ (g = [] \/ g = [43] \/ g = [45]) /\ digits ds.

Lemma digits_end u : (match skip_digits u with Some v => is_end v | None => false end) = true <-> digits u.
Proof.
  rewrite <- uint_spec. unfold argument_uint. destruct u; [cbn; split; discriminate|reflexivity].
Qed.

Lemma exp_spec s : float_exp s = true <-> exponent s.
Proof.
  unfold float_exp, exponent. destruct s as [|c t]; [split; auto|].
  destruct ((c =? 101) || (c =? 69)) eqn:C.
  - cbv zeta. rewrite digits_end. split.
    + intro H. right. destruct t as [|d u]; [destruct H; congruence|].
      destruct ((d =? 45) || (d =? 43)) eqn:D.
      * exists c, [d], u. split; [reflexivity|]. split; [lia|]. split; [|exact H].
        assert (d = 45 \/ d = 43) as [->| ->] by lia; auto.
      * exists c, [], (d :: u). split; [reflexivity|]. split; [lia|]. auto.
    + intros [H|(x & g & ds & E & X & G & D)]; [discriminate|]. injection E as <- ->.
      destruct G as [-> | [-> | ->]]; cbn [app]; [|exact D|exact D].
      destruct ds as [|d u]; [exact D|]. destruct D as [D1 D2]. inversion D2; subst.
      destruct ((d =? 45) || (d =? 43)) eqn:DD; [unfold digit in *; lia|]. split; auto.
  - split; [discriminate|]. intros [H|(x & g & ds & E & X & _)]; [discriminate|]. injection E as <- _. lia.
Qed.

Lemma frac_spec s : ~ digit (hd 0 s) -> float_frac s = true <->
  exists f e, s = f ++ e /\ (f = [] \/ exists ds, f = 46 :: ds /\ digits ds) /\ exponent e.
Proof.
  intro N0. unfold float_frac. destruct s as [|c t].
  - split; [|auto]. intros _. exists [], []. unfold exponent. auto.
  - destruct (N.eqb_spec c 46) as [->|NE].
    + destruct (skip_digits t) as [u|] eqn:E.
      * pose proof E as E'. apply skip_digits_spec in E. destruct E as (d & E & D & N).
        assert (X : (match u with [] => true | _ :: _ => float_exp u end) = true <-> exponent u).
        { rewrite <- exp_spec. destruct u; [split; reflexivity|reflexivity]. }
        rewrite X. split.
        -- intro H. exists (46 :: d), u. rewrite E. split; [reflexivity|]. split; [right; eauto|exact H].
        -- intros (f & e & EE & [->|(ds & -> & DS)] & EX).
           ++ cbn in EE. subst e. destruct EX as [H|(x & g & ds & H & HX & _)]; [discriminate|]. injection H as <- _. lia.
           ++ cbn [app] in EE. injection EE as EE.
              assert (skip_digits t = Some e).
              { apply skip_digits_spec. exists ds. split; [exact EE|]. split; [exact DS|].
                destruct EX as [->|(x & g & ds' & -> & HX & _)]; cbn [hd]; unfold digit; lia. }
              congruence.
      * split; [discriminate|]. intros (f & e & EE & [->|(ds & -> & DS)] & EX).
        -- cbn in EE. subst e. destruct EX as [H|(x & g & ds & H & HX & _)]; [discriminate|]. injection H as <- _. lia.
        -- cbn [app] in EE. injection EE as EE.
           assert (skip_digits t = Some e).
           { apply skip_digits_spec. exists ds. split; [exact EE|]. split; [exact DS|].
             destruct EX as [->|(x & g & ds' & -> & HX & _)]; cbn [hd]; unfold digit; lia. }
           congruence.
    + rewrite exp_spec. split.
      * intro H. exists [], (c :: t). auto.
      * intros (f & e & EE & [->|(ds & -> & DS)] & EX); [cbn in EE; now rewrite EE|]. cbn in EE. congruence.
Qed.

(** The fraction and the exponent do not start with a digit. *)
Lemma frac_head f e : (f = [] \/ exists ds, f = 46 :: ds /\ digits ds) -> exponent e -> ~ digit (hd 0 (f ++ e)).
Proof.
  intros [->|(ds & -> & _)] X; cbn [app hd]; [|unfold digit; lia].
  destruct X as [->|(x & g & ds & -> & HX & _)]; cbn [hd]; unfold digit; lia.
Qed.

Lemma frac_bad s : digit (hd 0 s) -> float_frac s = false.
Proof.
  intro D. unfold float_frac. destruct s as [|c t]; [unfold digit in D; cbn in D; lia|]. cbn [hd] in D. unfold digit in D.
  destruct (N.eqb_spec c 46); [lia|]. unfold float_exp. destruct ((c =? 101) || (c =? 69)) eqn:C; [lia|reflexivity].
Qed.

Lemma unsigned_spec s : float_unsigned s = true <->
  exists i f e, s = i ++ f ++ e /\ (i = [48] \/ (digits i /\ hd 0 i <> 48))
    /\ (f = [] \/ exists ds, f = 46 :: ds /\ digits ds) /\ exponent e.
Proof.
  unfold float_unsigned. destruct s as [|c t].
  - split; [discriminate|]. intros (i & f & e & E & [->|[[NE _] _]] & _); [discriminate|]. destruct i; [congruence|discriminate].
  - destruct (N.eqb_spec c 48) as [->|N48].
    + assert (DEC : digit (hd 0 t) \/ ~ digit (hd 0 t)) by (unfold digit; lia). destruct DEC as [D|D].
      * rewrite frac_bad by exact D. split; [discriminate|].
        intros (i & f & e & E & [->|[[NE _] H0]] & F & X).
        -- cbn in E. injection E as ->. now apply frac_head in D.
        -- destruct i as [|x i]; [congruence|]. injection E as <- _. now contradiction H0.
      * rewrite (frac_spec t D). split.
        -- intros (f & e & -> & F & X). exists [48], f, e. auto.
        -- intros (i & f & e & E & [->|[[NE _] H0]] & F & X).
           ++ cbn in E. injection E as ->. eauto.
           ++ destruct i as [|x i]; [congruence|]. injection E as <- _. now contradiction H0.
    + destruct ((49 <=? c) && (c <=? 57)) eqn:C.
      * assert (SK : exists d u, t = d ++ u /\ Forall digit d /\ ~ digit (hd 0 u) /\
                   (match skip_digits t with Some v => v | None => t end) = u).
        { destruct (skip_loop_spec t) as (d & u & E & F & K & N). exists d, u. repeat split; auto.
          unfold skip_digits. destruct t as [|x t']; [exact K|]. cbn [skip_digits_loop] in K.
          destruct (isdigit x); [exact K|exact K]. }
        destruct SK as (d & u & E & F & N & ->). rewrite (frac_spec u N). split.
        -- intros (f & e & -> & FF & X). exists (c :: d), f, e. rewrite E. split; [reflexivity|]. split; [|auto].
           right. split; [|cbn; lia]. split; [discriminate|]. constructor; [unfold digit; lia|exact F].
        -- intros (i & f & e & EE & [->|[[NE DI] H0]] & FF & X); [cbn in EE; congruence|].
           destruct i as [|x i]; [congruence|]. cbn [app] in EE. injection EE as <- EE.
           exists f, e. split; [|auto].
           assert (S1 : skip_digits (c :: t) = Some u).
           { apply skip_digits_spec. exists (c :: d). rewrite E. split; [reflexivity|]. split; [|exact N].
             split; [discriminate|]. constructor; [unfold digit; lia|exact F]. }
           assert (S2 : skip_digits (c :: t) = Some (f ++ e)).
           { apply skip_digits_spec. exists (c :: i). rewrite EE. split; [reflexivity|]. split; [split; auto|now apply frac_head]. }
           congruence.
      * split; [discriminate|]. intros (i & f & e & EE & [->|[[NE DI] H0]] & _); [cbn in EE; congruence|].
        destruct i as [|x i]; [congruence|]. cbn [app] in EE. injection EE as <- _. inversion DI; subst.
        unfold digit in *. lia.
Qed.

Lemma float_spec s : argument_float s = true <-> decimal s.
Proof.
  unfold argument_float, decimal. fold exponent. destruct s as [|c s].
  - split; [discriminate|]. intros (sg & i & f & e & E & _ & [->|[[NE _] _]] & _).
    + destruct sg; discriminate.
    + destruct sg, i; try discriminate; congruence.
  - destruct (N.eqb_spec c 45) as [->|NE]; rewrite unsigned_spec.
    + split.
      * intros (i & f & e & -> & A & B & C). exists [45], i, f, e. auto.
      * intros (sg & i & f & e & E & [-> | ->] & A & B & C).
        -- cbn [app] in E. destruct A as [->|[[N0 D] _]]; [discriminate|]. destruct i as [|x i]; [congruence|].
           injection E as <- _. inversion D; subst. unfold digit in *. lia.
        -- injection E as ->. exists i, f, e. auto.
    + split.
      * intros (i & f & e & -> & A & B & C). exists [], i, f, e. auto.
      * intros (sg & i & f & e & E & [-> | ->] & A & B & C).
        -- cbn [app] in E. exists i, f, e. auto.
        -- injection E as -> _. congruence.
Qed.

(** ** Lines are read in one way only *)

Ltac same_short := match goal with
  | A : short_is _ ?c ?i ?o, B : short_is _ ?c ?i' ?o' |- _ =>
      destruct (short_is_unique _ _ _ _ _ _ A B) as [? ?]; clear B; subst
  end.

Lemma letters_det lax os s ws es1 w1 : letters lax os s ws es1 w1 -> forall es2 w2,
  letters lax os s ws es2 w2 -> es1 = es2 /\ w1 = w2.
Proof.
  induction 1; intros es2 w2 HX; inversion HX; subst; try same_short; cbn [hd] in *;
    repeat match goal with X : takes _ _ |- _ => destruct X end; try congruence; auto;
    try (unfold letter in *; lia).
  - destruct (IHletters _ _ ltac:(eassumption)) as [-> ->]. auto.
  - match goal with X : _ \/ _ |- _ => destruct X as [X|[_ X]]; [|congruence] end. cbn in *. contradiction.
  - match goal with X : _ \/ _ |- _ => destruct X as [X|[_ X]]; [|congruence] end. cbn in *. contradiction.
Qed.

Definition names_ok (os : list opt) : Prop := forall n i o, long_is os n i o -> ~ In 61 n.

Lemma usable_names_ok os : usable os -> names_ok os.
Proof.
  intros [_ F] n i o (A & B & _). rewrite Forall_forall in F.
  destruct (F o (nth_error_In _ _ A)) as ((n' & E & X & _) & _). congruence.
Qed.

Ltac same_long := match goal with
  | A : long_is _ ?c ?i ?o, B : long_is _ ?c ?i' ?o' |- _ =>
      destruct (long_is_unique _ _ _ _ _ _ A B) as [? ?]; clear B; subst
  end.

Lemma word_det lax os free w ws es1 w1 : names_ok os -> word lax os free w ws es1 w1 -> forall es2 w2,
  word lax os free w ws es2 w2 -> es1 = es2 /\ w1 = w2.
Proof.
  intros NO H1 es2 w2 H2. inversion H1; subst; inversion H2; subst; auto; try congruence;
    try (match goal with X : plain _ |- _ => now contradiction X end);
    try (exfalso; match goal with X : long_is _ (_ ++ 61 :: _) _ _ |- _ => apply NO in X; apply X; apply in_or_app; right; now left end);
    try same_long; repeat match goal with X : takes _ _ |- _ => destruct X end; try congruence; auto.
  - eapply letters_det; eauto.
  - match goal with X : _ \/ _ |- _ => destruct X as [X|[_ X]]; [|congruence] end. cbn in *. contradiction.
  - match goal with X : name0 ++ _ = name ++ _ |- _ => rename X into E end.
    destruct (name_tail_unique name0 name (61 :: a0) (61 :: a)) as [-> X]; eauto; try (right; eauto; fail).
    same_long. injection X as ->. auto.
  - match goal with X : _ \/ _ |- _ => destruct X as [X|[_ X]]; [|congruence] end. cbn in *. contradiction.
Qed.

Lemma cmdline_det lax os free argv es1 r1 : names_ok os -> cmdline lax os free argv es1 r1 -> forall es2 r2,
  cmdline lax os free argv es2 r2 -> es1 = es2 /\ r1 = r2.
Proof.
  intros NO. induction 1 as [|s ws ND NL|w ws es ws' es' rest W C IH]; intros es2 r2 H2.
  - inversion H2; auto.
  - inversion H2; subst; auto. exfalso. match goal with X : word _ _ _ _ _ _ _ |- _ => inversion X; subst end.
    + match goal with X : plain _ |- _ => now contradiction X end.
    + congruence.
    + tauto.
    + destruct name as [|x n]; cbn [app hd] in *; [unfold digit, letter in *; lia|tauto].
    + tauto.
  - inversion H2; subst.
    + exfalso. inversion W; subst.
      * match goal with X : plain _ |- _ => now contradiction X end.
      * congruence.
      * tauto.
      * destruct name as [|x n]; cbn [app hd] in *; [unfold digit, letter in *; lia|tauto].
      * tauto.
    + destruct (word_det _ _ _ _ _ _ _ NO W _ _ ltac:(eassumption)) as [-> ->].
      destruct (IH _ _ ltac:(eassumption)) as [-> ->]. auto.
Qed.

(** The strict rules are a restriction of the usual ones. *)
Lemma letters_usual os s ws es ws' : letters false os s ws es ws' -> letters true os s ws es ws'.
Proof.
  induction 1; [eapply L_flag|eapply L_last|eapply L_equal|eapply L_attached|eapply L_next]; eauto.
  - match goal with X : _ \/ _ |- _ => destruct X as [X|[X _]]; [auto|discriminate] end.
Qed.
Lemma cmdline_usual os free argv es rest : cmdline false os free argv es rest -> cmdline true os free argv es rest.
Proof.
  induction 1 as [|s ws ND NL|w ws es ws' es' rest W C IH]; [constructor|now constructor|].
  econstructor; [|exact IH]. inversion W; subst.
  - now constructor.
  - constructor; auto. now apply letters_usual.
  - eapply W_long; eauto. match goal with X : _ \/ _ |- _ => destruct X as [X|[X _]]; [auto|discriminate] end.
  - eapply W_long_equal; eauto.
  - eapply W_long_next; eauto.
Qed.
