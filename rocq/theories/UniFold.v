(** Case-insensitive and natural comparison, case folding of texts, dynamic conversion. *)
From Coq Require Import Arith NArith ZArith List Bool Lia.
From Coq Require Import ZifyBool ZifyNat ZifyN.
From Verif Require Import Base CodecModel CodecProofs StrSpec StrMore UniModel UniSpec UniProofs UniValid UniConv UniTop UniText UniCompare.
Import ListNotations.
Local Open Scope N_scope.

Lemma extract_nil : tmu_utf8_extract [] = Some (false, TMU_INVALID_CODEPOINT, []). Proof. reflexivity. Qed.
Lemma nonempty_app : forall v ch (us : list N), lenient v ch -> is_nil (ch ++ us) = false.
Proof. intros v ch us H. pose proof (lenient_ne v ch H). destruct ch; [cbn in *; lia|reflexivity]. Qed.

(** *** Natural comparison *)
Lemma digit_seq : forall v ch, utf8_seq v ch -> is_digit v -> ch = [v].
Proof. intros v ch H D. unfold is_digit in D. apply (seq_fun v); [exact H|]. apply U8_1. lia. Qed.
Lemma ascii_digit_spec : forall c, ascii_digit c = true <-> is_digit c.
Proof. intros c. unfold ascii_digit, is_digit. lia. Qed.
Lemma first_octet_digit : forall v ch c t, utf8_seq v ch -> ch = c :: t -> is_digit c -> is_digit v.
Proof. intros v ch c t H E D. destruct (seq_shape v ch H) as [(c0 & E0 & L)|(c0 & t0 & E0 & L & _)]; rewrite E in E0; injection E0 as -> ->; [|unfold is_digit in D; lia].
  enough (v = c0) by (subst; exact D). subst ch. pose proof (extract_seq v [c0] [] H) as X. rewrite (extract_seq c0 [c0] [] (U8_1 c0 L)) in X. congruence. Qed.
Definition wstep (a d : N) : N := w32 (w32 (a * 10) + (d - 48)).
Lemma wstep_mod : forall ds a b, w32 a = w32 b -> w32 (fold_left wstep ds a) = w32 (fold_left (fun a d => a * 10 + (d - 48)) ds b).
Proof.
  induction ds as [|d ds IH]; intros a b H; [exact H|]. cbn [fold_left]. apply IH. unfold wstep, w32 in *. rewrite N.mod_mod by discriminate. rewrite N.add_mod_idemp_l by discriminate.
  rewrite <- (N.add_mod_idemp_l (a * 10)), <- (N.mul_mod_idemp_l a), H, N.mul_mod_idemp_l, N.add_mod_idemp_l by discriminate. reflexivity.
Qed.
Lemma wstep_lt : forall ds a, a < W32 -> fold_left wstep ds a < W32.
Proof. induction ds as [|d ds IH]; intros a H; [exact H|]. cbn [fold_left]. apply IH. unfold wstep, w32. apply N.mod_upper_bound. discriminate. Qed.
Lemma number_run_spec : forall ds vs s a, Forall is_digit ds -> encodes utf8_seq vs s -> (forall v vs', vs = v :: vs' -> ~ is_digit v) -> number_run (ds ++ s) a = (fold_left wstep ds a, s).
Proof.
  intros ds vs s a F E N. revert a. induction F as [|d ds D F IH]; intros a; cbn [app fold_left].
  - destruct E as [|v vs ch us S E]; [reflexivity|]. destruct ch as [|c t]; [pose proof (utf8_ne v [] S) as Q; cbn in Q; lia|]. cbn [app number_run]. destruct (ascii_digit c) eqn:A; [|reflexivity].
    apply ascii_digit_spec in A. exfalso. apply (N v vs eq_refl). exact (first_octet_digit v _ c t S eq_refl A).
  - cbn [number_run]. rewrite (proj2 (ascii_digit_spec d) D). apply IH.
Qed.
Lemma digits_encode : forall ds vs us, Forall is_digit ds -> encodes utf8_seq (ds ++ vs) us -> exists us', us = ds ++ us' /\ encodes utf8_seq vs us'.
Proof.
  intros ds vs us F. revert us. induction F as [|d ds D F IH]; intros us E; cbn [app] in E; [exists us; auto|]. inversion E as [|v vs' ch us1 S E' Q1 Q2]; subst. rewrite (digit_seq d ch S D). destruct (IH us1 E') as (us' & -> & E2). exists us'. auto.
Qed.
(** The token of a number as the code computes it. *)
Definition code_num (n : N) : N := w32 (n + TMU_MAX_UTF32).
Lemma num_token : forall d ds, w32 (fold_left wstep (d :: ds) 0 + TMU_MAX_UTF32) = code_num (value10 (d :: ds)).
Proof.
  intros d ds. unfold code_num, value10. pose proof (wstep_mod (d :: ds) 0 0 eq_refl) as H. unfold w32 in *. rewrite <- (N.add_mod_idemp_l (fold_left wstep _ _)), H, N.add_mod_idemp_l by discriminate. reflexivity.
Qed.
Lemma human_total : forall (fold : N -> list N) num vs, exists ts, human_tokens fold num vs ts.
Proof.
  intros fold num vs. remember (length vs) as n eqn:Hn. revert vs Hn. induction n as [n IH] using lt_wf_ind. intros vs Hn. destruct vs as [|v vs]; [exists []; constructor|].
  destruct ((48 <=? v) && (v <=? 57)) eqn:B.
  - assert (Q : forall l, exists ds r, l = ds ++ r /\ Forall is_digit ds /\ (forall v vs', r = v :: vs' -> ~ is_digit v)).
    { clear. induction l as [|c l (ds & r & -> & F & N)]; [exists [], []; repeat split; [constructor|discriminate]|]. destruct ((48 <=? c) && (c <=? 57)) eqn:B.
      - exists (c :: ds), r. repeat split; [constructor; [unfold is_digit; lia|exact F]|exact N].
      - exists [], (c :: ds ++ r). repeat split; [constructor|]. intros v vs' E. injection E as <- _. unfold is_digit. lia. }
    destruct (Q vs) as (ds & r & -> & F & N). destruct (IH (length r) ltac:(subst n; cbn; rewrite app_length; lia) r eq_refl) as (ts & H). eexists. apply H_number; [unfold is_digit; lia|exact F|exact N|exact H].
  - destruct (IH (length vs) ltac:(subst n; cbn; lia) vs eq_refl) as (ts & H). eexists. apply H_other; [unfold is_digit; lia|exact H].
Qed.
Section Folds.
Variable simple : N -> option N.
Variable full : N -> option (list N).
Variable sf : N -> N.
Variable ff : N -> list N.
Hypothesis simple_ok : forall v, scalar v -> simple v = Some (sf v).
Hypothesis full_ok : forall v, scalar v -> full v = Some (ff v).
Hypothesis full_ne : forall v, scalar v -> ff v <> [].

Lemma simple_yields : forall vs s, encodes lenient vs s -> yields (next_simple simple) is_nil s (map sf vs).
Proof using simple_ok.
  intros vs s H. induction H as [|v vs ch us S H IH]; cbn [map]; [apply Y_nil; reflexivity|]. apply (Y_cons _ _ _ _ _ us); [|apply (nonempty_app v); exact S|exact IH].
  unfold next_simple. rewrite (extract_lenient v ch us S), simple_ok by (apply (lenient_scalar v ch S)). reflexivity.
Qed.
Lemma pending_yields : forall p s l, yields (next_full full) end_full ([], s) l -> yields (next_full full) end_full (p, s) (p ++ l).
Proof using. intros p s l H. induction p as [|c p IH]; [exact H|]. cbn [app]. apply (Y_cons _ _ _ _ _ (p, s)); [reflexivity| |exact IH]. unfold end_full. cbn. apply andb_false_r. Qed.
Lemma full_yields : forall vs s, encodes lenient vs s -> yields (next_full full) end_full ([], s) (flat_map ff vs).
Proof using full_ok full_ne.
  intros vs s H. induction H as [|v vs ch us S H IH]; cbn [flat_map]; [apply Y_nil; reflexivity|]. pose proof (lenient_scalar v ch S) as Sv. pose proof (full_ne v Sv) as Ne. pose proof (full_ok v Sv) as Ok. destruct (ff v) as [|c p]; [contradiction|]. cbn [app].
  apply (Y_cons _ _ _ _ _ (p, us)); [| |apply pending_yields; exact IH].
  - unfold next_full. rewrite (extract_lenient v ch us S), Ok. reflexivity.
  - unfold end_full. cbn [fst snd]. rewrite (nonempty_app v ch us S). reflexivity.
Qed.

Lemma human_simple_yields : forall vs ts, human_tokens (fun v => [sf v]) code_num vs ts -> forall s, encodes utf8_seq vs s -> yields (next_human_simple simple) is_nil s ts.
Proof using simple_ok.
  clear full_ok full_ne full ff. intros vs ts H. induction H as [|v vs ts D H IH|d ds vs ts D F N H IH]; intros s E.
  - inversion E; subst. apply Y_nil; reflexivity.
  - inversion E as [|v' vs' ch us S E' Q1 Q2]; subst. cbn [app]. apply (Y_cons _ _ _ _ _ us); [|apply (nonempty_app v); apply seq_lenient; exact S|apply IH; exact E'].
    unfold next_human_simple. rewrite (extract_seq v ch us S). assert (B : (v <? 48) || (57 <? v) = true) by (unfold is_digit in D; lia). rewrite B, simple_ok by (apply (seq_scalar v ch S)). reflexivity.
  - inversion E as [|v' vs' ch us S E' Q1 Q2]; subst. pose proof (digit_seq d ch S D) as Ed; subst ch. destruct (digits_encode ds vs us F E') as (us' & -> & E2). apply (Y_cons _ _ _ _ _ us'); [|reflexivity|apply IH; exact E2].
    unfold next_human_simple. rewrite (extract_seq d [d] (ds ++ us') S). assert (B : (d <? 48) || (57 <? d) = false) by (unfold is_digit in D; lia). rewrite B.
    change ([d] ++ ds ++ us') with ((d :: ds) ++ us'). rewrite (number_run_spec (d :: ds) vs us' 0 (Forall_cons _ D F) E2 N). rewrite num_token. reflexivity.
Qed.
(** For the full variant no folding may produce a digit, and digits fold to themselves. *)
Hypothesis ff_digit : forall v, is_digit v -> ff v = [v].
Hypothesis ff_nodigit : forall v, scalar v -> ~ is_digit v -> Forall (fun c => ~ is_digit c) (ff v).
Lemma human_pending : forall p s l, Forall (fun c => ~ is_digit c) p -> yields (next_human full) end_full ([], s) l -> yields (next_human full) end_full (p, s) (p ++ l).
Proof using.
  clear ff_digit ff_nodigit full_ok full_ne ff simple_ok simple sf. intros p s l F H. induction F as [|c p D F IH]; [exact H|]. cbn [app]. apply (Y_cons _ _ _ _ _ (p, s)); [|unfold end_full; cbn; apply andb_false_r|exact IH].
  unfold next_human, next_full. assert (B : (c <? 48) || (57 <? c) = true) by (unfold is_digit in D; lia). rewrite B. reflexivity.
Qed.
Lemma human_yields : forall vs ts, human_tokens ff code_num vs ts -> forall s, encodes utf8_seq vs s -> yields (next_human full) end_full ([], s) ts.
Proof using full_ok full_ne ff_digit ff_nodigit.
  clear simple_ok simple sf. intros vs ts H. induction H as [|v vs ts D H IH|d ds vs ts D F N H IH]; intros s E.
  - inversion E; subst. apply Y_nil; reflexivity.
  - inversion E as [|v' vs' ch us S E' Q1 Q2]; subst. pose proof (seq_scalar v ch S) as Sv. pose proof (full_ne v Sv) as Ne. pose proof (full_ok v Sv) as Ok. pose proof (ff_nodigit v Sv D) as Nd.
    destruct (ff v) as [|c p]; [contradiction|]. inversion Nd as [|? ? Dc Fp]; subst. cbn [app]. apply (Y_cons _ _ _ _ _ (p, us)); [| |apply human_pending; [exact Fp|apply IH; exact E']].
    + unfold next_human, next_full. rewrite (extract_seq v ch us S), Ok. assert (B : (c <? 48) || (57 <? c) = true) by (unfold is_digit in Dc; lia). rewrite B. reflexivity.
    + unfold end_full. cbn [fst snd]. rewrite (nonempty_app v ch us (seq_lenient v ch S)). reflexivity.
  - inversion E as [|v' vs' ch us S E' Q1 Q2]; subst. pose proof (seq_scalar d ch S) as Sd. pose proof (digit_seq d ch S D) as Ed; subst ch. destruct (digits_encode ds vs us F E') as (us' & -> & E2). apply (Y_cons _ _ _ _ _ ([], us')); [|reflexivity|apply IH; exact E2].
    unfold next_human, next_full. rewrite (extract_seq d [d] (ds ++ us') S), (full_ok d Sd), (ff_digit d D). assert (B : (d <? 48) || (57 <? d) = false) by (unfold is_digit in D; lia). rewrite B. cbn [snd].
    change ([d] ++ ds ++ us') with ((d :: ds) ++ us'). rewrite (number_run_spec (d :: ds) vs us' 0 (Forall_cons _ D F) E2 N). rewrite num_token. reflexivity.
Qed.
End Folds.

Lemma prefix_tokens : forall vs ws x l, encodes utf8_seq vs x -> encodes utf8_seq ws (x ++ l) -> exists us, ws = vs ++ us /\ encodes utf8_seq us l.
Proof.
  intros vs ws x l E. revert ws. induction E as [|v vs ch us S E IH]; intros ws Ew; [exists ws; auto|]. rewrite <- app_assoc in Ew.
  destruct (encodes_split utf8_seq utf8_prefix utf8_ne ws _ v ch (us ++ l) Ew eq_refl S) as (ws' & -> & E'). destruct (IH ws' E') as (zs & -> & Ez). exists zs. auto.
Qed.
Lemma empty_tokens : forall vs, encodes utf8_seq vs [] -> vs = [].
Proof. intros vs E. inversion E as [|v vs' ch us S E' Q1 Q2]; [reflexivity|]. apply app_eq_nil in Q2. destruct Q2 as [-> _]. pose proof (utf8_ne v [] S) as Q. cbn in Q. lia. Qed.
