(** The token stream of the reader with a context stack: repeated calls of jsonNextToken report the
    events of the value, one after the other. *)
From Coq Require Import Arith NArith List Bool Lia ZifyBool ZifyNat ZifyN.
From Verif Require Import Base JsonModel JsonSpec JsonString JsonLex JsonTok JsonSkip JsonCopy JsonDom JsonBuild.
Import ListNotations.
Local Open Scope N_scope.

(** ** The stack of contexts *)

Definition wf (st : cstack) : Prop :=
  Forall (fun e => 1 <= snd e <= 255) (cs_entries st) /\ (length (cs_entries st) <= cs_cap st)%nat.

Lemma ctx_eqb_spec a b : ctx_eqb a b = true <-> a = b.
Proof. destruct a, b; cbn; split; congruence. Qed.

Lemma push_top st c st' : push_context st c = Some st' -> top_context st' = c.
Proof.
  unfold push_context, top_context. destruct (cs_entries st) as [|[c' n] t].
  - destruct (Nat.ltb 0 (cs_cap st)); [|discriminate]. now intros [= <-].
  - destruct (ctx_eqb c' c) eqn:E; cbn [andb].
    + apply ctx_eqb_spec in E. subst. destruct (n <? 255); [now intros [= <-]|].
      destruct (Nat.ltb _ _); [|discriminate]. now intros [= <-].
    + destruct (Nat.ltb _ _); [|discriminate]. now intros [= <-].
Qed.

Lemma push_pop st c st' : wf st -> push_context st c = Some st' ->
  wf st' /\ (length (cs_entries st') <= S (length (cs_entries st)))%nat /\ cs_cap st' = cs_cap st
  /\ pop_context st' c = Some (Some st).
Proof.
  destruct st as [es cap]. intros [F L]. unfold push_context, pop_context, wf. cbn [cs_entries cs_cap] in *.
  assert (NEW : (length es < cap)%nat -> (Forall (fun e => 1 <= snd e <= 255) ((c, 1) :: es)
      /\ (length ((c, 1%N) :: es) <= cap)%nat)
    /\ (length ((c, 1%N) :: es) <= S (length es))%nat /\ cap = cap
    /\ (if negb (ctx_eqb c c) then Some None
        else if 1 <? 1 then Some (Some (CStack ((c, 1 - 1) :: es) cap))
        else assert_ (1 =? 1) (Some (Some (CStack es cap)))) = Some (Some (CStack es cap))).
  { intros LT. replace (ctx_eqb c c) with true by (destruct c; reflexivity). cbn [length].
    repeat split; auto; try lia. constructor; [cbn [snd]; lia|exact F]. }
  destruct es as [|[c' n] t].
  - destruct (Nat.ltb_spec 0 cap); [|discriminate]. intros [= <-]. cbn [cs_entries cs_cap]. apply NEW. cbn; lia.
  - destruct (ctx_eqb c' c) eqn:E; cbn [andb].
    + apply ctx_eqb_spec in E. subst c'. destruct (N.ltb_spec n 255) as [LN|LN].
      * intros [= <-]. cbn [cs_entries cs_cap]. inversion F as [|? ? F1 F2]; subst. cbn [snd] in F1.
        replace (ctx_eqb c c) with true by (destruct c; reflexivity). cbn [negb].
        replace (1 <? n + 1) with true by lia. replace (n + 1 - 1) with n by lia.
        repeat split; auto; try (cbn [length] in *; lia). constructor; [cbn [snd]; lia|exact F2].
      * destruct (Nat.ltb_spec (length ((c, n) :: t)) cap); [|discriminate].
        intros [= <-]. cbn [cs_entries cs_cap]. apply NEW. assumption.
    + destruct (Nat.ltb_spec (length ((c', n) :: t)) cap); [|discriminate].
      intros [= <-]. cbn [cs_entries cs_cap]. apply NEW. assumption.
Qed.

Lemma push_some st c : (length (cs_entries st) < cs_cap st)%nat -> exists st', push_context st c = Some st'.
Proof.
  intro L. unfold push_context. destruct (cs_entries st) as [|[c' n] t].
  - destruct (Nat.ltb_spec 0 (cs_cap st)); [eauto|cbn in L; lia].
  - destruct (_ && _); [eauto|]. destruct (Nat.ltb_spec (length ((c', n) :: t)) (cs_cap st)); [eauto|lia].
Qed.

(** ** Events *)

Definition events_m (ms : list (list N * tree)) : list event :=
  flat_map (fun m => (TPropertyName, Some (YString, fst m)) :: events (snd m)) ms.
Definition events_a (vs : list tree) : list event := flat_map events vs.

Definition depth_m (ms : list (list N * tree)) : nat :=
  fold_right (fun m k => Nat.max (depth (snd m)) k) 0%nat ms.
Definition depth_a (vs : list tree) : nat := fold_right (fun v k => Nat.max (depth v) k) 0%nat vs.

(** The event reported by a call: for names and values also the type and the text. *)
Definition observe (buf : list N) (t : tok) (r : reader) : event :=
  (t, match t with TPropertyName | TValue => Some (vt r, current buf r) | _ => None end).

Inductive reads (fl : N) (buf : list N) : reader -> cstack -> list event -> reader -> cstack -> Prop :=
| RD_nil r st : reads fl buf r st [] r st
| RD_cons r st t r1 st1 es r2 st2 : next_token_explicit fl r st = Some (t, r1, st1) ->
    reads fl buf r1 st1 es r2 st2 -> reads fl buf r st (observe buf t r1 :: es) r2 st2.

Lemma reads_app fl buf r st es r1 st1 es' r2 st2 : reads fl buf r st es r1 st1 ->
  reads fl buf r1 st1 es' r2 st2 -> reads fl buf r st (es ++ es') r2 st2.
Proof. induction 1; auto. intro R. cbn [app]. econstructor; eauto. Qed.

(** What holds between two values. *)
Definition good (buf : list N) (r : reader) : Prop := err r = JOk /\ inside buf r.
Definition after_value (r : reader) : Prop := last r = TValue \/ last r = TObjectEnd \/ last r = TArrayEnd.

Definition value_reads (fl : N) (s : list N) (t : tree) : Prop :=
  forall buf r st p l z, prefix (dialect_of fl) (top_context st) (last r) p l ->
    follows (top_context st) (root r) l -> rest r = p ++ s ++ z -> follow_ok z -> ends_root z t ->
    good buf r -> wf st -> (length (cs_entries st) + depth t <= cs_cap st)%nat ->
  exists r', reads fl buf r st (events t) r' st /\ rest r' = z /\ good buf r' /\ after_value r'.

Definition member_reads (fl : N) (s : list N) (m : list N * tree) : Prop :=
  forall buf r st p0 l z, top_context st = CObject ->
    (forall w, ws w -> prefix (dialect_of fl) CObject (last r) (p0 ++ w) l) ->
    l = TObjectStart \/ l = TComma ->
    rest r = p0 ++ s ++ z -> follow_ok z -> z <> [] -> good buf r -> wf st ->
    (length (cs_entries st) + depth (snd m) <= cs_cap st)%nat ->
  exists r', reads fl buf r st ((TPropertyName, Some (YString, fst m)) :: events (snd m)) r' st
    /\ rest r' = z /\ good buf r' /\ after_value r'.

Definition tail_reads (fl : N) (c : ctx) (s : list N) (es : list event) (d : nat) : Prop :=
  forall buf r st0 st z, push_context st0 c = Some st -> wf st0 -> rest r = s ++ z -> good buf r ->
    after_value r -> (length (cs_entries st) + d <= cs_cap st)%nat ->
  exists r', reads fl buf r st (es ++ [(if ctx_eqb c CObject then TObjectEnd else TArrayEnd, None)]) r' st0
    /\ rest r' = z /\ good buf r' /\ after_value r'.

Lemma explicit_plain fl r st t r' : next_token fl (top_context st) r = Some (t, r') ->
  t = TValue \/ t = TPropertyName \/ t = TEof -> next_token_explicit fl r st = Some (t, r', st).
Proof. intros T H. unfold next_token_explicit. rewrite T. destruct H as [-> | [-> | ->]]; reflexivity. Qed.

Lemma step_content fl buf r st p l x t ty tk z : plain_flags fl -> good buf r ->
  prefix (dialect_of fl) (top_context st) (last r) p l ->
  lexeme (dialect_of fl) (top_context st) (root r) l t x (Some (ty, tk)) ->
  rest r = p ++ x ++ z -> (t = TValue -> follow_ok z) -> z <> [] \/ (ty <> YInt /\ ty <> YUInt) ->
  exists r', reads fl buf r st [(t, Some (ty, tk))] r' st /\ rest r' = z /\ good buf r' /\ last r' = t.
Proof.
  intros PF (E & I) P LX R F Z.
  assert (TT : t = TValue \/ t = TPropertyName) by (inversion LX; auto).
  destruct (next_token_complete fl _ r p l x t _ z PF P LX R F) as (r' & T & R' & M & L & (V & C) & _).
  specialize (C buf I Z).
  exists r'. split; [|split; [exact R'|split; [|exact L]]].
  - replace (t, Some (ty, tk)) with (observe buf t r').
    + econstructor; [|constructor]. apply explicit_plain; [exact T|tauto].
    + unfold observe. rewrite V, C. destruct TT; subst t; reflexivity.
  - split; [destruct M as (_ & _ & M); congruence|]. eapply moved_inside; eauto.
Qed.

Lemma step_start fl buf r st (obj : bool) p l z : plain_flags fl -> good buf r -> wf st ->
  prefix (dialect_of fl) (top_context st) (last r) p l -> follows (top_context st) (root r) l ->
  rest r = p ++ (if obj then 123 else 91) :: z -> (length (cs_entries st) < cs_cap st)%nat ->
  exists r' st', reads fl buf r st [(if obj then TObjectStart else TArrayStart, None)] r' st'
    /\ push_context st (if obj then CObject else CArray) = Some st'
    /\ rest r' = z /\ good buf r' /\ last r' = (if obj then TObjectStart else TArrayStart).
Proof.
  intros PF (E & I) W P FO R L.
  destruct (push_some st (if obj then CObject else CArray) L) as (st' & PU).
  destruct (next_token_complete fl _ r p l [if obj then 123 else 91] (if obj then TObjectStart else TArrayStart) None z PF P)
    as (r' & T & R' & M & L' & _).
  { destruct obj; now constructor. }
  { exact R. }
  { destruct obj; discriminate. }
  exists r', st'. split; [|split; [exact PU|split; [exact R'|split; [|exact L']]]].
  - replace (if obj then TObjectStart else TArrayStart, None)
      with (observe buf (if obj then TObjectStart else TArrayStart) r') by (destruct obj; reflexivity).
    econstructor; [|constructor]. unfold next_token_explicit. rewrite T. destruct obj; rewrite PU; reflexivity.
  - split; [destruct M as (_ & _ & M); congruence|]. eapply moved_inside; eauto.
Qed.

Lemma step_end fl buf r st0 st (obj : bool) p l z : plain_flags fl -> good buf r -> wf st0 ->
  push_context st0 (if obj then CObject else CArray) = Some st ->
  prefix (dialect_of fl) (if obj then CObject else CArray) (last r) p l -> ends (dialect_of fl) l ->
  rest r = p ++ (if obj then 125 else 93) :: z ->
  exists r', reads fl buf r st [(if obj then TObjectEnd else TArrayEnd, None)] r' st0
    /\ rest r' = z /\ good buf r' /\ last r' = (if obj then TObjectEnd else TArrayEnd).
Proof.
  intros PF (E & I) W PU P EN R.
  destruct (push_pop _ _ _ W PU) as (_ & _ & _ & PO). pose proof (push_top _ _ _ PU) as TP.
  destruct (next_token_complete fl (if obj then CObject else CArray) r p l [if obj then 125 else 93]
    (if obj then TObjectEnd else TArrayEnd) None z PF P) as (r' & T & R' & M & L' & _).
  { destruct obj; now constructor. }
  { exact R. }
  { destruct obj; discriminate. }
  exists r'. split; [|split; [exact R'|split; [|exact L']]].
  - replace (if obj then TObjectEnd else TArrayEnd, None)
      with (observe buf (if obj then TObjectEnd else TArrayEnd) r') by (destruct obj; reflexivity).
    econstructor; [|constructor]. unfold next_token_explicit. rewrite TP, T. destruct obj; rewrite PO; reflexivity.
  - split; [destruct M as (_ & _ & M); congruence|]. eapply moved_inside; eauto.
Qed.

Lemma ends_nonint z t s ty : ends_root z (Scalar ty s) -> t = ty -> z <> [] \/ (t <> YInt /\ t <> YUInt).
Proof. intros [H|H] ->; [auto|]. right. destruct ty; try contradiction; split; discriminate. Qed.

Lemma after_prefix d c r w : after_value r -> c <> CNull -> ws w -> forall w', ws w' ->
  prefix d c (last r) (w ++ 44 :: w') TComma.
Proof.
  intros A C W w' W'. constructor; auto. destruct A as [-> | [-> | ->]]; auto.
Qed.

Theorem stream_reads fl : plain_flags fl ->
  (forall s t, value (dialect_of fl) s t -> value_reads fl s t)
  /\ (forall s m, member (dialect_of fl) s m -> member_reads fl s m)
  /\ (forall s ms, object_tail (dialect_of fl) s ms -> tail_reads fl CObject s (events_m ms) (depth_m ms))
  /\ (forall s vs, array_tail (dialect_of fl) s vs -> tail_reads fl CArray s (events_a vs) (depth_a vs)).
Proof.
  intro PF.
  assert (SC : forall s ty tk, value (dialect_of fl) s (Scalar ty tk) -> value_reads fl s (Scalar ty tk)).
  { intros s ty tk V buf r st p l z P F R FO ER G W D. cbn [events].
    destruct (step_content fl buf r st p l s TValue ty tk z) as (r' & RD & R' & G' & L'); auto.
    - now constructor.
    - eapply ends_nonint; eauto.
    - exists r'. unfold after_value. auto. }
  apply value_mutind.
  - apply SC. constructor.
  - apply SC. constructor.
  - apply SC. constructor.
  - intros s t ty N. apply SC. now constructor.
  - intros raw o U buf r st p l z P F R FO ER G W D. cbn [events].
    destruct (step_content fl buf r st p l (quoted raw) TValue YString raw z) as (r' & RD & R' & G' & L'); auto.
    + econstructor; eauto.
    + right. split; discriminate.
    + exists r'. unfold after_value. auto.
  - (* {} *)
    intros w WS buf r st p l z P F R FO ER G W D. cbn [depth fold_right] in D.
    destruct (step_start fl buf r st true p l (w ++ 125 :: z)) as (r1 & st1 & RD1 & PU & R1 & G1 & L1); auto.
    { rewrite R. app_norm. }
    { lia. }
    destruct (step_end fl buf r1 st st1 true w TObjectStart z) as (r2 & RD2 & R2 & G2 & L2); auto.
    { rewrite L1. now constructor. }
    { exact I. }
    exists r2. split; [|unfold after_value; auto]. cbn [events flat_map app].
    change [(TObjectStart, None); (TObjectEnd, None)] with ([(TObjectStart, @None (vtype * list N))] ++ [(TObjectEnd, None)]).
    eapply reads_app; eauto.
  - (* {...} *)
    intros s [raw v] u ms M IM T IT buf r st p l z P F R FO ER G W D.
    cbn [depth fold_right snd] in D. change (fold_right (fun m k => Nat.max (depth (snd m)) k) 0%nat ms) with (depth_m ms) in D.
    destruct (step_start fl buf r st true p l (s ++ u ++ z)) as (r1 & st1 & RD1 & PU & R1 & G1 & L1); auto.
    { rewrite R. app_norm. }
    { lia. }
    destruct (push_pop _ _ _ W PU) as (W1 & LE & CP & _).
    destruct (IM buf r1 st1 [] TObjectStart (u ++ z)) as (r2 & RD2 & R2 & G2 & A2); auto.
    { now apply push_top in PU. }
    { intros w WS. rewrite L1. now constructor. }
    { inversion T; subst; [destruct w|destruct w|destruct w]; cbn [app follow_ok]; auto;
        match goal with X : ws (_ :: _) |- _ => inversion X; auto end. }
    { inversion T; subst; destruct w; discriminate. }
    { cbn [snd]. lia. }
    destruct (IT buf r2 st st1 z) as (r3 & RD3 & R3 & G3 & A3); auto.
    { lia. }
    exists r3. split; [|auto]. cbn [events flat_map].
    change (flat_map (fun m => (TPropertyName, Some (YString, fst m)) :: events (snd m)) ms) with (events_m ms).
    rewrite <- !app_assoc.
    change ((TObjectStart, None) :: ?x) with ([(TObjectStart, @None (vtype * list N))] ++ x).
    eapply reads_app; [exact RD1|]. eapply reads_app; [exact RD2|]. exact RD3.
  - (* [] *)
    intros w WS buf r st p l z P F R FO ER G W D. cbn [depth fold_right] in D.
    destruct (step_start fl buf r st false p l (w ++ 93 :: z)) as (r1 & st1 & RD1 & PU & R1 & G1 & L1); auto.
    { rewrite R. app_norm. }
    { lia. }
    destruct (step_end fl buf r1 st st1 false w TArrayStart z) as (r2 & RD2 & R2 & G2 & L2); auto.
    { rewrite L1. now constructor. }
    { exact I. }
    exists r2. split; [|unfold after_value; auto]. cbn [events flat_map app].
    change [(TArrayStart, None); (TArrayEnd, None)] with ([(TArrayStart, @None (vtype * list N))] ++ [(TArrayEnd, None)]).
    eapply reads_app; eauto.
  - (* [...] *)
    intros w s v u vs WS V IV T IT buf r st p l z P F R FO ER G W D.
    cbn [depth fold_right] in D. change (fold_right (fun v k => Nat.max (depth v) k) 0%nat vs) with (depth_a vs) in D.
    destruct (step_start fl buf r st false p l (w ++ s ++ u ++ z)) as (r1 & st1 & RD1 & PU & R1 & G1 & L1); auto.
    { rewrite R. app_norm. }
    { lia. }
    destruct (push_pop _ _ _ W PU) as (W1 & LE & CP & _). pose proof (push_top _ _ _ PU) as TP.
    destruct (IV buf r1 st1 w TArrayStart (u ++ z)) as (r2 & RD2 & R2 & G2 & A2); auto.
    { rewrite L1. now constructor. }
    { rewrite TP. cbn. auto. }
    { inversion T; subst; [destruct w0|destruct w0|destruct w0]; cbn [app follow_ok]; auto;
        match goal with X : ws (_ :: _) |- _ => inversion X; auto end. }
    { left. inversion T; subst; destruct w0; discriminate. }
    { lia. }
    destruct (IT buf r2 st st1 z) as (r3 & RD3 & R3 & G3 & A3); auto.
    { lia. }
    exists r3. split; [|auto]. cbn [events flat_map].
    change (flat_map events vs) with (events_a vs).
    rewrite <- !app_assoc.
    change ((TArrayStart, None) :: ?x) with ([(TArrayStart, @None (vtype * list N))] ++ x).
    eapply reads_app; [exact RD1|]. eapply reads_app; [exact RD2|]. exact RD3.
  - (* member *)
    intros w1 raw o w2 x w3 s v W1 U W2 CO W3 V IV buf r st p0 l z TP P LL R FO ZN G W D. cbn [fst snd] in *.
    destruct (step_content fl buf r st (p0 ++ w1) l (quoted raw) TPropertyName YString raw (w2 ++ x :: w3 ++ s ++ z))
      as (r1 & RD1 & R1 & G1 & L1); auto.
    { rewrite TP. auto. }
    { rewrite TP. econstructor; eauto. }
    { rewrite R. app_norm. }
    { discriminate. }
    { right; split; discriminate. }
    destruct (IV buf r1 st (w2 ++ x :: w3) TPropertyColon z) as (r2 & RD2 & R2 & G2 & A2); auto.
    { rewrite TP, L1. now constructor. }
    { rewrite TP. reflexivity. }
    { rewrite R1. app_norm. }
    { left. exact ZN. }
    exists r2. split; [|auto].
    change ((TPropertyName, Some (YString, raw)) :: ?y) with ([(TPropertyName, Some (YString, raw))] ++ y).
    eapply reads_app; eauto.
  - (* OT_end *)
    intros w WS buf r st0 st z PU W R G A D. cbn [events_m flat_map app ctx_eqb].
    destruct (step_end fl buf r st0 st true w (last r) z) as (r2 & RD2 & R2 & G2 & L2); auto.
    { now constructor. }
    { destruct A as [-> | [-> | ->]]; exact I. }
    { rewrite R. app_norm. }
    exists r2. split; [exact RD2|unfold after_value; auto].
  - intros w w' TR WS WS' buf r st0 st z PU W R G A D. cbn [events_m flat_map app ctx_eqb].
    destruct (step_end fl buf r st0 st true (w ++ 44 :: w') TComma z) as (r2 & RD2 & R2 & G2 & L2); auto.
    { apply after_prefix; auto; discriminate. }
    { rewrite R. app_norm. }
    exists r2. split; [exact RD2|unfold after_value; auto].
  - intros w s [raw v] u ms WS M IM T IT buf r st0 st z PU W R G A D.
    cbn [depth_m fold_right snd] in D. change (fold_right (fun m k => Nat.max (depth (snd m)) k) 0%nat ms) with (depth_m ms) in D.
    destruct (push_pop _ _ _ W PU) as (W1 & LE & CP & _).
    destruct (IM buf r st (w ++ [44]) TComma (u ++ z)) as (r2 & RD2 & R2 & G2 & A2); auto.
    { now apply push_top in PU. }
    { intros w' WS'. replace ((w ++ [44]) ++ w') with (w ++ 44 :: w') by app_norm. apply after_prefix; auto; discriminate. }
    { rewrite R. app_norm. }
    { inversion T; subst; [destruct w0|destruct w0|destruct w0]; cbn [app follow_ok]; auto;
        match goal with X : ws (_ :: _) |- _ => inversion X; auto end. }
    { inversion T; subst; destruct w0; discriminate. }
    { cbn [snd]. lia. }
    destruct (IT buf r2 st0 st z) as (r3 & RD3 & R3 & G3 & A3); auto.
    { lia. }
    exists r3. split; [|auto]. cbn [events_m flat_map].
    change (flat_map (fun m => (TPropertyName, Some (YString, fst m)) :: events (snd m)) ms) with (events_m ms).
    rewrite <- !app_assoc. eapply reads_app; [exact RD2|]. exact RD3.
  - intros w WS buf r st0 st z PU W R G A D. cbn [events_a flat_map app ctx_eqb].
    destruct (step_end fl buf r st0 st false w (last r) z) as (r2 & RD2 & R2 & G2 & L2); auto.
    { now constructor. }
    { destruct A as [-> | [-> | ->]]; exact I. }
    { rewrite R. app_norm. }
    exists r2. split; [exact RD2|unfold after_value; auto].
  - intros w w' TR WS WS' buf r st0 st z PU W R G A D. cbn [events_a flat_map app ctx_eqb].
    destruct (step_end fl buf r st0 st false (w ++ 44 :: w') TComma z) as (r2 & RD2 & R2 & G2 & L2); auto.
    { apply after_prefix; auto; discriminate. }
    { rewrite R. app_norm. }
    exists r2. split; [exact RD2|unfold after_value; auto].
  - intros w w' s v u vs WS WS' V IV T IT buf r st0 st z PU W R G A D.
    cbn [depth_a fold_right] in D. change (fold_right (fun v k => Nat.max (depth v) k) 0%nat vs) with (depth_a vs) in D.
    destruct (push_pop _ _ _ W PU) as (W1 & LE & CP & _). pose proof (push_top _ _ _ PU) as TP.
    destruct (IV buf r st (w ++ 44 :: w') TComma (u ++ z)) as (r2 & RD2 & R2 & G2 & A2); auto.
    { rewrite TP. apply after_prefix; auto; discriminate. }
    { rewrite TP. cbn. auto. }
    { rewrite R. app_norm. }
    { inversion T; subst; [destruct w0|destruct w0|destruct w0]; cbn [app follow_ok]; auto;
        match goal with X : ws (_ :: _) |- _ => inversion X; auto end. }
    { left. inversion T; subst; destruct w0; discriminate. }
    { lia. }
    destruct (IT buf r2 st0 st z) as (r3 & RD3 & R3 & G3 & A3); auto.
    { lia. }
    exists r3. split; [|auto]. cbn [events_a flat_map].
    change (flat_map events vs) with (events_a vs).
    rewrite <- !app_assoc. eapply reads_app; [exact RD2|]. exact RD3.
Qed.

(** ** Whole texts *)

(** Calling jsonNextToken until it reports the end or an error. *)
Fixpoint tokens (n : nat) (fl : N) (buf : list N) (r : reader) (st : cstack) : option (list event) :=
  match n with
  | O => Some []
  | S n =>
      ' (t, r, st) <- next_token_explicit fl r st;;
      match t with
      | TEof | TError => Some [observe buf t r]
      | _ => es <- tokens n fl buf r st;; Some (observe buf t r :: es)
      end
  end.

Definition event_tok (e : event) : tok := fst e.
Definition goes_on (t : tok) : Prop := t <> TEof /\ t <> TError.

Lemma reads_tokens fl buf r st es r1 st1 : reads fl buf r st es r1 st1 ->
  Forall (fun e => goes_on (fst e)) es -> forall n, tokens (length es + n) fl buf r st =
    (es' <- tokens n fl buf r1 st1;; Some (es ++ es')).
Proof.
  induction 1 as [r st|r st t r1 st1 es r2 st2 T RD IH]; intros F n; cbn [length Nat.add app].
  - now destruct (tokens n fl buf r st).
  - inversion F as [|? ? [F1 F2] F3]; subst. cbn [fst observe] in F1, F2. cbn [tokens]. rewrite T, (IH F3 n).
    destruct t; try congruence; destruct (tokens n fl buf r2 st2); reflexivity.
Qed.

(** Induction over trees. *)
Lemma tree_ind' (P : tree -> Prop) : (forall ty s, P (Scalar ty s)) -> (forall raw, P (Str raw)) ->
  (forall ms, Forall (fun m => P (snd m)) ms -> P (Obj ms)) -> (forall vs, Forall P vs -> P (Arr vs)) ->
  forall t, P t.
Proof.
  intros HS HR HO HA. fix IH 1. intros [ty s|raw|ms|vs]; [apply HS|apply HR| |].
  - apply HO. induction ms as [|m ms IHm]; constructor; [apply IH|exact IHm].
  - apply HA. induction vs as [|v vs IHv]; constructor; [apply IH|exact IHv].
Qed.

Lemma events_go t : Forall (fun e => goes_on (fst e)) (events t).
Proof.
  induction t as [ty s|raw|ms IH|vs IH] using tree_ind'; cbn [events].
  - repeat constructor; discriminate.
  - repeat constructor; discriminate.
  - constructor; [split; discriminate|]. apply Forall_app. split; [|repeat constructor; discriminate].
    induction IH as [|m ms M _ IHm]; cbn [flat_map app]; [constructor|].
    constructor; [split; discriminate|]. apply Forall_app. auto.
  - constructor; [split; discriminate|]. apply Forall_app. split; [|repeat constructor; discriminate].
    induction IH as [|m ms M _ IHm]; cbn [flat_map app]; [constructor|]. apply Forall_app. auto.
Qed.

Theorem stream_of_text fl buf t cap : plain_flags fl -> json_text (dialect_of fl) buf t ->
  integer_ended buf t -> (depth t <= cap)%nat ->
  tokens (S (length (events t))) fl buf (make_reader buf) (CStack [] cap) = Some (events t ++ [(TEof, None)]).
Proof.
  intros PF (w & s & w' & EB & W & W' & V) ER D.
  apply (integer_ends_root (dialect_of fl) buf w s w' t) in ER; auto.
  destruct (stream_reads fl PF) as (SR & _).
  destruct (SR s t V buf (make_reader buf) (CStack [] cap) w TEof w') as (r & RD & R & (E & I) & A).
  { now constructor. }
  { reflexivity. }
  { exact EB. }
  { destruct w' as [|c w']; [exact I|]. inversion W'; subst. cbn. auto. }
  { exact ER. }
  { split; reflexivity. }
  { split; [constructor|cbn; lia]. }
  { exact D. }
  rewrite <- Nat.add_1_r, (reads_tokens _ _ _ _ _ _ _ RD (events_go t)). cbn [tokens].
  assert (T : exists r1, next_token fl CNull r = Some (TEof, r1)).
  { unfold next_token. cbn [next_loop]. unfold next_step. cbv zeta.
    destruct (skip_ws_app r (rest r) []) as [R0 T0]; [now rewrite app_nil_r|now rewrite R|now left|].
    rewrite R0. eexists. reflexivity. }
  destruct T as (r1 & T). unfold next_token_explicit. cbn [top_context cs_entries]. rewrite T. reflexivity.
Qed.

(** ** The grammar is unambiguous *)

(** Trees of texts: scalars are not strings. *)
Fixpoint proper (t : tree) : Prop :=
  match t with
  | Scalar ty _ => ty <> YString
  | Str _ => True
  | Obj ms => fold_right (fun m P => proper (snd m) /\ P) True ms
  | Arr vs => fold_right (fun v P => proper v /\ P) True vs
  end.

Lemma value_proper d :
  (forall s t, value d s t -> proper t)
  /\ (forall s m, member d s m -> proper (snd m))
  /\ (forall s ms, object_tail d s ms -> fold_right (fun m P => proper (snd m) /\ P) True ms)
  /\ (forall s vs, array_tail d s vs -> fold_right (fun v P => proper v /\ P) True vs).
Proof.
  apply value_mutind; intros; cbn [proper fold_right snd]; auto; try discriminate.
  match goal with H : number _ _ _ _ |- _ => destruct H as [? []|? []|? []] end; discriminate.
Qed.

Lemma events_head t : exists k c u, events t = (k, c) :: u /\ (k = TValue \/ k = TObjectStart \/ k = TArrayStart).
Proof. destruct t; cbn [events]; eauto 8. Qed.

Lemma events_inj t1 : forall t2 z1 z2, proper t1 -> proper t2 -> events t1 ++ z1 = events t2 ++ z2 ->
  t1 = t2 /\ z1 = z2.
Proof.
  induction t1 as [ty s|raw|ms IH|vs IH] using tree_ind'; intros t2 z1 z2 P1 P2 E.
  - destruct t2; cbn [events app proper] in *; try discriminate.
    + injection E as -> -> ->. auto.
    + injection E as -> _ _. congruence.
  - destruct t2; cbn [events app proper] in *; try discriminate.
    + injection E as <- _ _. congruence.
    + injection E as -> ->. auto.
  - destruct t2 as [| |ms2|]; cbn [events app proper] in *; try discriminate.
    injection E as E. rewrite <- !app_assoc in E. cbn [app] in E.
    assert (K : ms = ms2 /\ z1 = z2); [|destruct K; subst; auto].
    revert ms2 P2 E. induction IH as [|[n v] ms M _ IHm]; intros [|[n2 v2] ms2] P2 E;
      cbn [flat_map app fold_right fst snd] in *; try discriminate.
    + injection E as ->. auto.
    + injection E as <- E. rewrite <- !app_assoc in E.
      apply M in E; try tauto. destruct E as [<- E].
      apply IHm in E; try tauto. destruct E as [<- <-]. auto.
  - destruct t2 as [| | |vs2]; cbn [events app proper] in *; try discriminate.
    injection E as E. rewrite <- !app_assoc in E. cbn [app] in E.
    assert (K : vs = vs2 /\ z1 = z2); [|destruct K; subst; auto].
    revert vs2 P2 E. induction IH as [|v vs M _ IHm]; intros [|v2 vs2] P2 E;
      cbn [flat_map app fold_right] in *.
    + injection E as ->. auto.
    + destruct (events_head v2) as (k & c & u & H & K). rewrite H in E. cbn [app] in E.
      injection E as <- _. intuition discriminate.
    + destruct (events_head v) as (k & c & u & H & K). rewrite H in E. cbn [app] in E.
      injection E as -> _. intuition discriminate.
    + rewrite <- !app_assoc in E.
      apply M in E; try tauto. destruct E as [<- E].
      apply IHm in E; try tauto. destruct E as [<- <-]. auto.
Qed.

Lemma flags_of_dialect d : exists fl, plain_flags fl /\ dialect_of fl = d.
Proof.
  destruct d as [a b c e].
  exists ((if a then 2 ^ 3 else 0) + (if b then 2 ^ 13 else 0) + (if c then 2 ^ 14 else 0) + (if e then 2 ^ 7 else 0)).
  destruct a, b, c, e; split; vm_compute; auto.
Qed.

Theorem text_unambiguous d buf t1 t2 : json_text d buf t1 -> json_text d buf t2 -> t1 = t2.
Proof.
  destruct (flags_of_dialect d) as (fl & PF & <-).
  assert (PAD : forall t, json_text (dialect_of fl) buf t ->
    json_text (dialect_of fl) (buf ++ [32]) t /\ integer_ended (buf ++ [32]) t /\ proper t).
  { intros t (w & s & w' & -> & W & W' & V). split.
    - exists w, s, (w' ++ [32]). rewrite <- !app_assoc. repeat split; auto.
      apply Forall_app. split; auto. repeat constructor.
    - split; [|now apply (value_proper (dialect_of fl)) in V].
      destruct t as [[]| | |]; cbn; auto; (do 2 eexists; split; [reflexivity|now left]). }
  intros H1 H2. apply PAD in H1, H2. destruct H1 as (H1 & I1 & P1), H2 as (H2 & I2 & P2).
  set (cap := Nat.max (depth t1) (depth t2)).
  pose proof (stream_of_text fl _ t1 cap PF H1 I1) as S1.
  pose proof (stream_of_text fl _ t2 cap PF H2 I2) as S2.
  unfold cap in *. clear cap. set (cap := Nat.max (depth t1) (depth t2)) in *.
  specialize (S1 (Nat.le_max_l _ _)). specialize (S2 (Nat.le_max_r _ _)).
  assert (MONO : forall n fl buf r st es k, tokens n fl buf r st = Some es ->
    Exists (fun e => ~ goes_on (fst e)) es -> tokens (n + k) fl buf r st = Some es).
  { clear. induction n as [|n IH]; intros fl buf r st es k H X; cbn [tokens Nat.add] in *.
    - injection H as <-. inversion X.
    - destruct (next_token_explicit fl r st) as [[[t r1] st1]|]; [|discriminate].
      assert (G : forall (es' : list event), tokens n fl buf r1 st1 = Some es' -> goes_on t ->
        es = observe buf t r1 :: es' -> tokens (n + k) fl buf r1 st1 = Some es').
      { intros es' T G ->. apply IH; auto. inversion X; subst; auto. contradiction. }
      destruct t; try exact H; destruct (tokens n fl buf r1 st1) as [es'|] eqn:T; try discriminate;
        assert (EQ : es = observe buf _ r1 :: es') by (injection H as <-; reflexivity);
        rewrite (G es' eq_refl) by (auto; split; discriminate); exact H. }
  assert (EX : forall es : list event, Exists (fun e => ~ goes_on (fst e)) (es ++ [(TEof, None)])).
  { intros es. apply Exists_app. right. constructor. cbn. intros []. congruence. }
  apply (MONO _ _ _ _ _ _ (length (events t2))) in S1; auto.
  apply (MONO _ _ _ _ _ _ (length (events t1))) in S2; auto.
  replace (S (length (events t2)) + length (events t1))%nat
    with (S (length (events t1)) + length (events t2))%nat in S2 by lia.
  rewrite S1 in S2. injection S2 as E.
  apply events_inj in E; tauto.
Qed.
