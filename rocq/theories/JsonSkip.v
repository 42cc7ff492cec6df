(** Tokens only depend on the bytes that are left, the last token and the error; skipping an object
    or array ends where reading it ends. *)
From Coq Require Import Arith NArith List Bool Lia ZifyBool ZifyNat ZifyN.
From Verif Require Import Base UniSpec JsonModel JsonSpec JsonString JsonLex JsonTok.
Import ListNotations.
Local Open Scope N_scope.

Definition sim (a b : reader) : Prop := rest a = rest b /\ last a = last b /\ err a = err b.
Definition osim {X} (p q : option (X * reader)) : Prop :=
  match p, q with
  | None, None => True
  | Some (x, a), Some (y, b) => x = y /\ sim a b
  | _, _ => False
  end.

Lemma sim_refl a : sim a a.
Proof. repeat split. Qed.
Lemma sim_sym a b : sim a b -> sim b a.
Proof. unfold sim. intuition congruence. Qed.
Lemma sim_trans a b c : sim a b -> sim b c -> sim a c.
Proof. unfold sim. intuition congruence. Qed.


Lemma sim_set_error a b e : sim a b -> sim (set_error a e) (set_error b e).
Proof. unfold sim, set_error. cbn. intuition. Qed.
Lemma sim_set_last a b t : sim a b -> sim (set_last a t) (set_last b t).
Proof. unfold sim. cbn. intuition. Qed.
Lemma sim_set_vt a b t u : sim a b -> sim (set_vt a t) (set_vt b u).
Proof. unfold sim. cbn. intuition. Qed.
Lemma sim_set_cur a b o n o' n' : sim a b -> sim (set_cur a o n) (set_cur b o' n').
Proof. unfold sim. cbn. intuition. Qed.
Lemma sim_set_root a b : sim a b -> sim (set_root a) (set_root b).
Proof. unfold sim. cbn. intuition. Qed.
Lemma sim_set_pos a b s o l c o' l' c' : sim a b -> sim (set_pos a s o l c) (set_pos b s o' l' c').
Proof. unfold sim. cbn. intuition. Qed.
Lemma sim_advance a b : sim a b -> sim (advance a) (advance b).
Proof. unfold sim, advance. cbn. intros (-> & -> & ->). auto. Qed.
Lemma sim_cur_end a b : sim a b -> sim (cur_end a) (cur_end b).
Proof.
  unfold cur_end. intro S. destruct (curo a), (curo b); auto; unfold sim in *; cbn; intuition.
Qed.
Lemma sim_adv_while p a b : sim a b -> sim (adv_while p a) (adv_while p b).
Proof.
  unfold adv_while. intros (E & L & R). rewrite E. destruct (span p (rest b)). unfold sim. cbn. auto.
Qed.
Lemma sim_skip_ws a b : sim a b -> sim (skip_ws a) (skip_ws b).
Proof.
  intros (E & L & R).
  destruct (skip_ws_spec a) as (w & W & T & Z & LA & _).
  destruct (skip_ws_spec b) as (w' & W' & T' & Z' & LB & _).
  destruct T as (T1 & _ & _ & T2), T' as (T1' & _ & _ & T2').
  assert (X : w ++ rest (skip_ws a) = w' ++ rest (skip_ws b)) by congruence.
  destruct (ws_split _ _ _ _ X W W' Z Z') as [_ X2]. unfold sim. repeat split; congruence.
Qed.
#[local] Hint Resolve sim_refl sim_set_error sim_set_last sim_set_vt sim_set_cur sim_set_root
  sim_set_pos sim_advance sim_cur_end sim_adv_while sim_skip_ws : sim.

Lemma sim_number_exp dot trail a b : sim a b ->
  osim (number_exp true dot trail a) (number_exp true dot trail b).
Proof.
  intro S. unfold number_exp, number_end, peek. cbn [negb andb].
  pose proof S as (E & _). rewrite E.
  destruct (rest b) as [|e s]; [cbn; auto with sim|].
  destruct ((e =? 101) || (e =? 69)); [|cbn; auto with sim].
  rewrite andb_false_r.
  assert (S1 : sim (advance (set_vt a YFloat)) (advance (set_vt b YFloat))) by auto with sim.
  set (a1 := advance (set_vt a YFloat)) in *. set (b1 := advance (set_vt b YFloat)) in *.
  clearbody a1 b1. pose proof S1 as (E1 & _). rewrite E1.
  destruct (rest b1) as [|c s1]; [exact I|].
  assert (S2 : sim (if (c =? 43) || (c =? 45) then advance a1 else a1)
                   (if (c =? 43) || (c =? 45) then advance b1 else b1))
    by (destruct ((c =? 43) || (c =? 45)); auto with sim).
  set (a2 := if (c =? 43) || (c =? 45) then advance a1 else a1) in *.
  set (b2 := if (c =? 43) || (c =? 45) then advance b1 else b1) in *.
  clearbody a2 b2. pose proof S2 as (E2 & _). cbv zeta. rewrite E2.
  destruct (rest b2) as [|c2 s2]; [exact I|].
  destruct (negb (isdigit c2)); cbn; auto with sim.
Qed.

Lemma sim_number_frac fl a b : N.testbit fl bLeadTrailPoint = false -> sim a b ->
  osim (number_frac fl true a) (number_frac fl true b).
Proof.
  intros PF S. unfold number_frac. pose proof S as (E & _). rewrite E.
  destruct (rest b) as [|c s]; [now apply sim_number_exp|].
  destruct (c =? 46); [|now apply sim_number_exp].
  assert (S1 : sim (advance (set_vt a YFloat)) (advance (set_vt b YFloat))) by auto with sim.
  set (a1 := advance (set_vt a YFloat)) in *. set (b1 := advance (set_vt b YFloat)) in *.
  clearbody a1 b1. pose proof S1 as (E1 & _). cbv zeta. rewrite E1, PF.
  destruct (rest b1) as [|d s1]; [cbn; auto with sim|].
  destruct (isdigit d); [|cbn; auto with sim]. apply sim_number_exp. auto with sim.
Qed.

Lemma sim_read_number fl a b : N.testbit fl bLeadTrailPoint = false -> sim a b ->
  osim (read_number fl a) (read_number fl b).
Proof.
  intros PF S. unfold read_number. pose proof S as (E & _). rewrite E.
  destruct (rest b) as [|c0 s0]; [cbn; auto with sim|].
  cbv zeta.
  match goal with |- context [match rest ?x with _ => _ end] =>
    match x with context [off a] => set (a1 := x) end end.
  match goal with |- osim _ (match rest ?x with _ => _ end) => set (b1 := x) end.
  assert (S1 : sim a1 b1).
  { unfold a1, b1. destruct (c0 =? 45); [auto with sim|].
    destruct (N.testbit fl bPlusSign && (c0 =? 43)); auto 10 with sim. }
  clearbody a1 b1. pose proof S1 as (E1 & _). rewrite E1.
  destruct (rest b1) as [|c s]; [cbn; auto with sim|].
  assert (S2 : sim (advance a1) (advance b1)) by auto with sim.
  pose proof S2 as (E2 & _). rewrite E2.
  destruct (c =? 48).
  { destruct (rest (advance b1)) as [|x t]; [cbn; auto with sim|].
    assert (S3 : sim (advance (advance a1)) (advance (advance b1))) by auto with sim.
    pose proof S3 as (E3 & _). rewrite E3.
    destruct (((x =? 120) || (x =? 88)) && N.testbit fl bHexadecimal);
      [|now apply sim_number_frac].
    destruct (rest (advance (advance b1))) as [|h t']; [cbn; auto with sim|].
    destruct (negb (isxdigit h)); cbn; auto with sim. }
  destruct (isdigit c).
  { assert (S3 : sim (adv_while isdigit a1) (adv_while isdigit b1)) by auto with sim.
    pose proof S3 as (E3 & _). rewrite E3.
    destruct (rest (adv_while isdigit b1)) as [|x t]; [cbn; auto with sim|].
    now apply sim_number_frac. }
  rewrite PF. cbn. auto with sim.
Qed.

Lemma sim_read_quoted fl a b : N.testbit fl bEscapedMultiline = false -> sim a b ->
  osim (read_quoted fl a) (read_quoted fl b).
Proof.
  intros PF S. unfold read_quoted. pose proof S as (E & L & R). rewrite E.
  destruct (rest b) as [|q s]; [exact I|].
  destruct ((q =? 34) || (q =? 39)); [|exact I].
  destruct (find_char_unescaped s q) as [[body after]|].
  - rewrite PF. destruct (valid_string (Datatypes.S (length body)) body q false (N.testbit fl bExtendedWhitespace)) as [[|]|];
      cbn; auto; unfold sim; cbn; auto.
  - cbn. unfold sim. cbn. auto.
Qed.

Lemma sim_read_value fl a b : plain_flags fl -> sim a b -> osim (read_value fl a) (read_value fl b).
Proof.
  intros (_ & _ & _ & PF) S. unfold read_value. pose proof S as (E & L & R). rewrite E.
  destruct (starts_with (rest b) str_true).
  { cbn. unfold sim. cbn. rewrite E. auto. }
  destruct (starts_with (rest b) str_false).
  { cbn. unfold sim. cbn. rewrite E. auto. }
  destruct (starts_with (rest b) str_null).
  { cbn. unfold sim. cbn. rewrite E. auto. }
  pose proof (sim_read_number fl a b PF S) as H.
  destruct (read_number fl a) as [[ok a']|], (read_number fl b) as [[ok' b']|]; cbn in *; auto; try tauto.
  destruct H as (-> & S'). destruct ok'; cbn; auto with sim. split; auto. apply S'.
Qed.

Lemma sim_can_value_follow a b c : c <> CNull -> sim a b -> can_value_follow a c = can_value_follow b c.
Proof. intros NC (_ & L & _). unfold can_value_follow. rewrite L. destruct c; congruence. Qed.

Definition ssim (p q : option (tok * reader + reader)) : Prop :=
  match p, q with
  | None, None => True
  | Some (inl (x, a)), Some (inl (y, b)) => x = y /\ sim a b
  | Some (inr a), Some (inr b) => sim a b
  | _, _ => False
  end.

Lemma sim_next_step fl c a b : plain_flags fl -> c <> CNull -> sim a b ->
  ssim (next_step fl c a) (next_step fl c b).
Proof.
  intros PF NC S. unfold next_step. cbv zeta.
  apply sim_skip_ws in S. set (a0 := skip_ws a) in *. set (b0 := skip_ws b) in *. clearbody a0 b0.
  pose proof S as (E & L & R). rewrite E, L.
  rewrite (sim_can_value_follow a0 b0 c NC S).
  destruct (rest b0) as [|x s].
  { destruct c; [congruence| |]; cbn; auto with sim. }
  destruct (x =? 47).
  { unfold parse_comment. destruct PF as (PF & _). unfold bSingleLineComments. rewrite PF.
    cbn. auto with sim. }
  assert (PQ : ssim (t <- parse_quoted fl c a0;; Some (inl t)) (t <- parse_quoted fl c b0;; Some (inl t))).
  { unfold parse_quoted.
    pose proof (sim_read_quoted fl a0 b0 (quoted_inside fl PF) S) as H.
    destruct (read_quoted fl a0) as [[ok a']|], (read_quoted fl b0) as [[ok' b']|]; cbn in H; try tauto.
    destruct H as (-> & S'). destruct ok'; [|cbn; auto].
    cbv zeta.
    rewrite (sim_can_value_follow (set_vt a' YString) (set_vt b' YString) c NC (sim_set_vt _ _ _ _ S')).
    assert (LL : last (set_vt a' YString) = last (set_vt b' YString)) by apply S'.
    rewrite LL.
    destruct c; [congruence| |].
    - destruct (ctx_eqb CObject CObject && (tok_eqb (last (set_vt b' YString)) TObjectStart
           || tok_eqb (last (set_vt b' YString)) TComma)); [cbn; auto with sim|].
      destruct (can_value_follow (set_vt b' YString) CObject); cbn; auto with sim.
    - destruct (ctx_eqb CArray CObject && (tok_eqb (last (set_vt b' YString)) TObjectStart
           || tok_eqb (last (set_vt b' YString)) TComma)); [cbn; auto with sim|].
      destruct (can_value_follow (set_vt b' YString) CArray); cbn; auto with sim. }
  destruct (x =? 39).
  { destruct PF as (_ & PF & _). unfold bSingleQuoted. rewrite PF. cbn. auto with sim. }
  destruct (x =? 34); [exact PQ|]. clear PQ.
  destruct ((x =? 123) || (x =? 91)).
  { unfold parse_start. rewrite (sim_can_value_follow a0 b0 c NC S).
    destruct c; [congruence| |]; (destruct (can_value_follow b0 _); cbn; auto with sim). }
  destruct ((x =? 125) || (x =? 93)).
  { unfold parse_end, can_end_follow. rewrite L.
    match goal with |- context [if ?q then _ else _] => destruct q end; cbn; auto with sim. }
  destruct ((x =? 58) || (x =? 61)).
  { match goal with |- context [if ?q then _ else _] => destruct q end; cbn; auto with sim. }
  destruct (x =? 44).
  { destruct c; [congruence| |]; destruct (last b0); cbn; auto with sim. }
  destruct (can_value_follow b0 c); [|cbn; auto with sim].
  pose proof (sim_read_value fl (set_root a0) (set_root b0) PF (sim_set_root _ _ S)) as H.
  destruct (read_value fl (set_root a0)) as [[t a']|], (read_value fl (set_root b0)) as [[t' b']|];
    cbn in *; auto.
Qed.

Lemma sim_next_loop fl c fuel : plain_flags fl -> c <> CNull -> forall a b, sim a b ->
  osim (next_loop fuel fl c a) (next_loop fuel fl c b).
Proof.
  intros PF NC. induction fuel as [|fuel IH]; intros a b S; [exact I|].
  cbn [next_loop]. pose proof (sim_next_step fl c a b PF NC S) as H.
  destruct (next_step fl c a) as [[[t a']|a']|], (next_step fl c b) as [[[t' b']|b']|]; cbn in H;
    try tauto; [exact H|apply IH; exact H].
Qed.

Lemma sim_next_token fl c a b : plain_flags fl -> c <> CNull -> sim a b ->
  osim (next_token fl c a) (next_token fl c b).
Proof.
  intros PF NC S. unfold next_token. pose proof S as (E & _). rewrite E. now apply sim_next_loop.
Qed.

(** ** Skipping *)

Lemma skip_ws_length r : (length (rest (skip_ws r)) <= length (rest r))%nat.
Proof.
  destruct (skip_ws_spec r) as (w & _ & T & _). destruct T as (T & _). rewrite T, app_length. lia.
Qed.

Lemma skip_ws_nil r : rest r = [] -> sim (skip_ws r) r.
Proof.
  intro E. destruct (skip_ws_spec r) as (w & _ & (T & _ & _ & T2) & _ & L & _).
  rewrite E in T. symmetry in T. apply app_eq_nil in T. destruct T as [_ T].
  unfold sim. repeat split; congruence.
Qed.

Lemma sim_skip fl obj : plain_flags fl -> forall n m d a b,
  sim (skip_ws a) (skip_ws b) -> (rest a = [] <-> rest b = []) ->
  (length (rest a) < n)%nat -> (length (rest b) < m)%nat ->
  osim (skip_brackets n fl obj d a) (skip_brackets m fl obj d b).
Proof.
  intro PF. induction n as [|n IH]; intros m d a b S EE LA LB; [lia|].
  destruct m as [|m]; [lia|]. cbn [skip_brackets].
  pose proof (skip_ws_length a) as WA. pose proof (skip_ws_length b) as WB.
  destruct (rest a) as [|ya sa] eqn:RA.
  { assert (RB : rest b = []) by (apply EE; auto). rewrite RB.
    cbn. split; auto. apply sim_trans with (skip_ws a); [apply sim_sym, skip_ws_nil, RA|].
    apply sim_trans with (skip_ws b); auto. apply skip_ws_nil, RB. }
  destruct (rest b) as [|yb sb] eqn:RB.
  { destruct EE as [_ EE]. specialize (EE eq_refl). discriminate. }
  cbn [length] in *.
  cbv zeta. set (a0 := skip_ws a) in *. set (b0 := skip_ws b) in *. clearbody a0 b0.
  pose proof S as (E & L & R). 
  destruct (rest a0) as [|x s] eqn:R0; rewrite <- E.
  { cbn. auto with sim. }
  assert (RB0 : rest b0 = x :: s) by congruence. rewrite RB0 in WB. cbn [length] in *.
  assert (NEXT : forall d a1 b1, sim a1 b1 -> (length (rest a1) <= length s)%nat ->
    osim (skip_brackets n fl obj d a1) (skip_brackets m fl obj d b1)).
  { intros d' a1 b1 S1 LN. pose proof S1 as (E1 & _). apply IH.
    - auto with sim.
    - rewrite E1. tauto.
    - lia.
    - rewrite <- E1. lia. }
  assert (ADV : sim (advance a0) (advance b0)) by auto with sim.
  assert (LADV : (length (rest (advance a0)) <= length s)%nat).
  { unfold advance. cbn. rewrite R0. cbn. lia. }
  destruct (x =? (if obj then 123 else 91)); [apply NEXT; auto|].
  destruct (x =? (if obj then 125 else 93)).
  { destruct d as [|[|d]]; [exact I|cbn; auto with sim|apply NEXT; auto]. }
  destruct (N.eqb_spec x 34) as [->|NQ]; [|apply NEXT; auto].
  set (a1 := set_pos a0 (34 :: s) (off a0) (line a0) (Datatypes.S (col a0))).
  set (b1 := set_pos b0 (34 :: s) (off b0) (line b0) (Datatypes.S (col b0))).
  assert (S1 : sim a1 b1) by (unfold a1, b1; auto with sim).
  pose proof (sim_read_quoted fl a1 b1 (quoted_inside fl PF) S1) as H.
  destruct (read_quoted_cases fl a1 s (quoted_inside fl PF) eq_refl) as (ok & r' & EQ & C).
  rewrite EQ in H |- *. destruct (read_quoted fl b1) as [[ok' b']|]; cbn in H; [|tauto].
  destruct H as (<- & S'). destruct ok; [|cbn; auto].
  apply NEXT; auto. destruct C as (raw & o & _ & (T & _) & _).
  assert (T' : length (34 :: s) = length (quoted raw ++ rest r')) by (rewrite <- T; reflexivity).
  unfold quoted in T'. cbn [length app] in T'. rewrite !app_length in T'. cbn [length] in T'. lia.
Qed.

Lemma skip_eq n fl obj depth r : skip_brackets (S n) fl obj depth r =
  match rest r with
  | [] => Some (false, r)
  | _ =>
      match rest (skip_ws r) with
      | [] => Some (false, set_error (skip_ws r) JUnexpectedEof)
      | x :: _ =>
          if x =? (if obj then 123 else 91) then skip_brackets n fl obj (S depth) (advance (skip_ws r))
          else if x =? (if obj then 125 else 93) then
            match depth with
            | O => None
            | S O => Some (true, set_last (advance (skip_ws r)) (if obj then TObjectEnd else TArrayEnd))
            | S d => skip_brackets n fl obj d (advance (skip_ws r))
            end
          else if x =? 34 then
            ' (ok, r) <- read_quoted fl (set_pos (skip_ws r) (rest (skip_ws r)) (off (skip_ws r))
                                           (line (skip_ws r)) (S (col (skip_ws r))));;
            if ok then skip_brackets n fl obj depth r else Some (false, r)
          else skip_brackets n fl obj depth (advance (skip_ws r))
      end
  end.
Proof. reflexivity. Qed.

Definition skipB (fl : N) (obj : bool) (d : nat) (r : reader) : option (bool * reader) :=
  skip_brackets (S (length (rest r))) fl obj d r.

Lemma osim_trans {X} (p q s : option (X * reader)) : osim p q -> osim q s -> osim p s.
Proof.
  destruct p as [[x a]|], q as [[y b]|], s as [[z c]|]; cbn; try tauto.
  intros (-> & S1) (-> & S2). split; auto. now apply sim_trans with b.
Qed.

(** Skipping goes over the text [u] and keeps the nesting depth. *)
Definition skips (fl : N) (obj : bool) (u : list N) : Prop :=
  forall r z d, rest r = u ++ z -> ~ ws z -> exists r', rest r' = z /\ last r' = last r
    /\ err r' = err r /\ osim (skipB fl obj (S d) r) (skipB fl obj (S d) r').

Lemma skips_app fl obj u v : skips fl obj u -> skips fl obj v -> skips fl obj (u ++ v).
Proof.
  intros U V r z d R Z. rewrite <- app_assoc in R.
  destruct (U r (v ++ z) d R) as (r1 & R1 & L1 & E1 & S1).
  { intro W. apply Z. apply Forall_app in W. apply W. }
  destruct (V r1 z d R1 Z) as (r2 & R2 & L2 & E2 & S2).
  exists r2. split; [exact R2|]. split; [congruence|]. split; [congruence|].
  now apply osim_trans with (skipB fl obj (S d) r1).
Qed.

Lemma skips_nil fl obj : plain_flags fl -> skips fl obj [].
Proof.
  intros PF r z d R Z. exists r. split; [exact R|]. split; [reflexivity|]. split; [reflexivity|].
  unfold skipB. apply sim_skip; auto with sim. tauto.
Qed.

(** One step of skipping, at a byte that is not whitespace. *)
Lemma skip_ws_id r x s : rest r = x :: s -> is_ws x = false -> sim (skip_ws r) r /\ rest (skip_ws r) = x :: s.
Proof.
  intros R NW.
  destruct (skip_ws_app r [] (x :: s) R (Forall_nil _)) as [E _]; [right; eauto|].
  destruct (skip_ws_spec r) as (w & _ & (T & _ & _ & T2) & _ & L & _).
  split; [|exact E]. unfold sim. repeat split; congruence.
Qed.

Lemma not_ws_split z : ~ ws z -> exists w x s, z = w ++ x :: s /\ ws w /\ is_ws x = false.
Proof.
  induction z as [|c z IH]; intro H.
  - exfalso. apply H. constructor.
  - destruct (is_ws c) eqn:E.
    + destruct IH as (w & x & s & -> & W & X).
      * intro W. apply H. constructor; auto. now apply is_ws_spec.
      * exists (c :: w), x, s. repeat split; auto. constructor; auto. now apply is_ws_spec.
    + exists [], c, z. repeat split; auto. constructor.
Qed.

Lemma skips_ws fl obj w : plain_flags fl -> ws w -> skips fl obj w.
Proof.
  intros PF W r z d R Z.
  exists (set_pos r z (off r) (line r) (col r)). split; [reflexivity|]. split; [reflexivity|].
  split; [reflexivity|].
  destruct (not_ws_split z Z) as (w' & x & s & -> & W' & NX).
  unfold skipB. apply sim_skip; auto.
  - rewrite app_assoc in R.
    destruct (skip_ws_app r (w ++ w') (x :: s) R) as [A T]; [now apply ws_app|right; eauto|].
    destruct (skip_ws_app (set_pos r (w' ++ x :: s) (off r) (line r) (col r)) w' (x :: s) eq_refl W')
      as [B T']; [right; eauto|].
    destruct (skip_ws_spec r) as (? & _ & (_ & _ & _ & EA) & _ & LA & _).
    destruct (skip_ws_spec (set_pos r (w' ++ x :: s) (off r) (line r) (col r)))
      as (? & _ & (_ & _ & _ & EB) & _ & LB & _).
    unfold sim. rewrite A, B, EA, EB, LA, LB. auto.
  - cbn. rewrite R. split; intro H; exfalso; [apply app_eq_nil in H; destruct H as [_ H]|];
      apply app_eq_nil in H; destruct H; discriminate.
Qed.

(** Bytes that neither open nor close anything. *)
Definition inert (obj : bool) (c : N) : Prop :=
  c <> 34 /\ c <> (if obj then 123 else 91) /\ c <> (if obj then 125 else 93).

Lemma skips_inert fl obj u : plain_flags fl -> Forall (inert obj) u -> skips fl obj u.
Proof.
  intros PF F. induction F as [|c u I F IH]; [now apply skips_nil|].
  change (c :: u) with ([c] ++ u). apply skips_app; [|exact IH]. clear IH F u.
  destruct (is_ws c) eqn:W.
  { apply skips_ws; auto. constructor; [now apply is_ws_spec|constructor]. }
  intros r z d R Z. cbn [app] in R.
  destruct (skip_ws_id r c z R W) as [S R0].
  exists (advance (skip_ws r)). split; [unfold advance; cbn; now rewrite R0|].
  split; [apply S|]. split; [apply S|].
  unfold skipB at 1. rewrite skip_eq, R, R0.
  destruct I as (I1 & I2 & I3).
  assert (B1 : c =? (if obj then 123 else 91) = false) by (now apply N.eqb_neq).
  assert (B2 : c =? (if obj then 125 else 93) = false) by (now apply N.eqb_neq).
  assert (B3 : c =? 34 = false) by lia.
  rewrite B1, B2, B3. unfold skipB. apply sim_skip; auto with sim; try tauto;
    unfold advance; cbn; rewrite R0; cbn; lia.
Qed.

Lemma skips_quoted fl obj raw o : plain_flags fl -> unescape raw o -> skips fl obj (quoted raw).
Proof.
  intros PF U r z d R Z.
  assert (R1 : rest r = 34 :: (raw ++ 34 :: z)).
  { rewrite R. unfold quoted. cbn [app]. now rewrite <- app_assoc. }
  destruct (skip_ws_id r _ _ R1 eq_refl) as [S R0].
  set (r1 := set_pos (skip_ws r) (34 :: raw ++ 34 :: z) (off (skip_ws r)) (line (skip_ws r))
               (Datatypes.S (col (skip_ws r)))).
  assert (R2 : rest r1 = quoted raw ++ z).
  { unfold r1, quoted. cbn. now rewrite <- app_assoc. }
  destruct (read_quoted_complete fl r1 raw o z (quoted_inside fl PF) U R2)
    as (r' & E & R' & (_ & _ & _ & ER) & L & _).
  exists r'. split; [exact R'|]. split; [rewrite L; apply S|]. split; [rewrite ER; apply S|].
  unfold skipB at 1. rewrite skip_eq, R1, R0.
  assert (B1 : 34 =? (if obj then 123 else 91) = false) by (destruct obj; reflexivity).
  assert (B2 : 34 =? (if obj then 125 else 93) = false) by (destruct obj; reflexivity).
  rewrite B1, B2. cbn [N.eqb Pos.eqb]. fold r1. rewrite E.
  unfold skipB. apply sim_skip; auto with sim; try tauto.
  rewrite R'. cbn [length]. rewrite app_length. cbn [length]. lia.
Qed.

Lemma skip_open fl (obj : bool) d r z : plain_flags fl -> rest r = (if obj then 123 else 91) :: z ->
  exists r', rest r' = z /\ last r' = last r /\ err r' = err r
    /\ osim (skipB fl obj d r) (skipB fl obj (S d) r').
Proof.
  intros PF R.
  destruct (skip_ws_id r _ _ R) as [S R0]; [destruct obj; reflexivity|].
  exists (advance (skip_ws r)). split; [unfold advance; cbn; now rewrite R0|].
  split; [apply S|]. split; [apply S|].
  unfold skipB at 1. rewrite skip_eq, R, R0.
  rewrite N.eqb_refl. unfold skipB. apply sim_skip; auto with sim; try tauto;
    unfold advance; cbn; rewrite R0; cbn; lia.
Qed.

Lemma skip_close fl (obj : bool) d r z : plain_flags fl -> rest r = (if obj then 125 else 93) :: z ->
  exists r', rest r' = z /\ last r' = last r /\ err r' = err r
    /\ osim (skipB fl obj (S d) r)
        (match d with
         | O => Some (true, set_last r' (if obj then TObjectEnd else TArrayEnd))
         | S _ => skipB fl obj d r'
         end).
Proof.
  intros PF R.
  destruct (skip_ws_id r _ _ R) as [S R0]; [destruct obj; reflexivity|].
  exists (advance (skip_ws r)). split; [unfold advance; cbn; now rewrite R0|].
  split; [apply S|]. split; [apply S|].
  unfold skipB at 1. rewrite skip_eq, R, R0.
  assert (B : (if obj then 125 else 93) =? (if obj then 123 else 91) = false)
    by (destruct obj; reflexivity).
  rewrite B, N.eqb_refl. destruct d as [|d]; [cbn; auto with sim|].
  unfold skipB. apply sim_skip; auto with sim; try tauto;
    unfold advance; cbn; rewrite R0; cbn; lia.
Qed.

(** A bracketed text. *)
Lemma skips_brackets fl obj (o : bool) u : plain_flags fl -> skips fl obj u ->
  skips fl obj ((if o then 123 else 91) :: u ++ [if o then 125 else 93]).
Proof.
  intros PF U. destruct (Bool.eqb o obj) eqn:EO.
  - apply eqb_prop in EO. subst o. intros r z d R Z. cbn [app] in R. rewrite <- app_assoc in R.
    destruct (skip_open fl obj (S d) r _ PF R) as (r1 & R1 & L1 & E1 & S1).
    destruct (U r1 _ (S d) R1) as (r2 & R2 & L2 & E2 & S2).
    { intro W. apply Z. now inversion W. }
    destruct (skip_close fl obj (S d) r2 z PF R2) as (r3 & R3 & L3 & E3 & S3).
    exists r3. split; [exact R3|]. split; [congruence|]. split; [congruence|].
    eapply osim_trans; [exact S1|]. eapply osim_trans; [exact S2|exact S3].
  - change ((if o then 123 else 91) :: u ++ [if o then 125 else 93])
      with ([if o then 123 else 91] ++ u ++ [if o then 125 else 93]).
    apply skips_app; [|apply skips_app; [exact U|]]; apply skips_inert; auto; constructor;
      try constructor; unfold inert; destruct o, obj; cbn in *; try discriminate; repeat split; discriminate.
Qed.

Lemma number_inert obj d s tk ty : number d s tk ty -> Forall (inert obj) s.
Proof.
  intro H.
  assert (DG : forall x, digit x -> inert obj x).
  { intros x D. unfold digit, inert in *. destruct obj; lia. }
  assert (DS : forall ds, Forall digit ds -> Forall (inert obj) ds)
    by (intros ds F; eapply Forall_impl; [exact DG|exact F]).
  assert (C : forall x, x = 46 \/ x = 101 \/ x = 69 \/ x = 43 \/ x = 45 \/ x = 120 \/ x = 88 -> inert obj x)
    by (intros x D; unfold inert; destruct obj; lia).
  assert (IP : forall i, int_part i -> Forall (inert obj) i).
  { intros i [->|((_ & F) & _)]; auto. constructor; [|constructor]. apply DG. unfold digit. lia. }
  assert (FP : forall f, frac_part f -> Forall (inert obj) f).
  { intros f (ds & -> & _ & F). constructor; auto. }
  assert (EP : forall e, exp_part e -> Forall (inert obj) e).
  { intros e (x & sg & ds & -> & X & SG & _ & F). constructor; [apply C; tauto|].
    apply Forall_app. split; auto. destruct SG as [->|[-> | ->]]; repeat constructor; apply C; tauto. }
  assert (M : forall m i, magnitude d m i -> Forall (inert obj) m).
  { intros m i M. inversion M; subst; rewrite ?Forall_app; auto.
    constructor; [apply DG; unfold digit; lia|]. constructor; [apply C; tauto|].
    eapply Forall_impl; [|eassumption]. intros y (v & Y). inversion Y; unfold inert; destruct obj; lia. }
  inversion H; subst; [eauto| |]; (constructor; [apply C; tauto|eauto]).
Qed.

Lemma skips_colon fl obj d x : plain_flags fl -> colon d x -> skips fl obj [x].
Proof.
  intros PF C. apply skips_inert; auto. constructor; [|constructor].
  unfold inert. destruct C as [-> |(_ & ->)]; destruct obj; lia.
Qed.

Lemma skips_comma fl obj : plain_flags fl -> skips fl obj [44].
Proof.
  intros PF. apply skips_inert; auto. constructor; [|constructor]. unfold inert. destruct obj; lia.
Qed.

(** Skipping goes over every value. *)
Lemma skips_value fl obj d : plain_flags fl ->
  (forall s t, value d s t -> skips fl obj s)
  /\ (forall s m, member d s m -> skips fl obj s)
  /\ (forall s ms, object_tail d s ms -> exists u, s = u ++ [125] /\ skips fl obj u)
  /\ (forall s vs, array_tail d s vs -> exists u, s = u ++ [93] /\ skips fl obj u).
Proof.
  intro PF.
  assert (OB : forall u, skips fl obj u -> skips fl obj (123 :: u ++ [125]))
    by (intros u U; exact (skips_brackets fl obj true u PF U)).
  assert (AR : forall u, skips fl obj u -> skips fl obj (91 :: u ++ [93]))
    by (intros u U; exact (skips_brackets fl obj false u PF U)).
  assert (LIT : forall u, forallb (fun c => (97 <=? c) && (c <=? 122)) u = true -> skips fl obj u).
  { intros u F. apply skips_inert; auto. rewrite forallb_forall in F. apply Forall_forall.
    intros x X. apply F in X. unfold inert. destruct obj; lia. }
  pose proof (skips_comma fl obj PF) as CM.
  pose proof (fun w => skips_ws fl obj w PF) as WS.
  apply value_mutind.
  - apply LIT. reflexivity.
  - apply LIT. reflexivity.
  - apply LIT. reflexivity.
  - intros s t ty H. apply skips_inert; auto. eapply number_inert; eauto.
  - intros raw o U. eapply skips_quoted; eauto.
  - intros w W. auto.
  - intros s m u ms _ H1 _ (u' & -> & H2). rewrite app_assoc. apply OB. now apply skips_app.
  - intros w W. auto.
  - intros w s v u vs W _ H1 _ (u' & -> & H2). rewrite !app_assoc. apply AR.
    repeat apply skips_app; auto.
  - intros w1 raw o w2 x w3 s v W1 U W2 C W3 _ H.
    apply skips_app; [auto|]. apply skips_app; [eapply skips_quoted; eauto|].
    apply skips_app; [auto|]. change (x :: w3 ++ s) with ([x] ++ w3 ++ s).
    apply skips_app; [eapply skips_colon; eauto|]. apply skips_app; auto.
  - intros w W. exists w. auto.
  - intros w w' _ W W'. exists (w ++ [44] ++ w'). split; [rewrite <- !app_assoc; reflexivity|].
    repeat apply skips_app; auto.
  - intros w s m u ms W _ H1 _ (u' & -> & H2). exists (w ++ [44] ++ s ++ u').
    split; [rewrite <- !app_assoc; reflexivity|]. repeat apply skips_app; auto.
  - intros w W. exists w. auto.
  - intros w w' _ W W'. exists (w ++ [44] ++ w'). split; [rewrite <- !app_assoc; reflexivity|].
    repeat apply skips_app; auto.
  - intros w w' s v u vs W W' _ H1 _ (u' & -> & H2). exists (w ++ [44] ++ w' ++ s ++ u').
    split; [rewrite <- !app_assoc; reflexivity|]. repeat apply skips_app; auto.
Qed.

(** Skipping an object or an array that was entered. *)
Lemma skip_inner fl (obj : bool) u z r : plain_flags fl -> skips fl obj u ->
  rest r = u ++ (if obj then 125 else 93) :: z ->
  exists r', skipB fl obj 1 r = Some (true, r') /\ rest r' = z
    /\ last r' = (if obj then TObjectEnd else TArrayEnd) /\ err r' = err r.
Proof.
  intros PF U R.
  destruct (U r _ 0%nat R) as (r2 & R2 & L2 & E2 & S2).
  { intro W. inversion W as [|? ? X _]. unfold wsp in X. destruct obj; lia. }
  destruct (skip_close fl obj 0 r2 z PF R2) as (r3 & R3 & L3 & E3 & S3).
  pose proof (osim_trans _ _ _ S2 S3) as SS.
  destruct (skipB fl obj 1 r) as [[b r']|]; cbn in SS; [|tauto].
  destruct SS as (-> & A & B & C). cbn in A, B, C. exists r'. split; [reflexivity|]. split; [congruence|].
  split; [exact B|]. congruence.
Qed.

(** ** Counting depends on the same things *)

Lemma sim_skipB fl obj d a b : plain_flags fl -> sim a b ->
  osim (skip_brackets (S (length (rest a))) fl obj d a) (skip_brackets (S (length (rest b))) fl obj d b).
Proof.
  intros PF S. pose proof S as (E & _). apply sim_skip; auto; [|rewrite E; tauto].
  now apply sim_skip_ws.
Qed.

Definition xsim (p q : option (bool * reader + reader)) : Prop :=
  match p, q with
  | None, None => True
  | Some (inl (x, a)), Some (inl (y, b)) => x = y /\ sim a b
  | Some (inr a), Some (inr b) => sim a b
  | _, _ => False
  end.

Lemma sim_skip_to_content fl c n : plain_flags fl -> c <> CNull -> forall a b, sim a b ->
  xsim (skip_to_content n fl c a) (skip_to_content n fl c b).
Proof.
  intros PF NC. induction n as [|n IH]; intros a b S; [exact I|]. cbn [skip_to_content].
  pose proof (sim_next_token fl c a b PF NC S) as H.
  destruct (next_token fl c a) as [[t a']|], (next_token fl c b) as [[t' b']|]; cbn in H; try tauto; try exact I.
  destruct H as (<- & S'). pose proof S' as (_ & _ & E). rewrite E.
  destruct t; try (destruct (err_ok (err b')); cbn; auto; fail); cbn; auto.
Qed.

Lemma sim_skip_current fl c a b : plain_flags fl -> c <> CNull -> sim a b ->
  osim (skip_current fl c a) (skip_current fl c b).
Proof.
  intros PF NC S. unfold skip_current. pose proof S as (E & L & R). rewrite L, R.
  destruct (negb (err_ok (err b))); [cbn; auto|]. rewrite E.
  destruct (rest b) as [|x s] eqn:RB; [cbn; auto|]. rewrite <- RB.
  assert (SB : forall obj, osim (skip_brackets (Datatypes.S (length (rest b))) fl obj 1 a)
                                (skip_brackets (Datatypes.S (length (rest b))) fl obj 1 b)).
  { intro obj. pose proof (sim_skipB fl obj 1 a b PF S) as SB. now rewrite E, <- RB in SB. }
  destruct (last b); try (split; auto; fail); try exact (SB true); try exact (SB false).
  pose proof (sim_skip_to_content fl c (Datatypes.S (length (rest b))) PF NC a b S) as H.
  destruct (skip_to_content _ fl c a) as [[[x1 a1]|a1]|], (skip_to_content _ fl c b) as [[[x2 b1]|b1]|];
    cbn in H; try tauto; try exact I.
  - exact H.
  - pose proof H as (E1 & L1 & _). rewrite L1.
    pose proof (fun obj => sim_skipB fl obj 1 a1 b1 PF H) as SB1.
    destruct (last b1); try exact I; apply SB1.
Qed.

Definition csim (p q : option (jerr * reader + nat)) : Prop :=
  match p, q with
  | None, None => True
  | Some (inl (x, a)), Some (inl (y, b)) => x = y /\ sim a b
  | Some (inr a), Some (inr b) => a = b
  | _, _ => False
  end.

Lemma sim_count_members fl n : plain_flags fl -> forall k a b, sim a b ->
  csim (count_members n fl a k) (count_members n fl b k).
Proof.
  intros PF. assert (NC : CObject <> CNull) by discriminate.
  induction n as [|n IH]; intros k a b S; [exact I|]. cbn [count_members].
  pose proof (sim_next_token fl CObject a b PF NC S) as H.
  destruct (next_token fl CObject a) as [[t a']|], (next_token fl CObject b) as [[t' b']|]; cbn in H; try tauto; try exact I.
  destruct H as (<- & S'). pose proof S' as (_ & _ & E).
  destruct t; try (rewrite E; destruct (err_ok (err b')); cbn; auto; fail); cbn [csim]; auto.
  pose proof (sim_skip_current fl CObject a' b' PF NC S') as H.
  destruct (skip_current fl CObject a') as [[x a1]|], (skip_current fl CObject b') as [[y b1]|]; cbn in H; try tauto; try exact I.
  destruct H as (_ & H). auto.
Qed.

Lemma sim_count_values fl n : plain_flags fl -> forall k a b, sim a b ->
  csim (count_values n fl a k) (count_values n fl b k).
Proof.
  intros PF. assert (NC : CArray <> CNull) by discriminate.
  induction n as [|n IH]; intros k a b S; [exact I|]. cbn [count_values].
  pose proof (sim_next_token fl CArray a b PF NC S) as H.
  destruct (next_token fl CArray a) as [[t a']|], (next_token fl CArray b) as [[t' b']|]; cbn in H; try tauto; try exact I.
  destruct H as (<- & S'). pose proof S' as (_ & _ & E).
  assert (SK : csim (' (_, r) <- skip_current fl CArray a';; count_values n fl r (Datatypes.S k))
                    (' (_, r) <- skip_current fl CArray b';; count_values n fl r (Datatypes.S k))).
  { pose proof (sim_skip_current fl CArray a' b' PF NC S') as H.
    destruct (skip_current fl CArray a') as [[x a1]|], (skip_current fl CArray b') as [[y b1]|]; cbn in H; try tauto; try exact I.
    destruct H as (_ & H). auto. }
  destruct t; try (rewrite E; destruct (err_ok (err b')); cbn; auto; fail); cbn [csim]; auto.
Qed.
