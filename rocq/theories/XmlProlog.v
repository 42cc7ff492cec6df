(** The declaration and the document type in front of a document. *)
From Coq Require Import Arith NArith ZArith List Bool Lia ZifyBool ZifyNat ZifyN.
From Verif Require Import Base UniModel UniSpec UniProofs UniTop XmlModel XmlSpec XmlText XmlLex XmlTokens.
Import ListNotations.
Local Open Scope N_scope.

Lemma list_eqb_refl : forall s, list_eqb s s = true.
Proof. intros s. unfold list_eqb. rewrite Nat.eqb_refl. apply starts_begins. exists []. rewrite app_nil_r. reflexivity. Qed.
Lemma space_char : forall w, spaces1 w -> exists c s, w = c :: s /\ space c /\ spaces s.
Proof. intros [|c s] [H F]; [contradiction|]. inversion F. exists c, s. tauto. Qed.
Lemma name_ascii : forall s, s <> [] -> Forall (fun c => c < 128 /\ name_start c) s -> name s.
Proof.
  intros [|c s] H F; [contradiction|]. inversion F as [|? ? [F1 F2] Fs]; subst. exists c, s. split; [|split; [exact F2|eapply Forall_impl; [|exact Fs]; intros a [_ A]; left; exact A]].
  clear H F2. revert c F F1 Fs. induction s as [|d s IH]; intros c F F1 Fs.
  - change [c] with ([c] ++ []). constructor; [constructor; exact F1|constructor].
  - change (c :: d :: s) with ([c] ++ (d :: s)) at 2. constructor; [constructor; exact F1|]. inversion Fs as [|? ? [G1 G2] Gs]; subst. apply IH; assumption.
Qed.
Lemma lower_start : forall c, 97 <= c <= 122 -> c < 128 /\ name_start c.
Proof. intros c H. split; [lia|]. unfold name_start, in_ranges. right. right. right. left. cbn. lia. Qed.
Ltac lower_name := apply name_ascii; [discriminate|repeat (constructor; [apply lower_start; lia|]); constructor].
Lemma version_name : name version_text. Proof. unfold version_text. lower_name. Qed.
Lemma encoding_name_text : name encoding_text. Proof. unfold encoding_text. lower_name. Qed.
Lemma standalone_name : name standalone_text. Proof. unfold standalone_text. lower_name. Qed.

Lemma visible_name : forall n, name n -> exists c s, n = c :: s /\ visible c.
Proof. intros n H. destruct (name_bytes n H) as [N0 F]. destruct n as [|c s]; [contradiction|]. inversion F as [|? ? [D Z] _]; subst. exists c, s. split; [reflexivity|]. split; [exact Z|]. unfold space, delim in *. cbn [In] in D. intuition. Qed.

(** A name behind spaces, up to '='. *)
Lemma name_before : forall w nm w1 r l, spaces w -> name nm -> spaces w1 -> exists m l1 l2, skip_whitespace (Tk (w ++ nm ++ w1 ++ [61] ++ r) l) = (true, Tk (nm ++ w1 ++ [61] ++ r) l1)
  /\ parse_name (Tk (nm ++ w1 ++ [61] ++ r) l1) = Some (m, Tk (w1 ++ [61] ++ r) l2) /\ t_type m = Topen /\ t_text m = nm.
Proof.
  intros w nm w1 r l W Nm W1. destruct (visible_name nm Nm) as (c & s & En & Vc). destruct (skip_spaces w c (s ++ w1 ++ [61] ++ r) l W Vc) as [l1 E1]. rewrite En. change (((c :: s) ++ w1 ++ [61] ++ r)) with (c :: s ++ w1 ++ [61] ++ r). rewrite E1.
  destruct w1 as [|d w1].
  - destruct (parse_name_ok nm 61 r l1 Nm ltac:(unfold delim; cbn; tauto)) as [l2 E2]. rewrite En in E2. do 3 eexists. split; [reflexivity|]. split; [exact E2|]. split; reflexivity.
  - inversion W1 as [|? ? Sd _]; subst. assert (Dd : delim d) by (unfold space, delim in *; cbn [In]; intuition). destruct (parse_name_ok _ d (w1 ++ [61] ++ r) l1 Nm Dd) as [l2 E2]. do 3 eexists. split; [reflexivity|]. split; [exact E2|]. split; reflexivity.
Qed.
Lemma value_ok : forall w1 w2 q v r l, spaces w1 -> spaces w2 -> q = 34 \/ q = 39 -> v <> [] -> ~ In q v -> exists l', pseudo_value (Tk (w1 ++ [61] ++ w2 ++ [q] ++ v ++ [q] ++ r) l) = Some (v, Tk r l').
Proof.
  intros w1 w2 q v r l W1 W2 Hq V Iq. unfold pseudo_value. cbn [app]. destruct (skip_spaces w1 61 (w2 ++ q :: v ++ q :: r) l W1 ltac:(split; [discriminate|unfold space; lia])) as [l1 E1]. rewrite E1. cbn [cur chr hd]. cbn [N.eqb Pos.eqb andb].
  unfold advance. cbn [cur skipn at_]. match goal with |- context [skip_whitespace (Tk _ ?l2)] => destruct (skip_spaces w2 q (v ++ q :: r) l2 W2 ltac:(destruct Hq as [-> | ->]; split; try discriminate; unfold space; lia)) as [l3 E2] end. rewrite E2.
  unfold parse_attribute_value. cbn [cur chr hd tl at_]. replace ((q =? 34) || (q =? 39)) with true by (destruct Hq as [-> | ->]; reflexivity).
  destruct (scan_stop (N.eqb q) v q r (line l3) (column l3)) as (a & b & Es).
  { apply Forall_forall. intros y Hy. right. apply N.eqb_neq. intros ->. exact (Iq Hy). }
  { destruct Hq as [-> | ->]; discriminate. }
  { apply N.eqb_refl. }
  rewrite Es. cbn [t_type t_text]. destruct v as [|x v]; [contradiction|]. eexists. reflexivity.
Qed.

Lemma space_delim : forall c, space c -> In c [32; 9; 13; 10]. Proof. intros c H. unfold space in H. cbn [In]. intuition. Qed.
Lemma next_name_pseudo : forall nm v s r l, name nm -> v <> [] -> ~ In 34 v -> ~ In 39 v -> pseudo nm v s ->
  exists m tk l', next_name (Tk (s ++ r) l) = Some (Some (m, tk)) /\ t_type m = Topen /\ t_text m = nm /\ pseudo_value tk = Some (v, Tk r l').
Proof.
  intros nm v s r l Nm V I1 I2 H. destruct H as [w w1 w2 q W W1 W2 Hq]. unfold next_name. destruct (space_char w W) as (c & w' & Ew & Sc & _). cbn [cur].
  replace (chr ((w ++ nm ++ w1 ++ [61] ++ w2 ++ [q] ++ v ++ [q]) ++ r)) with c by (rewrite Ew; reflexivity). rewrite (proj2 (one_of_in _ c)) by (apply space_delim in Sc; cbn [In] in *; tauto).
  replace ((w ++ nm ++ w1 ++ [61] ++ w2 ++ [q] ++ v ++ [q]) ++ r) with (w ++ nm ++ w1 ++ [61] ++ (w2 ++ [q] ++ v ++ [q] ++ r)) by (rewrite <- !app_assoc; reflexivity).
  destruct (name_before w nm w1 (w2 ++ [q] ++ v ++ [q] ++ r) l (proj2 W) Nm W1) as (m & l1 & l2 & E1 & E2 & T1 & T2). rewrite E1, E2.
  destruct (value_ok w1 w2 q v r l2 W1 W2 Hq V) as [l3 E3]; [destruct Hq as [-> | ->]; assumption|]. exists m. eexists. exists l3. split; [reflexivity|]. split; [exact T1|]. split; [exact T2|exact E3].
Qed.
Lemma next_name_end : forall w r l, spaces w -> exists m l', next_name (Tk (w ++ [63; 62] ++ r) l) = Some (Some (m, Tk ([63; 62] ++ r) l')) /\ t_type m = Terror.
Proof.
  intros w r l W. unfold next_name. cbn [cur].
  assert (C : one_of [32; 9; 13; 10; 63; 0] (chr (w ++ [63; 62] ++ r)) = true) by (destruct w as [|c w]; [reflexivity|]; inversion W as [|? ? Sc _]; subst; apply one_of_in; apply space_delim in Sc; cbn [chr hd app In] in *; tauto).
  rewrite C. destruct (skip_spaces w 63 (62 :: r) l W ltac:(split; [discriminate|unfold space; lia])) as [l1 E1]. cbn [app]. rewrite E1.
  do 2 eexists. split; [reflexivity|reflexivity].
Qed.

Definition finished (out : prolog) (v e : list N) (sd : option bool) : Prop :=
  p_version out = v /\ p_encoding out = e /\ p_standalone_specified out = (match sd with Some _ => true | None => false end) /\ (sd <> None -> p_standalone out = true) /\ p_present out = true.
Lemma finish_ok : forall v e ss st w r l, v <> [] -> spaces w -> exists l',
  (let (more, tk) := skip_whitespace (Tk (w ++ [63; 62] ++ r) l) in
    if negb more || is_nil v then (false, Prolog v e ss st true false, tk)
    else if chr (cur tk) =? 63 then
      let tk := advance tk 1 in
      if chr (cur tk) =? 62 then (true, Prolog v e ss st true false, advance tk 1) else (false, Prolog v e ss st true false, tk)
    else (false, Prolog v e ss st true false, tk)) = (true, Prolog v e ss st true false, Tk r l').
Proof.
  intros v e ss st w r l V W. destruct (skip_spaces w 63 (62 :: r) l W ltac:(split; [discriminate|unfold space; lia])) as [l1 E1]. cbn [app]. rewrite E1. destruct v; [contradiction|]. cbn [negb is_nil orb cur chr hd advance skipn at_]. eexists. reflexivity.
Qed.
Lemma tail_ok : forall v e s3 sd w r l, v <> [] -> spaces w -> sd = None /\ s3 = [] \/ (exists b, sd = Some b /\ pseudo standalone_text (yes_no b) s3) -> sd <> Some false ->
  exists m tk l', next_name (Tk (s3 ++ w ++ [63; 62] ++ r) l) = Some (Some (m, tk)) /\ (t_type m = Terror \/ t_text m = standalone_text)
    /\ prolog_tail (Prolog v e false true true false) m tk = (true, Prolog v e (match sd with Some _ => true | None => false end) true true false, Tk r l').
Proof.
  intros v e s3 sd w r l V W [[-> ->]|(b & -> & P)] Sf.
  - destruct (next_name_end w r l W) as (m & l1 & E & T). cbn [app] in *. destruct (finish_ok v e false true [] r l1 V ltac:(constructor)) as [l2 F]. exists m. eexists. exists l2. split; [exact E|]. split; [left; exact T|].
    unfold prolog_tail, is_open. rewrite T. cbn [andb]. exact F.
  - destruct b; [|contradiction]. destruct (next_name_pseudo standalone_text [121; 101; 115] s3 (w ++ [63; 62] ++ r) l standalone_name) as (m & tk & l1 & E & T1 & T2 & E2); try exact P; try discriminate; try (cbn [In]; intuition discriminate).
    destruct (finish_ok v e true true w r l1 V W) as [l2 F]. exists m, tk, l2. split; [exact E|]. split; [right; exact T2|]. unfold prolog_tail, is_open. rewrite T1, T2, list_eqb_refl. cbn [andb]. rewrite E2. rewrite list_eqb_refl. exact F.
Qed.
Lemma no_quotes : forall s, Forall (fun c => letter c \/ dec_digit c \/ In c [95; 46; 58; 45]) s -> ~ In 34 s /\ ~ In 39 s.
Proof. intros s F. rewrite Forall_forall in F. split; intros H; specialize (F _ H); unfold letter, dec_digit in F; cbn [In] in F; intuition lia. Qed.

Lemma declaration_ok : forall s v e sd r l, declaration true s v e sd -> exists l', prolog_declaration (advance (Tk (s ++ r) l) 2) = Some (true, Prolog v e (match sd with Some _ => true | None => false end) true true false, Tk r l').
Proof.
  intros s v e sd r l H. destruct H as [v s1 e s2 sd s3 w P1 V P2 P3 W Sf]. destruct V as [V Vc]. destruct (no_quotes v Vc) as [I1 I2].
  unfold prolog_declaration. cbn [app advance cur skipn starts]. rewrite !N.eqb_refl. cbn [andb]. unfold advance. cbn [cur skipn at_].
  destruct P1 as [w0 w1 w2 q W0 W1 W2 Hq]. destruct (space_char w0 W0) as (c & w0' & Ew & Sc & _).
  match goal with |- context [chr ?x] => replace (chr x) with c by (rewrite Ew; reflexivity) end.
  rewrite (proj2 (one_of_in _ c)) by (apply space_delim in Sc; cbn [In] in *; tauto).
  set (rest := s2 ++ s3 ++ w ++ [63; 62] ++ r).
  match goal with |- context [skip_whitespace (Tk ?x ?l0)] => replace x with (w0 ++ version_text ++ w1 ++ [61] ++ (w2 ++ [q] ++ v ++ [q] ++ rest)) by (unfold rest, version_text; cbn [app]; repeat (rewrite <- app_assoc; cbn [app]); reflexivity); set (l0' := l0) end.
  destruct (name_before w0 version_text w1 (w2 ++ [q] ++ v ++ [q] ++ rest) l0' (proj2 W0) version_name W1) as (m & l1 & l2 & E1 & E2 & T1 & T2). rewrite E1, E2. unfold is_open at 1. rewrite T1, T2, list_eqb_refl. cbn [andb].
  destruct (value_ok w1 w2 q v rest l2 W1 W2 Hq V) as [l3 E3]; [destruct Hq as [-> | ->]; assumption|]. rewrite E3. unfold prolog_encoding. destruct P2 as [[-> ->]|[Ne P2]].
  - unfold rest. cbn [app]. destruct (tail_ok v [] s3 sd w r l3 V W P3 (Sf eq_refl)) as (m2 & tk & l4 & E4 & T4 & F). cbn [app] in E4. rewrite E4.
    replace (is_open m2 && list_eqb (t_text m2) encoding_text) with false by (destruct T4 as [T4|T4]; [unfold is_open; rewrite T4; reflexivity|rewrite T4; symmetry; apply andb_false_r]). rewrite F. exists l4. reflexivity.
  - assert (Ve : e <> [] /\ ~ In 34 e /\ ~ In 39 e). { destruct Ne as (x & y & -> & Lx & Fy). split; [discriminate|]. apply no_quotes. constructor; [left; exact Lx|]. eapply Forall_impl; [|exact Fy]. cbn [In]. tauto. }
    destruct Ve as (Ve & J1 & J2). destruct (next_name_pseudo encoding_text e s2 (s3 ++ w ++ [63; 62] ++ r) l3 encoding_name_text Ve J1 J2 P2) as (m2 & tk & l4 & E4 & T3 & T4 & E5). unfold rest. rewrite E4. unfold is_open at 1. rewrite T3, T4, list_eqb_refl. cbn [andb]. rewrite E5. cbn [p_version p_encoding p_standalone_specified p_standalone p_present p_doctype].
    destruct (tail_ok v e s3 sd w r l4 V W P3 (Sf eq_refl)) as (m3 & tk3 & l5 & E6 & T6 & F). rewrite E6, F. exists l5. reflexivity.
Qed.

(** ** Comments and spaces *)
Lemma skip_remarks : forall (P : option (option (bool * bool * tokenizer)) -> Prop) back c s, visible c ->
  (forall w l fuel, spaces w -> (length (c :: s) < fuel)%nat -> P (skip_doctype fuel back (Tk (w ++ c :: s) l))) ->
  forall a, remarks a -> forall w l fuel, spaces w -> (length (a ++ c :: s) < fuel)%nat -> P (skip_doctype fuel back (Tk (w ++ a ++ c :: s) l)).
Proof.
  intros P back c s V K a H. induction H as [|x a Sx H IH|m evs a Hm H IH]; intros w l fuel W L.
  - apply K; assumption.
  - change ((x :: a) ++ c :: s) with ([x] ++ a ++ c :: s). rewrite app_assoc. apply IH; [apply Forall_app; split; [exact W|constructor; [exact Sx|constructor]]|cbn [app length] in L; lia].
  - destruct fuel as [|fuel]; [lia|]. rewrite <- app_assoc.
    assert (Ex : exists t, m = 60 :: 33 :: 45 :: 45 :: t) by (destruct Hm; eexists; reflexivity). destruct Ex as [x0 Ex]. rewrite <- app_assoc in L.
    cbn [skip_doctype]. destruct (skip_spaces w 60 (33 :: 45 :: 45 :: x0 ++ a ++ c :: s) l W ltac:(split; [discriminate|unfold space; lia])) as [l1 E1]. rewrite Ex. cbn [app] in *. rewrite E1. cbn [cur chr hd nth]. cbn [N.eqb Pos.eqb]. unfold advance. cbn [cur skipn starts at_]. cbn [N.eqb Pos.eqb andb skipn].
    match goal with |- context [parse_comment (Tk _ ?l4)] => destruct (comment_parse m evs (a ++ c :: s) Hm l4) as (t & l2 & _ & _ & _ & Em & y & n & Ep) end.
    rewrite Ex in Em. cbn [app] in Em. injection Em as Em. rewrite Em. change (t ++ 45 :: 45 :: 62 :: a ++ c :: s) with (t ++ [45; 45; 62] ++ a ++ c :: s). rewrite Ep. cbn [is_error t_type].
    apply (IH [] l2 fuel ltac:(constructor)). rewrite Ex in L. cbn [app length] in L. rewrite app_length in L. lia.
Qed.

(** ** Document types *)
Definition skipped (x : option tokenizer) : option (list N) := option_map cur x.
Lemma doctype_loc : forall fuel d s l l', skipped (doctype_loop fuel d (Tk s l)) = skipped (doctype_loop fuel d (Tk s l')).
Proof.
  induction fuel as [|fuel IH]; intros d s l l'; [reflexivity|]. cbn [doctype_loop cur at_]. destruct (cspn [10; 60; 62] s) as [p r]. destruct r as [|c r]; [reflexivity|].
  match goal with |- context [if ?b =? 0 then _ else _] => destruct (b =? 0) end; [reflexivity|]. apply IH.
Qed.
Lemma doctype_stop : forall fuel d c s l, In c [10; 60; 62] -> skipped (doctype_loop (S fuel) d (Tk (c :: s) l)) =
  (let d' := if c =? 62 then d - 1 else if c =? 60 then d + 1 else d in if d' =? 0 then Some s else skipped (doctype_loop fuel d' (Tk s l))).
Proof.
  intros fuel d c s l Hc. cbn [doctype_loop cur cspn]. rewrite (proj2 (one_of_in [10; 60; 62] c) Hc). cbv zeta. match goal with |- context [if ?b =? 0 then _ else _] => destruct (b =? 0) end; [reflexivity|]. apply doctype_loc.
Qed.
Lemma doctype_pass : forall fuel d c s l, ~ In c [10; 60; 62] -> In 62 s -> skipped (doctype_loop (S fuel) d (Tk (c :: s) l)) = skipped (doctype_loop (S fuel) d (Tk s l)).
Proof.
  intros fuel d c s l Hc Hs. cbn [doctype_loop cur cspn at_]. assert (O : one_of [10; 60; 62] c = false) by (destruct (one_of [10; 60; 62] c) eqn:E; [exfalso; apply Hc, one_of_in, E|reflexivity]). rewrite O.
  destruct (cspn [10; 60; 62] s) as [p r] eqn:E. destruct r as [|x r].
  - exfalso. clear -E Hs. revert p E Hs. induction s as [|y s IH]; intros p E Hs; [destruct Hs|]. cbn [cspn] in E. destruct (one_of [10; 60; 62] y) eqn:O; [discriminate|]. destruct (cspn [10; 60; 62] s) as [p' r'] eqn:E'. destruct Hs as [->|Hs]; [discriminate|]. assert (r' = []) as -> by congruence. exact (IH p' eq_refl Hs).
  - match goal with |- context [if ?b =? 0 then _ else _] => destruct (b =? 0) end; [reflexivity|]. apply doctype_loc.
Qed.
Lemma doctype_balanced : forall t, balanced t -> forall s d l fuel, In 62 s -> 0 < d -> (length (t ++ s) < fuel)%nat ->
  exists fuel', (length s < fuel')%nat /\ skipped (doctype_loop fuel d (Tk (t ++ s) l)) = skipped (doctype_loop fuel' d (Tk s l)).
Proof.
  intros t H. induction H as [|c t C1 C2 H IH|a b Ha IHa Hb IHb]; intros s d l fuel Is D L.
  - exists fuel. split; [exact L|reflexivity].
  - destruct fuel as [|fuel]; [lia|]. cbn [app length] in *. destruct (N.eq_dec c 10) as [->|C3].
    + rewrite doctype_stop by (left; reflexivity). cbv zeta. cbn [N.eqb Pos.eqb]. rewrite (proj2 (N.eqb_neq d 0)) by lia. apply IH; [exact Is|exact D|lia].
    + rewrite doctype_pass; [apply IH; [exact Is|exact D|lia]|cbn [In]; intuition|apply in_or_app; right; exact Is].
  - destruct fuel as [|fuel]; [lia|]. cbn [app length] in *. rewrite doctype_stop by (cbn [In]; tauto). cbv zeta. cbn [N.eqb Pos.eqb]. rewrite (proj2 (N.eqb_neq (d + 1) 0)) by lia. rewrite <- app_assoc in *. cbn [app] in *.
    destruct (IHa (62 :: b ++ s) (d + 1) l fuel) as (f1 & L1 & E1); [left; reflexivity|lia|lia|]. rewrite E1. destruct f1 as [|f1]; [lia|]. rewrite doctype_stop by (cbn [In]; tauto). cbv zeta. cbn [N.eqb Pos.eqb]. replace (d + 1 - 1) with d by lia. rewrite (proj2 (N.eqb_neq d 0)) by lia.
    apply IHb; [exact Is|exact D|cbn [length] in L1; lia].
Qed.
Lemma doctype_ok : forall (t r : list N) l fuel, balanced t -> (length (t ++ 62%N :: r) < fuel)%nat -> exists l', doctype_loop fuel 1 (Tk (t ++ 62 :: r) l) = Some (Tk r l').
Proof.
  intros t r l fuel B L. destruct (doctype_balanced t B (62 :: r) 1 l fuel ltac:(left; reflexivity) ltac:(lia) L) as (f & Lf & E). destruct f as [|f]; [lia|]. rewrite doctype_stop in E by (cbn [In]; tauto). cbv zeta in E. cbn [N.eqb Pos.eqb] in E. change (1 - 1 =? 0) with true in E. cbv iota in E.
  destruct (doctype_loop fuel 1 (Tk (t ++ 62 :: r) l)) as [[c x]|]; [|discriminate]. cbn in E. exists x. congruence.
Qed.

(** ** What read_prolog does behind the declaration *)
Lemma skip_document : forall doc evs, document true doc evs -> forall tk fuel, cur tk = doc -> (length doc < fuel)%nat -> skip_doctype fuel tk tk = Some (Some (true, false, tk)).
Proof.
  intros doc evs H tk fuel C L. destruct H as [a aevs e eevs b bevs Ha He Hb].
  assert (K : exists a' c s, remarks a' /\ c <> 33 /\ a ++ e ++ b = a' ++ 60 :: c :: s).
  { clear L C. assert (Ke : exists c s, c <> 33 /\ e ++ b = 60 :: c :: s).
    { assert (Kn : forall n x, name n -> exists c s, c <> 33 /\ n ++ x = c :: s).
      { intros n x (v & vs & E & V & _). inversion E as [|v0 vs0 ch us Sv Es Ev]; subst. destruct ch as [|c ch]; [pose proof (seq_ne _ _ Sv); cbn in *; lia|]. exists c. eexists. split; [|reflexivity]. intros ->. destruct (seq_bytes _ _ Sv) as [[Ec _]|F]; [|inversion F; lia].
        assert (v = 33) as -> by congruence. unfold name_start, in_ranges in V. repeat (inversion V as [? ? Q|? ? V2]; subst; [cbn [fst snd] in Q; lia|]; clear V; rename V2 into V). inversion V. }
      destruct He as [n as_ evs w Nm _ _ _|n as_ evs w body bevs0 w' Nm _ _ _ _].
      - destruct (Kn n (as_ ++ w ++ [47; 62] ++ b) Nm) as (c & s & C & E). exists c, s. split; [exact C|]. rewrite <- E. cbn [app]. repeat (rewrite <- app_assoc; cbn [app]). reflexivity.
      - destruct (Kn n (as_ ++ w ++ [62] ++ body ++ [60; 47] ++ n ++ w' ++ [62] ++ b) Nm) as (c & s & C & E). exists c, s. split; [exact C|]. rewrite <- E. cbn [app]. repeat (rewrite <- app_assoc; cbn [app]). reflexivity. }
    destruct Ke as (c & s & C & Ee). rewrite Ee. clear Ee He Hb. revert Ha. induction 1 as [|x a evs Sx H (a' & c' & s' & R & C' & E)|m mevs a evs Hm H (a' & c' & s' & R & C' & E)|m mevs a evs Hm H _].
    - exists [], c, s. split; [constructor|]. split; [exact C|reflexivity].
    - exists (x :: a'), c', s'. split; [constructor; assumption|]. split; [exact C'|]. cbn [app]. rewrite E. reflexivity.
    - exists (m ++ a'), c', s'. split; [econstructor; eassumption|]. split; [exact C'|]. rewrite <- !app_assoc, E. reflexivity.
    - destruct Hm as [t w t0]. exists [], 63. eexists. split; [constructor|]. split; [discriminate|]. cbn [app]. reflexivity. }
  destruct K as (a' & c & s & R & Nc & E). destruct tk as [cs l]. cbn [cur] in C. subst cs. rewrite E in *.
  apply (skip_remarks (fun x => x = Some (Some (true, false, Tk (a' ++ 60 :: c :: s) l))) (Tk (a' ++ 60 :: c :: s) l) 60 (c :: s) ltac:(split; [discriminate|unfold space; lia])) with (a := a') (w := []); [|exact R|constructor|exact L].
  intros w l0 f W Lf. destruct f as [|f]; [lia|]. cbn [skip_doctype]. destruct (skip_spaces w 60 (c :: s) l0 W ltac:(split; [discriminate|unfold space; lia])) as [l1 E1]. rewrite E1. cbn [cur chr hd nth]. cbn [N.eqb Pos.eqb]. rewrite (proj2 (N.eqb_neq c 33) Nc). reflexivity.
Qed.
Lemma skip_type : forall a dt (r : list N) back l fuel, remarks a -> doctype dt -> (length (a ++ dt ++ r) < fuel)%nat -> exists l', skip_doctype fuel back (Tk (a ++ dt ++ r) l) = Some (Some (true, true, Tk r l')).
Proof.
  intros a dt r back l fuel Ra D L. destruct D as [t B]. replace (([60; 33; 68; 79; 67; 84; 89; 80; 69] ++ t ++ [62]) ++ r) with (60 :: [33; 68; 79; 67; 84; 89; 80; 69] ++ t ++ 62 :: r) in * by (rewrite <- !app_assoc; reflexivity).
  apply (skip_remarks (fun x => exists l', x = Some (Some (true, true, Tk r l'))) back 60 ([33; 68; 79; 67; 84; 89; 80; 69] ++ t ++ 62 :: r) ltac:(split; [discriminate|unfold space; lia])) with (a := a) (w := []); [|exact Ra|constructor|exact L].
  intros w l0 f W Lf. destruct f as [|f]; [lia|]. cbn [skip_doctype]. destruct (skip_spaces w 60 ([33; 68; 79; 67; 84; 89; 80; 69] ++ t ++ 62 :: r) l0 W ltac:(split; [discriminate|unfold space; lia])) as [l1 E1]. rewrite E1. cbn [app cur chr hd nth]. cbn [N.eqb Pos.eqb]. unfold advance. cbn [cur skipn starts at_]. cbn [N.eqb Pos.eqb andb skipn].
  match goal with |- context [doctype_loop ?f (1) (Tk ?x ?l2)] => destruct (doctype_ok t r l2 f B) as [l3 E3]; [cbn [length]; lia|] end. rewrite E3. exists l3. reflexivity.
Qed.

(** ** A declaration, a document type, a document *)
Lemma after_prolog : forall alloc fl doc evs l, all_memory alloc -> quiet fl -> document true doc evs -> forall text, exists fuel ts r', read_all fuel alloc (with_tk (make_reader text fl) (Tk doc l)) = Some (ts, r') /\ map ev ts = evs ++ [(Teof, [])].
Proof.
  intros alloc fl doc evs l M Q H text. destruct (document_steps alloc fl M Q doc evs (with_tk (make_reader text fl) (Tk doc l)) H) as (r' & r'' & St & E).
  - exists []. split; [constructor|]. split; [reflexivity|]. split; [right; reflexivity|]. repeat split. unfold buffer_size. cbn. lia.
  - destruct (steps_read alloc _ _ _ St r'' (S (length (evs ++ [(Teof, [])]))) E ltac:(lia)) as (ts & R & M'). do 3 eexists. split; [exact R|exact M'].
Qed.
Lemma prolog_read : forall s v e sd doc evs fl, declaration true s v e sd -> document true doc evs ->
  exists l, read_prolog (make_reader (s ++ doc) fl) = Some (true, Prolog v e (match sd with Some _ => true | None => false end) true true false, with_tk (make_reader (s ++ doc) fl) (Tk doc l)).
Proof.
  intros s v e sd doc evs fl D H. unfold read_prolog. cbn [make_reader r_tk]. assert (St : starts [60; 63] (s ++ doc) = true) by (destruct D; reflexivity). cbn [cur]. rewrite St.
  destruct (declaration_ok s v e sd doc (Loc 0 0 0) D) as [l E]. rewrite E. rewrite (skip_document doc evs H (Tk doc l)) by (cbn [cur]; lia || reflexivity). exists l. reflexivity.
Qed.
Lemma prolog_type_read : forall s v e sd a dt doc fl, declaration true s v e sd -> remarks a -> doctype dt ->
  exists l, read_prolog (make_reader (s ++ a ++ dt ++ doc) fl) = Some (true, Prolog v e (match sd with Some _ => true | None => false end) true true true, with_tk (make_reader (s ++ a ++ dt ++ doc) fl) (Tk doc l)).
Proof.
  intros s v e sd a dt doc fl D Ra Dt. unfold read_prolog. cbn [make_reader r_tk]. assert (St : starts [60; 63] (s ++ a ++ dt ++ doc) = true) by (destruct D; reflexivity). cbn [cur]. rewrite St.
  destruct (declaration_ok s v e sd (a ++ dt ++ doc) (Loc 0 0 0) D) as [l E]. rewrite E. destruct (skip_type a dt doc (Tk (a ++ dt ++ doc) l) l (S (length (a ++ dt ++ doc))) Ra Dt ltac:(lia)) as [l' E']. cbn [cur]. rewrite E'. exists l'. reflexivity.
Qed.
Lemma no_prolog_type_read : forall a dt doc fl, remarks a -> doctype dt ->
  exists l, read_prolog (make_reader (a ++ dt ++ doc) fl) = Some (true, Prolog [] [] false false false true, with_tk (make_reader (a ++ dt ++ doc) fl) (Tk doc l)).
Proof.
  intros a dt doc fl Ra Dt. unfold read_prolog. cbn [make_reader r_tk].
  assert (St : starts [60; 63] (a ++ dt ++ doc) = false).
  { destruct Ra as [|c s Sc _|m evs s Hm _]; [destruct Dt; reflexivity| |destruct Hm; reflexivity]. unfold space in Sc. cbn [app starts]. destruct (N.eqb_spec 60 c) as [<-|_]; [lia|reflexivity]. }
  cbn [cur]. rewrite St. destruct (skip_type a dt doc (Tk (a ++ dt ++ doc) (Loc 0 0 0)) (Loc 0 0 0) (S (length (a ++ dt ++ doc))) Ra Dt ltac:(lia)) as [l' E']. cbn [cur]. rewrite E'. exists l'. reflexivity.
Qed.
Lemma no_prolog_read : forall doc evs fl, document true doc evs -> ~ begins [60; 63] doc -> read_prolog (make_reader doc fl) = Some (true, Prolog [] [] false false false false, make_reader doc fl).
Proof.
  intros doc evs fl H B. unfold read_prolog. cbn [make_reader r_tk cur]. rewrite (proj2 (not_starts _ _) B). rewrite (skip_document doc evs H (Tk doc (Loc 0 0 0))) by (cbn [cur]; lia || reflexivity). reflexivity.
Qed.
