(** The reader goes through every document of the grammar and delivers its tokens. *)
From Coq Require Import Arith NArith ZArith List Bool Lia ZifyBool ZifyNat ZifyN.
From Verif Require Import Base CodecModel CodecProofs UniModel UniSpec UniProofs UniTop XmlModel XmlSpec XmlText XmlLex.
Import ListNotations.
Local Open Scope N_scope.

Section Tokens.
Variable alloc : nat -> bool.
Variable fl : N.
Hypothesis memory : all_memory alloc.
Hypothesis quiet_fl : quiet fl.

Inductive steps : reader -> list event -> reader -> Prop :=
| S_nil r : steps r [] r
| S_cons r r1 evs r2 : next_token alloc r = Some (true, r1) -> steps r1 evs r2 -> steps r (ev (r_current r1) :: evs) r2.
Lemma S_step : forall r r1 e evs r2, next_token alloc r = Some (true, r1) -> ev (r_current r1) = e -> steps r1 evs r2 -> steps r (e :: evs) r2.
Proof. intros r r1 e evs r2 N <- H. exact (S_cons r r1 evs r2 N H). Qed.
Lemma steps_app : forall r a r1 b r2, steps r a r1 -> steps r1 b r2 -> steps r (a ++ b) r2.
Proof. intros r a r1 b r2 H K. induction H as [|r r1' evs r2' N H IH]; [exact K|]. cbn [app]. eapply S_cons; [exact N|exact (IH K)]. Qed.

(** The reader stands in front of [s]. *)
Definition At (r : reader) (s : list N) (c : context) (d : N) (root : bool) : Prop :=
  cur (r_tk r) = s /\ r_context r = c /\ r_depth r = d /\ r_root r = root /\ r_flags r = fl /\ (64 <= buffer_size r)%nat.
(** In front of markup: outside of the root element after whitespace. *)
Definition Ready (r : reader) (s : list N) (d : N) (root : bool) : Prop :=
  exists w, spaces w /\ cur (r_tk r) = w ++ 60 :: s /\ (w = [] \/ d = 0)
    /\ (r_context r = Xcontent \/ r_context r = Xnone) /\ r_depth r = d /\ r_root r = root /\ r_flags r = fl /\ (64 <= buffer_size r)%nat.

(** A reader in the middle of a call. *)
Definition Mid (r : reader) (d : N) (root : bool) : Prop :=
  r_context r = Xerror /\ r_depth r = d /\ r_root r = root /\ r_flags r = fl /\ (64 <= buffer_size r)%nat.

Lemma ready_markup : forall r s d root, Ready r s d root -> exists r1 l, next_token alloc r = markup alloc r1 (Tk (60 :: s) l) /\ Mid r1 d root.
Proof.
  intros r s d root (w & W & C & Wd & X & D & R & F & B). unfold next_token.
  set (r1 := with_current (with_context r Xerror) (make_error (r_tk r))).
  assert (M1 : Mid r1 d root) by (unfold r1; repeat split; assumption).
  assert (V : visible 60) by (split; [discriminate|unfold space; lia]).
  destruct (r_tk r) as [cs l] eqn:T. cbn [cur] in C. subst cs.
  destruct (skip_spaces w 60 s l W V) as [l' E].
  destruct X as [X|X]; rewrite X.
  - unfold XmlModel.content. destruct w as [|x w].
    + cbn [cur app chr hd]. cbn [N.eqb Pos.eqb]. exists r1, l. split; [reflexivity|exact M1].
    + destruct Wd as [Wd|Wd]; [discriminate|]. assert (Sx : space x) by (inversion W; assumption). cbn [cur app chr hd].
      assert (x =? 0 = false /\ x =? 60 = false) as [-> ->] by (unfold space in Sx; lia).
      replace (negb (r_root r1) || (r_depth r1 =? 0)) with true by (destruct M1 as (_ & -> & _); rewrite Wd; cbn; rewrite orb_true_r; reflexivity).
      change (x :: w ++ 60 :: s) with ((x :: w) ++ 60 :: s). rewrite E. cbn [cur chr hd]. cbn [N.eqb Pos.eqb].
      exists (with_tk r1 (Tk (60 :: s) l')), l'. split; [reflexivity|]. exact M1.
  - rewrite E. cbn [cur chr hd]. cbn [N.eqb Pos.eqb]. unfold XmlModel.content. cbn [cur chr hd]. cbn [N.eqb Pos.eqb]. exists r1, l'. split; [reflexivity|exact M1].
Qed.

Lemma at_ready : forall r s d root, At r (60 :: s) Xcontent d root -> Ready r s d root.
Proof. intros r s d root (A & B & C & D & E & F). exists []. split; [constructor|]. split; [exact A|]. split; [left; reflexivity|]. tauto. Qed.

Lemma markup_comment : forall r x l, exists l', markup alloc r (Tk ([60; 33; 45; 45] ++ x) l) =
  (let (t, tk) := parse_comment (Tk x l') in
   let r := with_current r t in
   if is_error t then Some (true, r)
   else ' (ok, r) <- unescape_current_token alloc r ;; if (ok : bool) then Some (true, with_tk (with_context r Xcontent) tk) else Some (true, r)).
Proof. intros r x l. eexists. reflexivity. Qed.
Lemma markup_pi : forall r x l, exists l', markup alloc r (Tk ([60; 63] ++ x) l) =
  (let (t, tk) := parse_pi (Tk x l') in
   let r := with_current r t in
   if is_error t then Some (true, r)
   else ok <- is_valid_xml_string (t_text t) ;; if (ok : bool) then Some (true, with_tk (with_context r Xcontent) tk) else Some (true, with_current r (with_type t Terror))).
Proof. intros r x l. eexists. reflexivity. Qed.
Lemma markup_cdata : forall r x l, 0 < r_depth r -> exists l', markup alloc r (Tk ([60; 33; 91; 67; 68; 65; 84; 65; 91] ++ x) l) =
  (let (t, tk) := parse_until (Tk x l') Tcdata [93; 93; 62] in
   let r := with_current r t in
   if is_error t then Some (true, r)
   else ' (ok, r) <- process_cdata alloc r ;; if (ok : bool) then Some (true, with_tk (with_context r Xcontent) tk) else Some (true, r)).
Proof.
  intros r x l H. apply N.ltb_lt in H. unfold markup. cbn [advance cur skipn chr hd app]. cbn [N.eqb Pos.eqb starts andb]. cbn [advance skipn cur at_]. rewrite H. eexists. reflexivity.
Qed.

Lemma markup_open : forall r x s l, x <> 0 -> x <> 33 -> x <> 63 -> x <> 47 -> exists l', markup alloc r (Tk (60 :: x :: s) l) =
  (' (t, tk) <- parse_name (Tk (x :: s) l') ;;
    let r := with_current r t in
    if is_error t then Some (true, with_tk r tk)
    else
      let (more, tk) := skip_whitespace tk in
      if (more : bool) then
        let '(r, tk) :=
          if chr (cur tk) =? 62 then (with_depth (with_context r Xcontent) (r_depth r + 1), advance tk 1)
          else if chr (cur tk) =? 47 then (with_tag (with_context r Xinside_tag) (t_text t), tk)
          else (with_context r Xinside_tag, tk) in
        Some (true, with_tk (with_root r) tk)
      else Some (true, r)).
Proof.
  intros r x s l A B C D. unfold markup. cbn [advance cur skipn chr hd]. apply N.eqb_neq in A, B, C, D. rewrite A, B, C, D. eexists. reflexivity.
Qed.
Lemma markup_close : forall r s l, exists l', markup alloc r (Tk (60 :: 47 :: s) l) =
  (' (t, tk) <- parse_name (Tk s l') ;;
    let r := with_current r (with_type t Tclose) in
    let (more, tk) := skip_whitespace tk in
    if (more : bool) then
      if chr (cur tk) =? 62 then
        let tk := advance tk 1 in
        let r := with_context r Xcontent in
        if r_depth r =? 0 then Some (true, r)
        else
          let r := with_depth r (r_depth r - 1) in
          let r := if r_depth r =? 0 then with_context r Xpost_root else r in
          Some (true, with_tk r tk)
      else Some (true, with_current r (make_error tk))
    else Some (true, r)).
Proof. intros r s l. eexists. reflexivity. Qed.

Ltac mid := match goal with H : Mid _ _ _ |- _ => destruct H as (?Hctx & ?Hd & ?Hroot & ?Hfl & ?Hbuf) end.

(** ** Comments, instructions, character data *)
Lemma comment_parse : forall m evs rest, comment true m evs -> forall l, exists t l', evs = [(Tcomment, t)] /\ loose true t t /\ storable t
  /\ m ++ rest = [60; 33; 45; 45] ++ t ++ [45; 45; 62] ++ rest
  /\ exists a n, parse_comment (Tk (t ++ [45; 45; 62] ++ rest) l) = (Token Tcomment t a l n, Tk rest l').
Proof.
  intros m evs rest H l. destruct H as [t C O Hl]. destruct (Hl eq_refl) as [Hl1 Hl2]. unfold parse_comment.
  destruct (parse_until_ok t [45; 45] (62 :: rest) l Tcomment ltac:(discriminate) O) as [l' E].
  exists t. eexists. split; [reflexivity|]. split; [apply chars_loose; assumption|]. split; [exact Hl2|]. split; [rewrite <- !app_assoc; reflexivity|].
  change (t ++ [45; 45; 62] ++ rest) with (t ++ [45; 45] ++ 62 :: rest). rewrite E. cbn [cur chr hd]. cbn [N.eqb Pos.eqb]. unfold advance. cbn [cur skipn at_]. do 2 eexists. reflexivity.
Qed.

Lemma same_mid : forall r r' d root, same r r' -> Mid r d root -> (64 <= buffer_size r')%nat -> Mid r' d root.
Proof. intros r r' d root (A & B & C & D & E & F & _) (M1 & M2 & M3 & M4 & M5) Bf. repeat split; congruence || assumption. Qed.

Lemma step_comment : forall m evs rest r d root, comment true m evs -> (exists s, m ++ rest = 60 :: s /\ Ready r s d root) ->
  exists r', steps r evs r' /\ At r' rest Xcontent d root.
Proof.
  intros m evs rest r d root H (s & Em & R). destruct (ready_markup r s d root R) as (r1 & l & E & M).
  assert (L4 : exists t, m ++ rest = [60; 33; 45; 45] ++ t) by (destruct H as [t]; eexists; rewrite <- app_assoc; reflexivity). destruct L4 as [x0 L4].
  rewrite <- Em, L4 in E. destruct (markup_comment r1 x0 l) as [l4 Emk]. rewrite Emk in E.
  destruct (comment_parse m evs rest H l4) as (t & l' & -> & L & S & Em' & a & n & Ep). rewrite L4 in Em'. apply app_inv_head in Em'. subst x0.
  rewrite Ep in E. cbn [is_error t_type] in E.
  set (r2 := with_current r1 (Token Tcomment t a l4 n)) in *.
  assert (M2 : Mid r2 d root) by exact M. destruct M2 as (X1 & X2 & X3 & X4 & X5).
  destruct (unescape_token alloc r2 fl t memory quiet_fl X4 X5 L S) as (r3 & U & Sm & Ev & B3). rewrite U in E. cbv iota beta in E.
  pose proof (same_mid r2 r3 d root Sm M B3) as (Y1 & Y2 & Y3 & Y4 & Y5).
  eexists. split.
  - replace (Tcomment, t) with (ev (r_current (with_tk (with_context r3 Xcontent) (Tk rest l')))) by exact Ev. eapply S_cons; [exact E|constructor].
  - repeat split; assumption.
Qed.

Lemma pi_parse : forall m evs rest, instruction true m evs -> forall l, exists t l', evs = [(Tpi, t)] /\ is_valid_xml_string t = Some true
  /\ m ++ rest = [60; 63] ++ t ++ [63; 62] ++ rest
  /\ exists a n, parse_pi (Tk (t ++ [63; 62] ++ rest) l) = (Token Tpi t a l n, Tk rest l').
Proof.
  intros m evs rest H l. destruct H as [target w t Hn C W1 W2 O X Hl]. destruct (Hl eq_refl) as [Hl1 Hl2]. unfold parse_pi.
  assert (O' : ~ occurs [63; 62] ((target ++ w ++ t) ++ removelast [63; 62])).
  { cbn [removelast]. intros (a & b & E). destruct (exists_last (l := a ++ [63; 62] ++ b)) as (y & z & Ez); [destruct a; discriminate|].
    destruct b as [|b0 b] using rev_ind.
    - change (a ++ [63; 62] ++ []) with (a ++ ([63] ++ [62])) in E. rewrite (app_assoc a) in E. apply app_inj_tail in E. destruct E as [_ E]. discriminate.
    - clear IHb. rewrite (app_assoc [63; 62]), (app_assoc a) in E. apply app_inj_tail in E. destruct E as [E _]. apply O. exists a, b. exact E. }
  destruct (parse_until_ok (target ++ w ++ t) [63; 62] rest l Tpi ltac:(discriminate) O') as [l' E].
  destruct (name_bytes target Hn) as [N0 Hb]. assert (E1 : match target ++ w ++ t with [] => true | _ => false end = false) by (destruct target; [contradiction|reflexivity]).
  assert (E2 : Nat.leb 3 (length (target ++ w ++ t)) && one_of [120; 88] (nth 0 (target ++ w ++ t) 0) && one_of [109; 77] (nth 1 (target ++ w ++ t) 0) && one_of [108; 76] (nth 2 (target ++ w ++ t) 0) = false).
  { apply not_true_is_false. intros K. rewrite !andb_true_iff in K. destruct K as [[[K0 K1] K2] K3]. apply one_of_in in K1, K2, K3.
    assert (Q : forall c, In c [120; 88; 109; 77; 108; 76] -> ~ space c) by (intros c Hc; unfold space; cbn [In] in Hc; lia).
    assert (G : forall c rest0, w ++ t = c :: rest0 -> space c \/ w = []) by (intros c rest0 Ew; destruct w as [|x w]; [right; reflexivity|left]; cbn in Ew; destruct W2 as [W2|[_ W2]]; [discriminate|]; inversion W2; congruence).
    apply Hl2. destruct target as [|a [|b [|c target]]]; [contradiction| | |].
    - exfalso. destruct (w ++ t) as [|x [|y z]] eqn:Ew; try (cbn in K0; discriminate). cbn [app nth] in K1, K2, K3. destruct (G x _ eq_refl) as [G'|G']; [apply (Q x); [cbn [In] in *; tauto|exact G']|]. subst w. destruct W1 as [->|[W1 _]]; [discriminate|contradiction].
    - exfalso. destruct (w ++ t) as [|x z] eqn:Ew; try (cbn in K0; discriminate). cbn [app nth] in K1, K2, K3. destruct (G x _ eq_refl) as [G'|G']; [apply (Q x); [cbn [In] in *; tauto|exact G']|]. subst w. destruct W1 as [->|[W1 _]]; [discriminate|contradiction].
    - cbn [app nth] in K1, K2, K3. exists (map lower target). cbn [map app]. cbn [In] in K1, K2, K3.
      assert (lower a = 120 /\ lower b = 109 /\ lower c = 108) as (-> & -> & ->); [|reflexivity].
      repeat split; [destruct K1 as [<-|[<-|[]]]|destruct K2 as [<-|[<-|[]]]|destruct K3 as [<-|[<-|[]]]]; reflexivity. }
  exists (target ++ w ++ t), l'. split; [reflexivity|]. split.
  - apply valid_ok; [|exact Hl1]. destruct Hn as (v & vs & En & Hs & Hf). destruct C as (us & Et & Fu).
    assert (Sp : exists ws, encodes utf8_seq ws w /\ Forall xml_char ws).
    { exists w. destruct W2 as [->|[_ W2]]; [split; constructor|]. clear -W2. induction W2 as [|c w Hc W2 [IH1 IH2]]; [split; constructor|].
      split; [change (c :: w) with ([c] ++ w) at 2; constructor; [constructor; unfold space in Hc; lia|exact IH1]|constructor; [unfold space in Hc; unfold xml_char; lia|exact IH2]]. }
    destruct Sp as (ws & Ew & Fw). exists ((v :: vs) ++ ws ++ us). split.
    + assert (A : forall a x b y, encodes utf8_seq a x -> encodes utf8_seq b y -> encodes utf8_seq (a ++ b) (x ++ y)).
      { intros p x q y P1 P2. induction P1 as [|h p' ch us' Sh P1 IH]; [exact P2|]. cbn [app]. rewrite <- app_assoc. constructor; [exact Sh|exact IH]. }
      apply A; [exact En|]. apply A; assumption.
    + apply Forall_app. split; [|apply Forall_app; split; assumption]. constructor; [apply name_char_xml; left; exact Hs|]. eapply Forall_impl; [|exact Hf]. intros c K. apply name_char_xml, K.
  - split; [rewrite <- !app_assoc; reflexivity|]. rewrite E. cbn [is_error t_type t_text]. rewrite E1, E2. do 2 eexists. reflexivity.
Qed.

Lemma step_pi : forall m evs rest r d root, instruction true m evs -> (exists s, m ++ rest = 60 :: s /\ Ready r s d root) ->
  exists r', steps r evs r' /\ At r' rest Xcontent d root.
Proof.
  intros m evs rest r d root H (s & Em & R). destruct (ready_markup r s d root R) as (r1 & l & E & M).
  assert (L4 : exists t, m ++ rest = [60; 63] ++ t) by (destruct H as [t]; eexists; rewrite <- app_assoc; reflexivity). destruct L4 as [x0 L4].
  rewrite <- Em, L4 in E. destruct (markup_pi r1 x0 l) as [l2 Emk]. rewrite Emk in E.
  destruct (pi_parse m evs rest H l2) as (t & l' & -> & V & Em' & a & n & Ep). rewrite L4 in Em'. apply app_inv_head in Em'. subst x0. rewrite Ep in E.
 cbn [is_error t_type t_text] in E. rewrite V in E. cbv iota beta in E.
  mid. eexists. split.
  - replace (Tpi, t) with (ev (r_current (with_tk (with_context (with_current r1 (Token Tpi t a l2 n)) Xcontent) (Tk rest l')))) by reflexivity. eapply S_cons; [exact E|constructor].
  - repeat split; assumption.
Qed.

Lemma step_cdata : forall m evs rest r d root, 0 < d -> cdata m evs -> (exists s, m ++ rest = 60 :: s /\ Ready r s d root) ->
  exists r', steps r evs r' /\ At r' rest Xcontent d root.
Proof.
  intros m evs rest r d root Hd H (s & Em & R). destruct (ready_markup r s d root R) as (r1 & l & E & M).
  destruct H as [t C O]. rewrite <- !app_assoc in Em. rewrite <- Em in E. mid. rewrite <- Hd0 in Hd. destruct (markup_cdata r1 (t ++ [93; 93; 62] ++ rest) l Hd) as [l2 Emk]. rewrite Emk in E.
  destruct (parse_until_ok t [93; 93; 62] rest l2 Tcdata ltac:(discriminate) O) as [l' Eu]. rewrite Eu in E.
 cbn [is_error t_type] in E.
  set (tok := Token Tcdata t (Some (chr ([93; 93; 62] ++ rest))) l2 (len32 t)) in *.
  assert (P : process_cdata alloc (with_current r1 tok) = Some (true, with_current r1 tok)).
  { unfold process_cdata. cbn [r_flags with_current]. rewrite Hfl, (quiet_clear fl quiet_fl). assert (Ef : (if cdata_flag fl then fl else fl) = fl) by (destruct (cdata_flag fl); reflexivity). rewrite Ef.
    rewrite quiet_trims by exact quiet_fl. cbn [fst r_current with_current t_text].
    destruct quiet_fl as (_ & _ & Q3 & _). rewrite Q3. assert (V : is_valid_xml_string t = Some true).
    { apply valid_ok; [exact C|]. intros (x & y & ->). apply O. exists x, (y ++ [93; 93]). rewrite <- !app_assoc. reflexivity. }
    cbn [t_text tok]. rewrite V. destruct t; reflexivity. }
  rewrite P in E. cbv iota beta in E. eexists. split.
  - replace (Tcdata, t) with (ev (r_current (with_tk (with_context (with_current r1 tok) Xcontent) (Tk rest l')))) by reflexivity. eapply S_cons; [exact E|constructor].
  - repeat split; assumption.
Qed.

Lemma step_text : forall raw val rest r d, 0 < d -> raw <> [] -> chardata true raw val -> storable val -> At r (raw ++ 60 :: rest) Xcontent d true ->
  exists r', steps r [(Tcontents, val)] r' /\ At r' (60 :: rest) Xcontent d true.
Proof.
  intros raw val rest r d Hd N0 C S (A1 & A2 & A3 & A4 & A5 & A6). pose proof (chardata_bytes _ _ _ C) as Fb.
  assert (E : next_token alloc r = XmlModel.content alloc (with_current (with_context r Xerror) (make_error (r_tk r))) (r_tk r)) by (unfold next_token; rewrite A2; reflexivity).
  set (r1 := with_current (with_context r Xerror) (make_error (r_tk r))) in *. unfold XmlModel.content in E. rewrite A1 in E.
  destruct raw as [|x raw]; [contradiction|]. inversion Fb as [|? ? [Fx1 Fx2] _]; subst. cbn [app chr hd] in E. rewrite (proj2 (N.eqb_neq x 0) Fx2), (proj2 (N.eqb_neq x 60) Fx1) in E.
  cbn [r_root r_depth r1 with_current with_context] in E. rewrite A4, (proj2 (N.eqb_neq (r_depth r) 0)) in E by lia. cbn [negb orb] in E.
  unfold parse_contents in E. rewrite A1 in E.
  destruct (scan_stop (N.eqb 60) (x :: raw) 60 rest (line (at_ (r_tk r))) (column (at_ (r_tk r)))) as (a & b & Es); [|discriminate|reflexivity|].
  { eapply Forall_impl; [|exact Fb]. intros c [K _]. right. apply N.eqb_neq. congruence. }
  rewrite Es in E. set (tok := Token Tcontents (x :: raw) _ _ _) in E. cbn [is_error t_type tok] in E. set (r2 := with_current r1 tok) in E.
  assert (M2 : Mid r2 (r_depth r) true) by (repeat split; assumption). pose proof M2 as (X1 & X2 & X3 & X4 & X5).
  destruct (unescape_token alloc r2 fl val memory quiet_fl X4 X5 (chardata_loose _ _ C) S) as (r3 & U & Sm & Ev & B3). fold tok r2 in E. rewrite U in E. cbv iota beta in E.
  pose proof (same_mid r2 r3 _ true Sm M2 B3) as (Y1 & Y2 & Y3 & Y4 & Y5).
  assert (Q : (trim_left_flag (r_flags r3) || trim_right_flag (r_flags r3)) = false) by (rewrite Y4; destruct quiet_fl as (-> & -> & _); reflexivity). rewrite Q in E. cbn [andb] in E.
  eexists. split.
  - match type of E with _ = Some (true, ?x) => replace (Tcontents, val) with (ev (r_current x)) by exact Ev end. eapply S_cons; [exact E|constructor].
  - repeat split; assumption.
Qed.

(** ** Tags *)
Definition gt_or_slash (c : N) : Prop := c = 62 \/ c = 47.

Lemma delim_space : forall c, space c -> delim c. Proof. intros c H. unfold space in H. unfold delim. cbn [In]. lia. Qed.
Lemma name_head : forall n, name n -> exists c n', n = c :: n' /\ visible c /\ c <> 33 /\ c <> 63 /\ c <> 47 /\ c <> 62 /\ c <> 60.
Proof.
  intros n H. destruct H as (v & vs & E & Hs & F). inversion E as [|? ? ch us S E' K1 K2]; subst.
  unfold name_start, in_ranges in Hs. rewrite !Exists_cons, !Exists_nil in Hs. cbn [fst snd] in Hs.
  destruct (seq_bytes v ch S) as [[-> L]|Fb].
  - exists v, us. split; [reflexivity|]. unfold visible, space. lia.
  - pose proof (seq_ne v ch S). destruct ch as [|c ch]; [cbn in *; lia|]. inversion Fb; subst. exists c, (ch ++ us). split; [reflexivity|]. unfold visible, space. lia.
Qed.

(** After the name: spaces and a first visible character [c]. *)
Lemma open_name : forall n w c rest r d root, name n -> spaces w -> visible c -> (w = [] -> delim c) -> Ready r (n ++ w ++ c :: rest) d root ->
  exists r1 l', Mid r1 d root /\ ev (r_current r1) = (Topen, n) /\
    next_token alloc r = (let '(r, tk) :=
          if c =? 62 then (with_depth (with_context r1 Xcontent) (r_depth r1 + 1), advance (Tk (c :: rest) l') 1)
          else if c =? 47 then (with_tag (with_context r1 Xinside_tag) n, Tk (c :: rest) l')
          else (with_context r1 Xinside_tag, Tk (c :: rest) l') in
        Some (true, with_tk (with_root r) tk)).
Proof.
  intros n w c rest r d root Hn W V Dc R. destruct (ready_markup r _ d root R) as (r1 & l & E & M). destruct (name_head n Hn) as (x & n' & En & Vx & X1 & X2 & X3 & X4 & X5).
  destruct (markup_open r1 x (n' ++ w ++ c :: rest) l (proj1 Vx) X1 X2 X3) as [l1 Emk]. rewrite app_comm_cons, <- En in Emk. rewrite Emk in E.
  assert (P : exists l2, parse_name (Tk (n ++ w ++ c :: rest) l1) = Some (Token Topen n (Some (chr (w ++ c :: rest))) l1 (len32 n), Tk (w ++ c :: rest) l2)).
  { destruct w as [|y w]; [apply (parse_name_ok n c rest l1 Hn), Dc; reflexivity|]. apply (parse_name_ok n y (w ++ c :: rest) l1 Hn), delim_space. inversion W; assumption. }
  destruct P as [l2 P]. rewrite P in E. cbn [is_error t_type] in E.
  destruct (skip_spaces w c rest l2 W V) as [l' Es]. rewrite Es in E. cbn [cur chr hd t_text] in E.
  exists (with_current r1 (Token Topen n (Some (chr (w ++ c :: rest))) l1 (len32 n))), l'. split; [exact M|]. split; [reflexivity|exact E].
Qed.

Lemma visible_gt : visible 62. Proof. split; [discriminate|unfold space; lia]. Qed.
Lemma visible_slash : visible 47. Proof. split; [discriminate|unfold space; lia]. Qed.

(** An attribute: first its name, then its value. *)
Lemma attr_name_step : forall n w1 w2 q rest r d root, name n -> spaces w1 -> spaces w2 -> q = 34 \/ q = 39 ->
  At r (n ++ w1 ++ 61 :: w2 ++ q :: rest) Xinside_tag d root ->
  exists r1, next_token alloc r = Some (true, r1) /\ ev (r_current r1) = (Tattr_name, n) /\ At r1 (q :: rest) Xattr_name d root.
Proof.
  intros n w1 w2 q rest r d root Hn W1 W2 Hq (A1 & A2 & A3 & A4 & A5 & A6).
  assert (Vq : visible q) by (split; [lia|unfold space; lia]).
  unfold next_token. rewrite A2. unfold inside_tag. destruct (r_tk r) as [cs l] eqn:T. cbn [cur] in A1. subst cs.
  destruct (name_head n Hn) as (x & n0 & En & Vx & X1 & X2 & X3 & X4 & X5).
  assert (Hx : chr (cur (Tk (n ++ w1 ++ 61 :: w2 ++ q :: rest) l)) = x) by (rewrite En; reflexivity). rewrite Hx, (proj2 (N.eqb_neq x 47) X3).
  assert (P : exists l2, parse_name (Tk (n ++ w1 ++ 61 :: w2 ++ q :: rest) l) = Some (Token Topen n (Some (chr (w1 ++ 61 :: w2 ++ q :: rest))) l (len32 n), Tk (w1 ++ 61 :: w2 ++ q :: rest) l2)).
  { destruct w1 as [|y w1].
    - apply (parse_name_ok n 61 _ l Hn). unfold delim. cbn [In]. tauto.
    - apply (parse_name_ok n y _ l Hn), delim_space. inversion W1. assumption. }
  destruct P as [l2 P]. rewrite P. cbn [is_error t_type].
  destruct (skip_spaces w1 61 (w2 ++ q :: rest) l2 W1 ltac:(split; [discriminate|unfold space; lia])) as [l3 Es]. rewrite Es. cbn [cur chr hd]. cbn [N.eqb Pos.eqb]. unfold advance. cbn [cur skipn at_].
  match goal with |- context [skip_whitespace (Tk _ ?l4)] => destruct (skip_spaces w2 q rest l4 W2 Vq) as [l5 Es2] end. rewrite Es2. cbn [cur chr hd].
  replace ((q =? 34) || (q =? 39)) with true by (destruct Hq as [-> | ->]; reflexivity).
  eexists. split; [reflexivity|]. split; [reflexivity|]. repeat split; assumption.
Qed.

Lemma attr_value_step : forall q raw val w c rest r d root, q = 34 \/ q = 39 -> ~ In q raw -> attr_data true raw val -> storable val ->
  spaces w -> visible c -> (w = [] -> c = 62) -> At r (q :: raw ++ q :: w ++ c :: rest) Xattr_name d root ->
  exists r2 l, Mid r2 d root /\ ev (r_current r2) = (Tattr_value, val) /\
    next_token alloc r = (let '(r, tk) :=
            if c =? 62 then (with_depth (with_context r2 Xcontent) (r_depth r2 + 1), advance (Tk (c :: rest) l) 1)
            else if c =? 47 then (with_tag (with_context r2 Xinside_tag) (t_text (r_current r2)), Tk (c :: rest) l)
            else (with_context r2 Xinside_tag, Tk (c :: rest) l) in
          Some (true, with_tk r tk)).
Proof.
  intros q raw val w c rest r d root Hq Iq Da Sv W V Wc (B1 & B2 & B3 & B4 & B5 & B6).
  unfold next_token. rewrite B2. unfold attribute, parse_attribute_value. rewrite B1. cbn [chr hd tl].
  replace ((q =? 34) || (q =? 39)) with true by (destruct Hq as [-> | ->]; reflexivity).
  destruct (scan_stop (N.eqb q) raw q (w ++ c :: rest) (line (at_ (r_tk r))) (column (at_ (r_tk r)))) as (a & b & Es).
  { apply Forall_forall. intros y Hy. right. apply N.eqb_neq. intros ->. exact (Iq Hy). }
  { destruct Hq as [-> | ->]; discriminate. }
  { apply N.eqb_refl. }
  rewrite Es. cbn [is_error t_type].
  match goal with |- context [unescape_current_token alloc ?r2] => destruct (unescape_token alloc r2 fl val memory quiet_fl B5 B6 (attr_loose _ _ Da) Sv) as (r3 & U & Sm & Ev3 & B3'); rewrite U;
      pose proof (same_mid r2 r3 d root Sm ltac:(repeat split; assumption) B3') as M3 end.
  assert (O1 : one_of [32; 9; 13; 10; 62; 0] (chr (w ++ c :: rest)) = true).
  { apply one_of_in. destruct w as [|y w]; cbn [app chr hd In]; [rewrite Wc by reflexivity; tauto|]. assert (Sy : space y) by (inversion W; assumption). unfold space in Sy. lia. }
  cbn [cur]. rewrite O1. match goal with |- context [skip_whitespace (Tk _ ?l)] => destruct (skip_spaces w c rest l W V) as [l2 Es2] end. rewrite Es2. cbn [cur chr hd].
  exists r3, l2. split; [exact M3|]. split; [exact Ev3|]. reflexivity.
Qed.

Lemma attrs_steps : forall as_ evs, attributes true as_ evs -> forall n w1 w2 q raw val w body r d root,
  name n -> spaces w1 -> spaces w2 -> q = 34 \/ q = 39 -> ~ In q raw -> attr_data true raw val -> storable val -> spaces w ->
  At r (n ++ w1 ++ 61 :: w2 ++ q :: raw ++ q :: as_ ++ w ++ 62 :: body) Xinside_tag d root ->
  exists r', steps r ((Tattr_name, n) :: (Tattr_value, val) :: evs) r' /\ At r' body Xcontent (d + 1) root.
Proof.
  intros as_ evs H. induction H as [|v n' u1 u2 q' raw' val' rest evs V Hn' U1 U2 Q' I' D' S' H IH]; intros n w1 w2 q raw val w body r d root Hn W1 W2 Hq Iq Da Sv W A.
  all: destruct (attr_name_step _ _ _ _ _ _ _ _ Hn W1 W2 Hq A) as (r1 & E1 & Ev1 & A1).
  - cbn [app] in A1. destruct (attr_value_step _ _ val _ 62 _ _ _ _ Hq Iq Da Sv W visible_gt ltac:(reflexivity) A1) as (r2 & l & (X1 & X2 & X3 & X4 & X5) & Ev2 & E2).
    cbn [N.eqb Pos.eqb] in E2. eexists. split.
    + eapply S_step; [exact E1|exact Ev1|]. eapply S_step; [exact E2|exact Ev2|constructor].
    + split; [reflexivity|]. split; [reflexivity|]. split; [cbn; rewrite X2; reflexivity|]. repeat split; assumption.
  - destruct V as [V0 V]. destruct (name_head n' Hn') as (x & n0 & En & Vx & Y1 & Y2 & Y3 & Y4 & Y5). rewrite <- !app_assoc in A1. rewrite En in A1. rewrite <- app_comm_cons in A1.
    destruct (attr_value_step _ _ val _ x _ _ _ _ Hq Iq Da Sv V Vx ltac:(intros; contradiction) A1) as (r2 & l & (X1 & X2 & X3 & X4 & X5) & Ev2 & E2).
    rewrite (proj2 (N.eqb_neq x 62) Y4), (proj2 (N.eqb_neq x 47) Y3) in E2. cbn [app] in E2. rewrite app_comm_cons, <- En in E2.
    match type of E2 with _ = Some (true, ?r3) => destruct (IH n' u1 u2 q' raw' val' w body r3 d root Hn' U1 U2 Q' I' D' (S' eq_refl) W) as (r' & St & At') end.
    { split; [cbn; rewrite <- ?app_assoc; reflexivity|]. repeat split; assumption. }
    exists r'. split; [|exact At'].
    eapply S_step; [exact E1|exact Ev1|]. eapply S_step; [exact E2|exact Ev2|exact St].
Qed.

(** ** Elements *)
Definition after (d : N) : context := if d =? 0 then Xpost_root else Xcontent.

Lemma step_close : forall n w rest r d root, name n -> spaces w -> Ready r (47 :: n ++ w ++ 62 :: rest) (d + 1) root ->
  exists r', steps r [(Tclose, n)] r' /\ At r' rest (after d) d root.
Proof.
  intros n w rest r d root Hn W R. destruct (ready_markup r _ _ root R) as (r1 & l & E & M). destruct (markup_close r1 (n ++ w ++ 62 :: rest) l) as [l1 Emk]. rewrite Emk in E.
  assert (P : exists l2, parse_name (Tk (n ++ w ++ 62 :: rest) l1) = Some (Token Topen n (Some (chr (w ++ 62 :: rest))) l1 (len32 n), Tk (w ++ 62 :: rest) l2)).
  { destruct w as [|y w]; [apply (parse_name_ok n 62 rest l1 Hn); unfold delim; cbn [In]; tauto|]. apply (parse_name_ok n y (w ++ 62 :: rest) l1 Hn), delim_space. inversion W; assumption. }
  destruct P as [l2 P]. rewrite P in E. cbv beta iota in E. destruct (skip_spaces w 62 rest l2 W visible_gt) as [l' Es]. rewrite Es in E. cbn [cur chr hd] in E. cbn [N.eqb Pos.eqb] in E.
  mid. cbn [r_depth with_context with_current with_depth] in E. rewrite Hd, (proj2 (N.eqb_neq (d + 1) 0)) in E by lia. rewrite N.add_sub in E. unfold after.
  destruct (N.eqb_spec d 0) as [->|Hz].
  all: cbn [with_depth with_context with_current with_tk r_depth advance cur skipn] in E.
  all: eexists; split; [match type of E with _ = Some (true, ?x) => replace (Tclose, n) with (ev (r_current x)) by reflexivity end; eapply S_cons; [exact E|constructor]|repeat split; assumption].
Qed.

Lemma open_steps : forall n as_ evs w body r d root, name n -> attributes true as_ evs -> spaces w -> Ready r (n ++ as_ ++ w ++ 62 :: body) d root ->
  exists r', steps r ((Topen, n) :: evs) r' /\ At r' body Xcontent (d + 1) true.
Proof.
  intros n as_ evs w body r d root Hn H W R. destruct H as [|v n' u1 u2 q' raw' val' rest evs V Hn' U1 U2 Q' I' D' S' H].
  - destruct (open_name n w 62 body r d root Hn W visible_gt ltac:(intros; unfold delim; cbn [In]; tauto) R) as (r1 & l & M & Ev & E). cbn [N.eqb Pos.eqb] in E. mid.
    eexists. split; [eapply S_step; [exact E|exact Ev|constructor]|]. split; [reflexivity|]. split; [reflexivity|]. split; [cbn; rewrite Hd; reflexivity|]. repeat split; assumption.
  - destruct V as [V0 V]. destruct (name_head n' Hn') as (x & n0 & En & Vx & Y1 & Y2 & Y3 & Y4 & Y5). rewrite <- !app_assoc in R. rewrite En in R. rewrite <- app_comm_cons in R.
    destruct (open_name n v x _ r d root Hn V Vx ltac:(intros; contradiction) R) as (r1 & l & M & Ev & E). mid.
    rewrite (proj2 (N.eqb_neq x 62) Y4), (proj2 (N.eqb_neq x 47) Y3) in E. cbn [app] in E. rewrite app_comm_cons, <- En in E.
    match type of E with _ = Some (true, ?r3) => destruct (attrs_steps rest evs H n' u1 u2 q' raw' val' w body r3 d true Hn' U1 U2 Q' I' D' (S' eq_refl) W) as (r' & St & At') end.
    { split; [cbn; rewrite <- ?app_assoc; reflexivity|]. repeat split; assumption. }
    exists r'. split; [|exact At']. eapply S_step; [exact E|exact Ev|exact St].
Qed.

Lemma empty_steps : forall n w body r d root, name n -> spaces w -> Ready r (n ++ w ++ 47 :: 62 :: body) d root ->
  exists r', steps r [(Topen, n); (Tclose, n)] r' /\ At r' body (after d) d true.
Proof.
  intros n w body r d root Hn W R.
  destruct (open_name n w 47 (62 :: body) r d root Hn W visible_slash ltac:(intros; unfold delim; cbn [In]; tauto) R) as (r1 & l & M & Ev & E). cbn [N.eqb Pos.eqb] in E. mid.
  match type of E with _ = Some (true, ?r2) => assert (E2 : exists r3, next_token alloc r2 = Some (true, r3) /\ ev (r_current r3) = (Tclose, n) /\ At r3 body (after d) d true) end.
  { unfold next_token. cbn [r_context with_tk with_root with_tag with_context r_tk]. unfold inside_tag. cbn [cur chr hd advance skipn]. cbn [N.eqb Pos.eqb].
    eexists. split; [reflexivity|]. split; [reflexivity|]. split; [reflexivity|]. cbn [r_context r_depth with_tk with_root with_tag with_context with_current]. rewrite Hd. split; [reflexivity|]. repeat split; assumption. }
  destruct E2 as (r3 & E2 & Ev2 & A). exists r3. split; [|exact A]. eapply S_step; [exact E|exact Ev|]. eapply S_step; [exact E2|exact Ev2|constructor].
Qed.

Scheme element_ind2 := Minimality for element Sort Prop with content_ind2 := Minimality for content Sort Prop.
Combined Scheme element_content_ind from element_ind2, content_ind2.

Lemma element_head : forall lim m evs, element lim m evs -> exists s, m = 60 :: s. Proof. intros lim m evs H. destruct H; eexists; reflexivity. Qed.

Lemma attrs_nil : forall lim evs, attributes lim [] evs -> evs = [].
Proof. intros lim evs H. remember [] as x eqn:E in H. destruct H as [|w n w1 w2 q raw val rest evs [W _]]; [reflexivity|]. apply app_eq_nil in E. destruct E as [E _]. contradiction. Qed.
Lemma element_steps :
  (forall m evs, element true m evs -> forall rest r d root, (exists s, m ++ rest = 60 :: s /\ Ready r s d root) ->
     exists r', steps r evs r' /\ At r' rest (after d) d true)
  /\ (forall m evs, content true m evs -> forall rest r d, 0 < d -> At r (m ++ 60 :: rest) Xcontent d true ->
     exists r', steps r evs r' /\ At r' (60 :: rest) Xcontent d true).
Proof.
  apply (element_content_ind true
    (fun m evs => forall rest r d root, (exists s, m ++ rest = 60 :: s /\ Ready r s d root) -> exists r', steps r evs r' /\ At r' rest (after d) d true)
    (fun m evs => forall rest r d, 0 < d -> At r (m ++ 60 :: rest) Xcontent d true -> exists r', steps r evs r' /\ At r' (60 :: rest) Xcontent d true)).
  - intros n as_ evs w Hn Ha W Hl rest r d root (s & Em & R). specialize (Hl eq_refl). subst as_. apply attrs_nil in Ha. subst evs. cbn [app] in Em. rewrite <- !app_assoc in Em. injection Em as <-. apply (empty_steps n w rest r d root Hn W R).
  - intros n as_ evs w body bevs w' Hn Ha W Hb IH W' rest r d root (s & Em & R). cbn [app] in Em. rewrite <- !app_assoc in Em. cbn [app] in Em. injection Em as <-. rewrite <- ?app_assoc in R. cbn [app] in R. rewrite <- ?app_assoc in R. cbn [app] in R.
    destruct (open_steps n as_ evs w _ r d root Hn Ha W R) as (r1 & S1 & A1).
    destruct (IH _ r1 (d + 1) ltac:(lia) A1) as (r2 & S2 & A2). apply at_ready in A2.
    destruct (step_close n w' rest r2 d true Hn W' A2) as (r3 & S3 & A3). exists r3. split; [|exact A3].
    change ((Topen, n) :: evs ++ bevs ++ [(Tclose, n)]) with (((Topen, n) :: evs) ++ bevs ++ [(Tclose, n)]).
    apply (steps_app r _ r1); [exact S1|]. apply (steps_app r1 _ r2); [exact S2|exact S3].
  - intros rest r d Hd A. exists r. split; [constructor|exact A].
  - intros raw val rest0 evs N0 C Hs Hr Hc IH rest r d Hd A. rewrite <- app_assoc in A.
    assert (E : exists x, rest0 ++ 60 :: rest = 60 :: x) by (destruct Hr as [->|[b ->]]; eexists; reflexivity). destruct E as [x E]. rewrite E in A.
    destruct (step_text raw val x r d Hd N0 C (Hs eq_refl) A) as (r1 & S1 & A1). rewrite <- E in A1. destruct (IH rest r1 d Hd A1) as (r2 & S2 & A2). exists r2. split; [|exact A2].
    apply (steps_app r [(Tcontents, val)] r1); assumption.
  - intros m mevs rest0 evs He IHe Hc IHc rest r d Hd A. rewrite <- app_assoc in A. destruct (element_head _ _ _ He) as [x Ex].
    destruct (IHe (rest0 ++ 60 :: rest) r d true) as (r1 & S1 & A1). { exists (x ++ rest0 ++ 60 :: rest). split; [rewrite Ex; reflexivity|]. apply at_ready. rewrite Ex in A. exact A. }
    unfold after in A1. rewrite (proj2 (N.eqb_neq d 0)) in A1 by lia. destruct (IHc rest r1 d Hd A1) as (r2 & S2 & A2). exists r2. split; [apply (steps_app r _ r1); assumption|exact A2].
  - intros m mevs rest0 evs He Hc IHc rest r d Hd A. rewrite <- app_assoc in A. assert (Ex : exists x, m = 60 :: x) by (destruct He; eexists; reflexivity). destruct Ex as [x Ex].
    destruct (step_comment m mevs (rest0 ++ 60 :: rest) r d true He) as (r1 & S1 & A1). { exists (x ++ rest0 ++ 60 :: rest). split; [rewrite Ex; reflexivity|]. apply at_ready. rewrite Ex in A. exact A. }
    destruct (IHc rest r1 d Hd A1) as (r2 & S2 & A2). exists r2. split; [apply (steps_app r _ r1); assumption|exact A2].
  - intros m mevs rest0 evs He Hc IHc rest r d Hd A. rewrite <- app_assoc in A. assert (Ex : exists x, m = 60 :: x) by (destruct He; eexists; reflexivity). destruct Ex as [x Ex].
    destruct (step_pi m mevs (rest0 ++ 60 :: rest) r d true He) as (r1 & S1 & A1). { exists (x ++ rest0 ++ 60 :: rest). split; [rewrite Ex; reflexivity|]. apply at_ready. rewrite Ex in A. exact A. }
    destruct (IHc rest r1 d Hd A1) as (r2 & S2 & A2). exists r2. split; [apply (steps_app r _ r1); assumption|exact A2].
  - intros m mevs rest0 evs He Hc IHc rest r d Hd A. rewrite <- app_assoc in A. assert (Ex : exists x, m = 60 :: x) by (destruct He; eexists; reflexivity). destruct Ex as [x Ex].
    destruct (step_cdata m mevs (rest0 ++ 60 :: rest) r d true Hd He) as (r1 & S1 & A1). { exists (x ++ rest0 ++ 60 :: rest). split; [rewrite Ex; reflexivity|]. apply at_ready. rewrite Ex in A. exact A. }
    destruct (IHc rest r1 d Hd A1) as (r2 & S2 & A2). exists r2. split; [apply (steps_app r _ r1); assumption|exact A2].
Qed.

(** ** In front of the root element and behind it *)
Definition Before (r : reader) (s : list N) : Prop :=
  exists w, spaces w /\ cur (r_tk r) = w ++ s /\ (r_context r = Xcontent \/ r_context r = Xnone) /\ r_depth r = 0 /\ r_root r = false /\ r_flags r = fl /\ (64 <= buffer_size r)%nat.
Lemma before_ready : forall r s, Before r (60 :: s) -> Ready r s 0 false.
Proof. intros r s (w & W & C & X & D & R & F & B). exists w. split; [exact W|]. split; [exact C|]. split; [right; reflexivity|]. tauto. Qed.
Lemma at_before : forall r s, At r s Xcontent 0 false -> Before r s.
Proof. intros r s (A & B & C & D & E & F). exists []. split; [constructor|]. split; [exact A|]. tauto. Qed.

Lemma misc_before : forall a evs, misc true a evs -> forall s r, Before r (a ++ 60 :: s) -> exists r', steps r evs r' /\ Before r' (60 :: s).
Proof.
  intros a evs H. induction H as [|c rest evs Sc H IH|m mevs rest evs Hm H IH|m mevs rest evs Hm H IH]; intros s r B.
  - exists r. split; [constructor|exact B].
  - destruct B as (w & W & C & B). destruct (IH s r) as (r' & St & B'); [|exists r'; split; assumption]. exists (w ++ [c]). split; [apply Forall_app; split; [exact W|constructor; [exact Sc|constructor]]|]. split; [rewrite C, <- app_assoc; reflexivity|exact B].
  - assert (Ex : exists x, m = 60 :: x) by (destruct Hm; eexists; reflexivity). destruct Ex as [x Ex]. rewrite <- app_assoc in B.
    destruct (step_comment m mevs (rest ++ 60 :: s) r 0 false Hm) as (r1 & S1 & A1). { exists (x ++ rest ++ 60 :: s). split; [rewrite Ex; reflexivity|]. apply before_ready. rewrite Ex in B. exact B. }
    apply at_before in A1. destruct (IH s r1 A1) as (r2 & S2 & B2). exists r2. split; [apply (steps_app r _ r1); assumption|exact B2].
  - assert (Ex : exists x, m = 60 :: x) by (destruct Hm; eexists; reflexivity). destruct Ex as [x Ex]. rewrite <- app_assoc in B.
    destruct (step_pi m mevs (rest ++ 60 :: s) r 0 false Hm) as (r1 & S1 & A1). { exists (x ++ rest ++ 60 :: s). split; [rewrite Ex; reflexivity|]. apply before_ready. rewrite Ex in B. exact B. }
    apply at_before in A1. destruct (IH s r1 A1) as (r2 & S2 & B2). exists r2. split; [apply (steps_app r _ r1); assumption|exact B2].
Qed.

Lemma post_comment : forall m evs w rest r, comment true m evs -> spaces w -> At r (w ++ m ++ rest) Xpost_root 0 true -> exists r', steps r evs r' /\ At r' rest Xpost_root 0 true.
Proof.
  intros m evs w rest r H W (A1 & A2 & A3 & A4 & A5 & A6).
  assert (L4 : exists t, m ++ rest = 60 :: 33 :: 45 :: 45 :: t) by (destruct H as [t]; eexists; rewrite <- app_assoc; reflexivity). destruct L4 as [x0 L4]. rewrite L4 in A1.
  assert (E : next_token alloc r = next_token alloc r) by reflexivity. unfold next_token in E at 2. rewrite A2 in E. unfold post_root in E. destruct (r_tk r) as [cs l] eqn:T. cbn [cur] in A1. subst cs.
  destruct (skip_spaces w 60 (33 :: 45 :: 45 :: x0) l W ltac:(split; [discriminate|unfold space; lia])) as [l' Es]. rewrite Es in E. cbn [cur starts] in E. cbn [N.eqb Pos.eqb andb] in E. unfold advance in E. cbn [cur skipn at_] in E.
  match type of E with context [parse_comment (Tk _ ?l4)] => destruct (comment_parse m evs rest H l4) as (t & l2 & -> & L & S & Em' & a & n & Ep) end.
  rewrite L4 in Em'. cbn [app] in Em'. injection Em' as ->. change (t ++ 45 :: 45 :: 62 :: rest) with (t ++ [45; 45; 62] ++ rest) in E. rewrite Ep in E. cbn [is_error t_type] in E.
  match type of E with context [unescape_current_token alloc ?r2] => destruct (unescape_token alloc r2 fl t memory quiet_fl A5 A6 L S) as (r3 & U & (Q1 & Q2 & Q3 & Q4 & Q5 & Q6 & _) & Ev3 & B3'); rewrite U in E end.
  cbv beta iota in E. eexists. split; [eapply S_step; [exact E|exact Ev3|constructor]|].
  split; [reflexivity|]. split; [exact Q3|]. split; [etransitivity; [exact Q4|exact A3]|]. split; [etransitivity; [exact Q6|exact A4]|]. split; [etransitivity; [exact Q2|exact A5]|exact B3'].
Qed.

Lemma post_pi : forall m evs w rest r, instruction true m evs -> spaces w -> At r (w ++ m ++ rest) Xpost_root 0 true -> exists r', steps r evs r' /\ At r' rest Xpost_root 0 true.
Proof.
  intros m evs w rest r H W (A1 & A2 & A3 & A4 & A5 & A6).
  assert (L4 : exists t, m ++ rest = 60 :: 63 :: t) by (destruct H as [t]; eexists; rewrite <- app_assoc; reflexivity). destruct L4 as [x0 L4]. rewrite L4 in A1.
  assert (E : next_token alloc r = next_token alloc r) by reflexivity. unfold next_token in E at 2. rewrite A2 in E. unfold post_root in E. destruct (r_tk r) as [cs l] eqn:T. cbn [cur] in A1. subst cs.
  destruct (skip_spaces w 60 (63 :: x0) l W ltac:(split; [discriminate|unfold space; lia])) as [l' Es]. rewrite Es in E. cbn [cur starts] in E. cbn [N.eqb Pos.eqb andb] in E. unfold advance in E. cbn [cur skipn at_] in E.
  match type of E with context [parse_pi (Tk _ ?l4)] => destruct (pi_parse m evs rest H l4) as (t & l2 & -> & V & Em' & a & n & Ep) end.
  rewrite L4 in Em'. cbn [app] in Em'. injection Em' as ->. change (t ++ 63 :: 62 :: rest) with (t ++ [63; 62] ++ rest) in E. rewrite Ep in E. cbn [is_error t_type t_text] in E. rewrite V in E.
  cbv beta iota in E. match type of E with _ = Some (true, ?x) => exists x; split; [replace (Tpi, t) with (ev (r_current x)) by reflexivity; eapply (S_cons r); [exact E|constructor]|] end.
  repeat split; assumption.
Qed.

Lemma misc_behind : forall b evs, misc true b evs -> forall w r, spaces w -> At r (w ++ b) Xpost_root 0 true ->
  exists r' w', steps r evs r' /\ spaces w' /\ At r' w' Xpost_root 0 true.
Proof.
  intros b evs H. induction H as [|c rest evs Sc H IH|m mevs rest evs Hm H IH|m mevs rest evs Hm H IH]; intros w r W A.
  - exists r, w. rewrite app_nil_r in A. split; [constructor|]. split; assumption.
  - destruct (IH (w ++ [c]) r) as (r' & w' & K); [apply Forall_app; split; [exact W|constructor; [exact Sc|constructor]]|rewrite <- app_assoc; exact A|]. exists r', w'. exact K.
  - destruct (post_comment m mevs w rest r Hm W A) as (r1 & S1 & A1). destruct (IH [] r1 ltac:(constructor) A1) as (r2 & w2 & S2 & K). exists r2, w2. split; [apply (steps_app r _ r1); assumption|exact K].
  - destruct (post_pi m mevs w rest r Hm W A) as (r1 & S1 & A1). destruct (IH [] r1 ltac:(constructor) A1) as (r2 & w2 & S2 & K). exists r2, w2. split; [apply (steps_app r _ r1); assumption|exact K].
Qed.

Lemma end_step : forall w r, spaces w -> At r w Xpost_root 0 true -> exists r', next_token alloc r = Some (true, r') /\ ev (r_current r') = (Teof, []) /\ r_context r' = Xeof.
Proof.
  intros w r W (A1 & A2 & A3 & A4 & A5 & A6). unfold next_token. rewrite A2. unfold post_root. destruct (r_tk r) as [cs l] eqn:T. cbn [cur] in A1. subst cs.
  destruct (skip_end w l W) as [l' ->]. eexists. split; [reflexivity|]. split; reflexivity.
Qed.
Lemma over : forall r, r_context r = Xeof -> exists r', next_token alloc r = Some (false, r').
Proof. intros r H. unfold next_token. rewrite H. eexists. reflexivity. Qed.

Lemma document_steps : forall doc evs r, document true doc evs -> Before r doc -> exists r' r'', steps r (evs ++ [(Teof, [])]) r' /\ next_token alloc r' = Some (false, r'').
Proof.
  intros doc evs r H B. destruct H as [a aevs e eevs b bevs Ha He Hb]. destruct (element_head _ _ _ He) as [x Ex]. rewrite Ex in B. cbn [app] in B.
  destruct (misc_before a aevs Ha (x ++ b) r B) as (r1 & S1 & B1). apply before_ready in B1.
  destruct (proj1 element_steps e eevs He b r1 0 false) as (r2 & S2 & A2). { exists (x ++ b). split; [rewrite Ex; reflexivity|exact B1]. }
  destruct (misc_behind b bevs Hb [] r2 ltac:(constructor) A2) as (r3 & w & S3 & W & A3). destruct (end_step w r3 W A3) as (r4 & E4 & Ev4 & C4). destruct (over r4 C4) as [r5 E5].
  exists r4, r5. split; [|exact E5]. rewrite <- !app_assoc. apply (steps_app r _ r1); [exact S1|]. apply (steps_app r1 _ r2); [exact S2|]. apply (steps_app r2 _ r3); [exact S3|]. eapply S_step; [exact E4|exact Ev4|constructor].
Qed.

Lemma steps_read : forall r evs r', steps r evs r' -> forall r'' fuel, next_token alloc r' = Some (false, r'') -> (length evs < fuel)%nat ->
  exists ts, read_all fuel alloc r = Some (ts, r'') /\ map ev ts = evs.
Proof.
  intros r evs r' H. induction H as [r|r r1 evs r2 N H IH]; intros r'' [|fuel] E L; cbn [length] in L; try lia; cbn [read_all].
  - rewrite E. exists []. split; reflexivity.
  - rewrite N. destruct (IH r'' fuel E ltac:(lia)) as (ts & R & M). rewrite R. eexists. split; [reflexivity|]. cbn [map]. rewrite M. reflexivity.
Qed.

Theorem document_read : forall doc evs, document true doc evs -> exists fuel ts r', read_all fuel alloc (make_reader doc fl) = Some (ts, r') /\ map ev ts = evs ++ [(Teof, [])].
Proof.
  intros doc evs H. destruct (document_steps doc evs (make_reader doc fl) H) as (r' & r'' & St & E).
  - exists []. split; [constructor|]. split; [reflexivity|]. split; [right; reflexivity|]. repeat split. unfold buffer_size. cbn. lia.
  - destruct (steps_read _ _ _ St r'' (S (length (evs ++ [(Teof, [])]))) E ltac:(lia)) as (ts & R & M). do 3 eexists. split; [exact R|exact M].
Qed.
End Tokens.
