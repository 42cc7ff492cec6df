(** Texts without the octet 0 stay without it, so that the names in them are the names of files. *)
From Coq Require Import Arith NArith List Bool Lia.
From Verif Require Import Base MgModel MgSpec MgWord MgText MgLex MgMerge MgWalk MgRun.
Import ListNotations.
Local Open Scope N_scope.

Definition no_zero (t : text) : Prop := ~ In 0 t.
Lemma no_zero_app a b : no_zero (a ++ b) <-> no_zero a /\ no_zero b.
Proof. unfold no_zero. rewrite in_app_iff. tauto. Qed.
Lemma firstn_in (A : Type) (x : A) : forall n l, In x (firstn n l) -> In x l.
Proof. induction n as [|n IH]; intros [|y l]; cbn [firstn]; try intros []; [left; assumption|right; apply IH; assumption]. Qed.
Lemma skipn_in (A : Type) (x : A) : forall n l, In x (skipn n l) -> In x l.
Proof. induction n as [|n IH]; intros [|y l]; cbn [skipn]; auto. intros I. right. apply IH. exact I. Qed.
Lemma no_zero_firstn n l : no_zero l -> no_zero (firstn n l). Proof. intros H I. exact (H (firstn_in _ _ _ _ I)). Qed.
Lemma no_zero_skipn n l : no_zero l -> no_zero (skipn n l). Proof. intros H I. exact (H (skipn_in _ _ _ _ I)). Qed.
Lemma replace_zero def : no_zero (d_value def) -> forall fuel before rest t, replace_loop fuel def before rest = Some t -> no_zero before -> no_zero rest -> no_zero t.
Proof.
  intros V. induction fuel as [|fuel IH]; intros before rest t E B R; [discriminate E|]. cbn [replace_loop] in E. destruct (search (d_name def) rest) as [k|] eqn:Sr; [|injection E as <-; apply no_zero_app; split; assumption].
  pose proof (search_some _ _ _ Sr) as (_ & Er & _). pose proof R as R'. rewrite Er in R'. apply no_zero_app in R' as [R1 R']. apply no_zero_app in R' as [R2 R3].
  destruct (_ || _); apply IH in E; try assumption; repeat (apply no_zero_app; split; try assumption).
Qed.
Lemma process_zero : forall defs t t', Forall (fun x => no_zero (d_value x)) defs -> process_definitions t defs = Some t' -> no_zero t -> no_zero t'.
Proof.
  induction defs as [|x defs IH]; intros t t' F E Z; [injection E as <-; exact Z|]. inversion F; subst. rewrite process_cons in E. destruct (replace_one t x) as [t1|] eqn:E1; [|discriminate E]. apply (IH t1 t' H2 E). apply (replace_zero x H1 _ _ _ _ E1); [intros []|exact Z].
Qed.
Lemma erase_zero w : forall fuel before rest t, erase_loop fuel w before rest = Some t -> no_zero before -> no_zero rest -> no_zero t.
Proof.
  induction fuel as [|fuel IH]; intros before rest t E B R; [discriminate E|]. cbn [erase_loop] in E. destruct (search w rest) as [k|] eqn:Sr; [|injection E as <-; apply no_zero_app; split; assumption].
  pose proof (search_some _ _ _ Sr) as (_ & Er & _). pose proof R as R'. rewrite Er in R'. apply no_zero_app in R' as [R1 R']. apply no_zero_app in R' as [R2 R3].
  destruct (_ || _); apply IH in E; try assumption; try (repeat (apply no_zero_app; split; try assumption)).
  - unfold back_to_line. destruct (index 10 _); [apply no_zero_firstn; apply no_zero_app; split; assumption|intros []].
  - unfold behind_line. destruct (index 10 _); [apply no_zero_skipn; exact R3|intros []].
Qed.
Lemma erase_all_zero : forall defs t t', erase_undef_statements t defs = Some t' -> no_zero t -> no_zero t'.
Proof.
  induction defs as [|x defs IH]; intros t t' E Z; [injection E as <-; exact Z|]. rewrite erase_cons in E. destruct (erase_one t x) as [t1|] eqn:E1; [|discriminate E]. apply (IH t1 t' E). apply (erase_zero _ _ _ _ _ E1); [intros []|exact Z].
Qed.
Lemma joined_zero : forall ls, Forall no_zero ls <-> no_zero (joined ls).
Proof.
  induction ls as [|l ls IH]; [split; [intros _ []|constructor]|]. destruct ls as [|l2 ls].
  - cbn [joined]. split; [apply Forall_inv|intros H; constructor; [exact H|constructor]].
  - change (joined (l :: l2 :: ls)) with (l ++ 10 :: joined (l2 :: ls)). rewrite no_zero_app. split.
    + intros F. inversion F; subst. split; [assumption|]. intros [Y|Y]; [discriminate Y|]. apply IH in H2. exact (H2 Y).
    + intros [H1 H2]. constructor; [exact H1|]. apply IH. intros I. apply H2. right. exact I.
Qed.
Lemma indented_zero pre : no_zero pre -> forall l, no_zero l -> no_zero (indented pre l).
Proof.
  intros P. induction l as [|c l IH]; intros Z; [exact Z|]. cbn [indented]. destruct (c =? 13); [|apply no_zero_app; split; assumption]. intros [Y|Y]; [apply Z; left; exact Y|]. apply IH; [intros I; apply Z; right; exact I|exact Y].
Qed.
Lemma indent_zero data i t : indent_range data i = Some t -> no_zero data -> no_zero t.
Proof.
  destruct (lines_of data) as (l & ls & -> & L & F). rewrite indent_moves by assumption. intros E Z. injection E as <-. apply joined_zero in Z. apply (proj1 (joined_zero (l :: map (indented (indent_text i)) ls))). inversion Z; subst. constructor; [assumption|].
  assert (P : no_zero (indent_text i)). { destruct (indent_text_ok i) as [k [->| ->]]; intros I; apply repeat_spec in I; discriminate I. }
  clear - P H2. induction H2 as [|x ls Zx Zs IH]; [constructor|]. cbn [map]. constructor; [apply indented_zero; assumption|exact IH].
Qed.

Section Zero.
Variable t0 : text.
Hypothesis Z0 : no_zero t0.
Let d := t0 ++ [0].
Lemma zero_last p c : nth_error d p = Some c -> c <> 0 -> (p + 1 < length d)%nat.
Proof using.
  intros E N. assert (L : (p < length d)%nat) by (apply nth_error_Some; congruence). unfold d in *. rewrite app_length in *. cbn [length] in *. destruct (Nat.eq_dec p (length t0)) as [->|Np]; [|lia]. rewrite nth_error_app2 in E by lia. rewrite Nat.sub_diag in E. injection E as <-. congruence.
Qed.
Lemma slice_zero a b : (b < length d)%nat -> no_zero (slice d a b).
Proof using Z0.
  intros L. unfold d in *. rewrite app_length in L. cbn [length] in L. unfold slice. destruct (Nat.le_gt_cases (length t0) a) as [La|La]; [replace (b - a)%nat with 0%nat by lia; intros []|].
  rewrite skipn_app. rewrite firstn_app. replace (b - a - length (skipn a t0))%nat with 0%nat by (rewrite skipn_length; lia). cbn [firstn]. rewrite app_nil_r. apply no_zero_firstn, no_zero_skipn. exact Z0.
Qed.
Lemma word_end_in : forall l n, word_end l = Some (S n) -> exists c, nth_error l n = Some c /\ c <> 0.
Proof using.
  clear. induction l as [|x l IH]; intros n E; [discriminate E|]. cbn [word_end] in E. destruct (isalnum x || (x =? 95)) eqn:W; [|discriminate E]. destruct (word_end l) as [m|] eqn:Em; [|discriminate E]. injection E as ->. destruct n as [|n]; [exists x; split; [reflexivity|intros ->; discriminate W]|]. cbn [nth_error]. apply IH. reflexivity.
Qed.
Lemma string_end_in : forall l prev n, string_end prev l = Some n -> nth_error l n = Some 34.
Proof using.
  clear. induction l as [|x l IH]; intros prev n E; [discriminate E|]. cbn [string_end] in E. destruct ((x =? 34) && negb (prev =? 92)) eqn:W; [injection E as <-; apply andb_true_iff in W as [W _]; apply N.eqb_eq in W; subst; reflexivity|].
  destruct (string_end x l) as [m|] eqn:Em; [|discriminate E]. injection E as <-. cbn [nth_error]. apply (IH _ _ Em).
Qed.
Lemma nth_at p n : nth_error (skipn p d) n = nth_error d (p + n).
Proof using. clear. revert p. generalize d. intros l. induction l as [|x l IH]; intros [|p]; cbn [skipn Nat.add]; try reflexivity; [destruct n; reflexivity|exact (IH p)]. Qed.
(** Tokens end inside of the text. *)
Lemma token_inside : forall fuel sp p t q, token_loop fuel d sp p = Some (t, q) -> t_type t <> tok_eof -> (q < length d)%nat /\ (t_str t + t_len t < length d)%nat /\ (t_str t < length d)%nat.
Proof using.
  clear Z0. induction fuel as [|fuel IH]; intros sp p t q E Ty; [discriminate E|]. cbn [token_loop] in E. destruct (distance sp (length d)) as [len|]; [|discriminate E].
  destruct (nth_error d p) as [c|] eqn:Ec; [|discriminate E]. assert (Eof : Some (Token tok_eof len (length d), sp) = Some (t, q) -> False) by (intros H; injection H as <- _; apply Ty; reflexivity).
  destruct (c =? 47).
  { destruct (nth_error d (p + 1)) as [c1|]; [|discriminate E]. destruct (c1 =? 42). { destruct (comment_end _) as [[n|]|]; [exact (IH _ _ _ _ E Ty)|exfalso; exact (Eof E)|discriminate E]. }
    destruct (c1 =? 47); [|exact (IH _ _ _ _ E Ty)]. destruct (index 10 _); [exact (IH _ _ _ _ E Ty)|exfalso; exact (Eof E)]. }
  destruct (N.eqb_spec c 35) as [->|_]. { injection E as <- <-. cbn [t_str t_len]. pose proof (zero_last _ _ Ec ltac:(discriminate)). lia. }
  destruct (N.eqb_spec c 0) as [_|N0]; [exfalso; exact (Eof E)|]. destruct (c =? 34).
  { destruct (string_end 34 (skipn (p + 1) d)) as [n|] eqn:Es; [|exfalso; exact (Eof E)]. apply string_end_in in Es. rewrite nth_at in Es. pose proof (zero_last _ _ Es ltac:(discriminate)) as L. unfold distance, assert_ in E. destruct (_ && _) in E; [|discriminate E]. injection E as <- <-. cbn [t_str t_len]. lia. }
  destruct (word_end (skipn p d)) as [n|] eqn:Ew; [|discriminate E]. assert (Lq : ((if (n =? 0)%nat then p + 1 else p + n) < length d)%nat /\ (p <= if (n =? 0)%nat then p + 1 else p + n)%nat).
  { destruct n as [|n]; cbn [Nat.eqb]; [split; [exact (zero_last _ _ Ec N0)|lia]|]. apply word_end_in in Ew as (x & Ex & Nx). rewrite nth_at in Ex. pose proof (zero_last _ _ Ex Nx). split; lia. }
  unfold distance, assert_ in E. destruct (_ && _) in E; [|discriminate E]. injection E as <- <-. cbn [t_str t_len]. lia.
Qed.
Lemma next_inside p t q : next_token d p = Some (t, q) -> t_type t <> tok_eof -> (q < length d)%nat /\ (t_str t + t_len t < length d)%nat /\ (t_str t < length d)%nat.
Proof using. clear Z0. unfold next_token. destruct (skip_whitespace _) as [n|]; [|discriminate]. apply token_inside. Qed.
Lemma index_inside c : forall l n, index c l = Some n -> nth_error l n = Some c.
Proof using. clear. induction l as [|x l IH]; intros n E; [discriminate E|]. cbn [index] in E. destruct (N.eqb_spec x c) as [->|_]; [injection E as <-; reflexivity|]. destruct (index c l) as [m|]; [|discriminate E]. injection E as <-. exact (IH _ eq_refl). Qed.
Lemma define_zero p def q : parse_define_statement d p = Some (Merge_ok (def, q)) -> q = length d \/ no_zero (d_value def).
Proof using Z0.
  unfold parse_define_statement. destruct (next_token d p) as [[t p1]|]; [|discriminate]. destruct (if is_identifier t then _ else _) as [[]|]; cbn [negb]; try discriminate. destruct (next_token d p1) as [[t2 p2]|]; [|discriminate]. destruct (if is_identifier t2 then _ else _) as [[]|]; cbn [negb]; try discriminate.
  destruct (skip_whitespace _) as [n|]; [|discriminate]. destruct (nth_error d (p2 + n)) as [c|]; [|discriminate]. destruct (c =? 40); [discriminate|]. set (p3 := (p2 + n)%nat). destruct (index 10 (skipn p3 d)) as [k|] eqn:Ix.
  - apply index_inside in Ix. rewrite nth_at in Ix. pose proof (zero_last _ _ Ix ltac:(discriminate)) as Lk. intros H. right.
    assert (K : exists e, (e <= p3 + k)%nat /\ (n0 <- distance p3 e ;; Some (Merge_ok (Def (slice d (t_str t2) (t_str t2 + t_len t2)) (firstn n0 (skipn p3 d)), (p3 + k + 1)%nat))) = Some (Merge_ok (def, q))).
    { destruct (p3 <? length d)%nat; [|exists (p3 + k)%nat; split; [lia|exact H]]. destruct (nth_error d (p3 + k - 1)) as [c2|]; [|discriminate H]. destruct (c2 =? 13); [exists (p3 + k - 1)%nat|exists (p3 + k)%nat]; (split; [lia|exact H]). }
    destruct K as (e & Le & K). unfold distance, assert_ in K. destruct (_ && _) in K; [|discriminate K]. injection K as <- _. cbn [d_value]. change (firstn (e - p3) (skipn p3 d)) with (slice d p3 e). apply slice_zero. lia.
  - intros H. left. destruct (if (p3 <? length d)%nat then _ else _) as [e|]; [|discriminate H]. destruct (distance p3 e); [|discriminate H]. injection H as _ <-. reflexivity.
Qed.

Variable files : text -> option text.
Variable dir : text.
Variable already : list text.
Hypothesis Zf : forall name data, file_of files dir name = Some data -> no_zero data.
Lemma include_zero p defs out out' q : Forall (fun x => no_zero (d_value x)) defs -> merge_include_statement files dir d p defs already out = Some (Merge_ok (out', q)) -> no_zero (m_data out) -> Forall no_zero (m_files out) -> no_zero (m_data out') /\ Forall no_zero (m_files out').
Proof using Z0 Zf.
  intros Zd. unfold merge_include_statement. destruct (next_token d p) as [[t p1]|]; [|discriminate]. destruct (if is_identifier t then _ else _) as [[]|]; cbn [negb]; try discriminate. destruct (next_token d p1) as [[t2 p2]|] eqn:E2; [|discriminate]. destruct (is_string t2) eqn:Is; cbn [negb]; [|discriminate].
  assert (Ty : t_type t2 <> tok_eof) by (intros Y; unfold is_string in Is; rewrite Y in Is; discriminate Is). destruct (next_inside _ _ _ E2 Ty) as (_ & Ln & _). pose proof (slice_zero (t_str t2) _ Ln) as Zn.
  set (name := slice d (t_str t2) (t_str t2 + t_len t2)) in *. destruct (is_in name already) eqn:Ii; [discriminate|]. destruct (concat_paths dir name) as [|y ys] eqn:Ec; [discriminate|]. destruct (files (c_string (y :: ys))) as [data|] eqn:Ef; [|discriminate].
  assert (Zdata : no_zero data) by (apply (Zf name); unfold file_of; rewrite Ec; exact Ef).
  destruct (erase_undef_statements data defs) as [r1|] eqn:E3; [|discriminate]. destruct (process_definitions r1 defs) as [r2|] eqn:E4; [|discriminate]. destruct (indent_range r2 _) as [r3|] eqn:E5; [|discriminate]. intros H Zo Zn2. injection H as <- _. cbn [m_data m_files].
  split.
  - apply no_zero_app. split; [exact Zo|]. apply (indent_zero _ _ _ E5). apply (process_zero _ _ _ Zd E4). exact (erase_all_zero _ _ _ E3 Zdata).
  - destruct (is_in name (m_files out)); [exact Zn2|]. apply Forall_app. split; [exact Zn2|constructor; [exact Zn|constructor]].
Qed.
Lemma loop_zero : Forall no_zero already -> forall fuel p defs out m, merge_loop files dir fuel d already p defs out = Some m -> Forall (fun x => no_zero (d_value x)) defs -> no_zero (m_data out) -> Forall no_zero (m_files out) -> no_zero (m_data m) /\ Forall no_zero (m_files m).
Proof using Z0 Zf.
  intros Za. induction fuel as [|fuel IH]; intros p defs out m E Zd Zo Zn; [discriminate E|]. cbn [merge_loop] in E. destruct (next_token d p) as [[t q]|] eqn:Et; [|discriminate E].
  destruct (match t_type t with tok_eof => _ | _ => _ end) as [[prev out1]|] eqn:E1 in E; [|discriminate E].
  assert (O1 : no_zero (m_data out1) /\ Forall no_zero (m_files out1)).
  { assert (K : t_type t <> tok_eof -> (if (p =? t_str t)%nat then Some (p, out) else cur <- process_definitions (slice d p (t_str t)) defs ;; Some (t_str t, set_data out (m_data out ++ cur))) = Some (prev, out1) -> no_zero (m_data out1) /\ Forall no_zero (m_files out1)).
    { intros Ty. destruct (next_inside _ _ _ Et Ty) as (_ & _ & Ls). destruct (_ =? _)%nat; [intros H; injection H as _ <-; auto|]. destruct (process_definitions _ defs) as [cur|] eqn:Ep; [|discriminate]. intros H. injection H as _ <-. cbn [m_data set_data m_files]. split; [|exact Zn]. apply no_zero_app. split; [exact Zo|]. exact (process_zero _ _ _ Zd Ep (slice_zero _ _ Ls)). }
    destruct (t_type t) eqn:Ty; try (apply K; [discriminate|exact E1]). injection E1 as _ <-. auto. }
  destruct O1 as (Zo1 & Zn1). clear E1.
  assert (Copy : t_type t <> tok_eof -> (cur <- process_definitions (slice d prev q) defs ;; merge_loop files dir fuel d already q defs (set_data out1 (m_data out1 ++ cur))) = Some m -> no_zero (m_data m) /\ Forall no_zero (m_files m)).
  { intros Ty. destruct (next_inside _ _ _ Et Ty) as (Lq & _). destruct (process_definitions _ defs) as [cur|] eqn:Ep; [|discriminate]. intros H. apply (IH _ _ _ _ H Zd); [|exact Zn1]. cbn [m_data set_data]. apply no_zero_app. split; [exact Zo1|]. exact (process_zero _ _ _ Zd Ep (slice_zero _ _ Lq)). }
  destruct (t_type t) eqn:Ty.
  - destruct (merge_include_statement files dir d q defs already out1) as [[[out2 q2]| |]|] eqn:Ei; [| | |discriminate E].
    + destruct (include_zero _ _ _ _ _ Zd Ei Zo1 Zn1) as [Y1 Y2]. apply (IH _ _ _ _ E); cbn [m_data m_files]; [|exact Y1|exact Y2]. destruct Zd; [constructor|constructor; [assumption|constructor]].
    + destruct (parse_define_statement d q) as [[[def q2]| |]|] eqn:Ed; [| | |discriminate E].
      * destruct (define_zero _ _ _ Ed) as [->|Zv]; [unfold d in E; rewrite loop_at_end in E; discriminate E|]. apply (IH _ _ _ _ E); [|exact Zo1|exact Zn1]. apply Forall_app. split; [exact Zd|constructor; [exact Zv|constructor]].
      * apply Copy; [discriminate|exact E].
      * injection E as <-. auto.
    + injection E as <-. auto.
  - apply Copy; [discriminate|exact E].
  - apply Copy; [discriminate|exact E].
  - destruct (process_definitions _ defs) as [cur|] eqn:Ep; [|discriminate E]. injection E as <-. cbn [m_data m_files]. split; [|apply Forall_app; split; assumption]. apply no_zero_app. split; [exact Zo1|]. apply (process_zero _ _ _ Zd Ep). apply slice_zero. unfold d. rewrite app_length. cbn. lia.
Qed.
End Zero.

Section Rounds.
Variable files : text -> option text.
Variable dir : text.
Hypothesis Zf : forall name data, file_of files dir name = Some data -> no_zero data.
Theorem merge_zero year t already m : no_zero year -> no_zero t -> Forall no_zero already -> merge files dir year (t ++ [0]) already = Some m -> no_zero (m_data m) /\ Forall no_zero (m_files m).
Proof using Zf.
  intros Zy Z Za. unfold merge. rewrite rev_app_distr. cbn [rev app]. destruct (260 <? length dir)%nat; [intros H; injection H as <-; split; [intros []|constructor]|]. intros H. apply (loop_zero t Z files dir already Zf Za _ _ _ _ _ H); [constructor; [exact Zy|constructor]|intros []|constructor].
Qed.
Theorem rounds_end (L : list text) year recursive : no_zero year -> (forall name, no_zero name -> file_of files dir name <> None -> In name L) -> forall fuel t already, no_zero t -> Forall no_zero already -> NoDup already -> incl already L -> (length L < fuel + length already)%nat ->
  rounds files dir fuel year recursive (t ++ [0]) already <> Some None.
Proof using Zf.
  intros Zy Fin. induction fuel as [|fuel IH]; intros t already Z Za Nd In_ Lf; [pose proof (NoDup_incl_length Nd In_); lia|]. cbn [rounds]. destruct (merge files dir year (t ++ [0]) already) as [m|] eqn:E; [|discriminate]. destruct (m_success m) eqn:Su; cbn [negb]; [|discriminate].
  destruct (recursive && m_changed m) eqn:Rc; [|discriminate]. apply andb_true_iff in Rc as [_ Ch]. destruct (merge_zero _ _ _ _ Zy Z Za E) as [Zm Zn]. destruct (merge_files _ _ _ _ _ _ E Su) as (ns & Em & [Nn Fr] & Ne). rewrite Em in *. specialize (Ne Ch). apply IH; [exact Zm|exact Zn| | |].
  - clear - Nd Nn Fr. induction Nn as [|x l I Nn IHn]; [exact Nd|]. cbn [app]. constructor; [intros Y; apply in_app_or in Y as [Y|Y]; [exact (I Y)|exact (proj1 (Fr x (or_introl eq_refl)) Y)]|apply IHn; intros n H; apply Fr; right; exact H].
  - intros n I. rewrite Forall_forall in Zn. pose proof (Zn n I) as Zn'. apply in_app_or in I as [I|I]; [exact (Fin n Zn' (proj2 (Fr n I)))|exact (In_ n I)].
  - rewrite app_length. destruct ns; [congruence|cbn [length]; lia].
Qed.
End Rounds.
