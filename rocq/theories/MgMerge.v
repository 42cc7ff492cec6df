(** The pass over a text. *)
From Coq Require Import Arith NArith List Bool Lia.
From Verif Require Import Base MgModel MgSpec MgWord MgText MgLex.
Import ListNotations.
Local Open Scope N_scope.

Lemma strncmp_total : forall n x lit, exists b, strncmp_eq n (x ++ [0]) (lit ++ [0]) = Some b.
Proof.
  induction n as [|n IH]; intros x lit; [exists true; reflexivity|]. cbn [strncmp_eq].
  destruct x as [|c x], lit as [|y lit]; cbn [app].
  - rewrite N.eqb_refl. exists true. reflexivity.
  - destruct (0 =? y); eexists; reflexivity.
  - destruct (N.eqb_spec c 0) as [->|]; [eexists; reflexivity|eexists; reflexivity].
  - destruct (c =? y); [|eexists; reflexivity]. destruct (c =? 0); [eexists; reflexivity|apply IH].
Qed.
Lemma strncmp_prefix : forall w r lit, Forall (fun c => c <> 0) w -> strncmp_eq (length w) (w ++ r) (lit ++ [0]) = Some true -> exists more, lit = w ++ more.
Proof.
  induction w as [|c w IH]; intros r lit F H; [exists lit; reflexivity|]. inversion F; subst. cbn [length strncmp_eq app] in H. destruct lit as [|y lit]; cbn [app] in H.
  - destruct (N.eqb_spec c 0); [congruence|discriminate].
  - destruct (N.eqb_spec c y) as [->|]; [|discriminate]. destruct (N.eqb_spec y 0); [congruence|]. destruct (IH r lit H3 H) as [more ->]. exists more. reflexivity.
Qed.
Lemma strncmp_lit : forall lit l, Forall (fun c => c <> 0) lit -> strncmp_eq (length lit) l (lit ++ [0]) = Some true -> exists more, l = lit ++ more.
Proof.
  induction lit as [|y lit IH]; intros l F H; [exists l; reflexivity|]. inversion F; subst. cbn [length strncmp_eq app] in H. destruct l as [|c l]; [discriminate|].
  destruct (N.eqb_spec c y) as [->|]; [|discriminate]. destruct (N.eqb_spec y 0); [congruence|]. destruct (IH l H3 H) as [more ->]. exists more. reflexivity.
Qed.
Lemma word_not_zero c : word c = true -> c <> 0. Proof. intros H ->. discriminate H. Qed.
Lemma ident_not_zero w : ident w -> Forall (fun c => c <> 0) w.
Proof. intros [_ F]. eapply Forall_impl; [|exact F]. intros c. apply word_not_zero. Qed.
Lemma text_eqb_eq a b : text_eqb a b = true <-> a = b.
Proof. unfold text_eqb. destruct (list_eq_dec N.eq_dec a b); split; congruence. Qed.
Lemma is_in_spec name l : is_in name l = true <-> In name l.
Proof. unfold is_in. rewrite existsb_exists. split; [intros (x & I & E); apply text_eqb_eq in E; subst; exact I|intros I; exists name; split; [exact I|apply text_eqb_eq; reflexivity]]. Qed.
Lemma slice_at d p a b r : skipn p d = a ++ b ++ r -> slice d (p + length a) (p + length a + length b) = b.
Proof. intros E. unfold slice. rewrite skipn_plus, E, skipn_exact. replace (p + length a + length b - (p + length a))%nat with (length b) by lia. rewrite firstn_app, firstn_all, Nat.sub_diag. cbn. apply app_nil_r. Qed.
Lemma slice_from d p a r : skipn p d = a ++ r -> slice d p (p + length a) = a.
Proof. intros E. pose proof (slice_at d p [] a r E) as X. cbn [length] in X. rewrite Nat.add_0_r in X. exact X. Qed.
Lemma cut_at a r : begins_word r = false -> cut a r.
Proof. destruct r as [|c r]; [right; left; reflexivity|]. intros W. right; right; right. exists c, r. split; [reflexivity|exact W]. Qed.
Lemma cut_prefix a x r : cut a (x ++ r) -> x <> [] -> cut a x.
Proof. intros [C|[C|[C|(c & b & C & W)]]] N; [left; exact C|apply app_eq_nil in C as [C _]; congruence|right; right; left; exact C|]. destruct x as [|y x]; [congruence|]. injection C as -> _. right; right; right. exists c, x. split; [reflexivity|exact W]. Qed.
Lemma cut_end a g r : cut a (g ++ r) -> (g = [] \/ exists g' c, g = g' ++ [c] /\ word c = false) -> cut (a ++ g) r.
Proof. intros C [->|(g' & c & -> & W)]; [rewrite app_nil_r; exact C|]. right; right; left. exists (a ++ g'), c. rewrite app_assoc. split; [reflexivity|exact W]. Qed.
Lemma process_app defs a x r s1 : named defs -> cut a (x ++ r) -> process_definitions a defs = Some s1 -> exists s2, process_definitions x defs = Some s2 /\ process_definitions (a ++ x) defs = Some (s1 ++ s2).
Proof.
  intros Nm C E. assert (C' : cut a x) by (destruct x; [right; left; reflexivity|apply (cut_prefix a _ r C); discriminate]). destruct (process_cut defs a x Nm C') as (r1 & r2 & E1 & E2 & E3). rewrite E in E1. injection E1 as <-. exists r2. split; assumption.
Qed.

Section Merge.
Variable files : text -> option text.
Variable dir : text.
Variable already : list text.
Definition file_of (name : text) : option text := files (c_string (concat_paths dir name)).
Definition add_name (name : text) (ns : list text) : list text := if is_in name ns then ns else ns ++ [name].
(** How a pass goes, from the definitions, the output, the names and the source that are there. *)
Inductive passes : list definition -> text -> list text -> bool -> text -> merged -> Prop :=
| R_end defs out ns ch s s' : process_definitions s defs = Some s' -> passes defs out ns ch s (Merged (out ++ s') (ns ++ already) true ch)
| R_include defs out ns ch s s' src name data r1 r2 r3 rest m : process_definitions s defs = Some s' -> include_directive src name -> ~ In name already -> file_of name = Some data ->
    erase_undef_statements data defs = Some r1 -> process_definitions r1 defs = Some r2 -> indent_range r2 (get_indent (out ++ s')) = Some r3 ->
    passes (firstn 1 defs) ((out ++ s') ++ r3) (add_name name ns) true rest m -> passes defs out ns ch (s ++ src ++ rest) m
| R_define defs out ns ch s s' src name value rest m : process_definitions s defs = Some s' -> define_directive src name value ->
    passes (defs ++ [Def name value]) (out ++ s') ns ch rest m -> passes defs out ns ch (s ++ src ++ rest) m
| R_fail defs out ns ch s s' src rest : process_definitions s defs = Some s' ->
    ((exists name, include_directive src name /\ (In name already \/ dir = [] /\ name = [])) \/ (exists h name, src = h ++ [40] /\ define_head h name)) ->
    passes defs out ns ch (s ++ src ++ rest) (Merged (out ++ s') ns false ch).

Section Pass.
Variable t0 : text.
Let d := t0 ++ [0].
Hypothesis Len : N.of_nat (length d) < INT32_MAX.
Lemma suffix0 p : (p < length d)%nat -> skipn p d = skipn p t0 ++ [0]. Proof using. clear Len. apply suffix. Qed.
Lemma skip_d p a r : skipn p d = a ++ r -> skipn (p + length a) d = r. Proof using. clear Len. apply skip_at. Qed.
Lemma read_d p c r : skipn p d = c :: r -> nth_error d p = Some c. Proof using. clear Len. apply read_at. Qed.
Lemma dist_d a b : (a <= b <= length d)%nat -> distance a b = Some (b - a)%nat. Proof using Len. apply dist_ok. exact Len. Qed.
Lemma drop0 p a r : (p < length d)%nat -> skipn p d = a ++ r -> (p + length a < length d)%nat -> skipn p t0 = a ++ skipn (p + length a) t0.
Proof using.
  clear Len. intros L E L2. pose proof (suffix0 p L) as S1. pose proof (suffix0 _ L2) as S2. rewrite (skip_d _ _ _ E) in S2. rewrite E, S2, app_assoc in S1. apply app_inj_tail in S1 as [S1 _]. symmetry. exact S1.
Qed.
(** Behind a #: a keyword. *)
Lemma keyword lit p t q : Forall (fun c => c <> 0) lit -> Forall (fun c => word c = true) lit -> (p < length d)%nat -> lexed d p t q -> (q < length d)%nat ->
  exists b, (if is_identifier t then strncmp_eq (t_len t) (skipn (t_str t) d) (lit ++ [0]) else Some false) = Some b /\
  (b = true -> exists g k, gap g /\ prefix_of k lit /\ skipn p t0 = g ++ k ++ skipn q t0 /\ q = (p + length g + length k)%nat).
Proof using.
  clear Len. intros Z W Lp X Lq. assert (Tot : forall n s, (s < length d)%nat -> exists b, strncmp_eq n (skipn s d) (lit ++ [0]) = Some b) by (intros n s Ls; rewrite (suffix0 s Ls); apply strncmp_total).
  assert (NoB : forall b, b = false -> (b = true -> exists g k, gap g /\ prefix_of k lit /\ skipn p t0 = g ++ k ++ skipn q t0 /\ q = (p + length g + length k)%nat)) by (intros b -> Y; discriminate Y).
  inversion X as [g r G E|g w r G E I B|g c r G E Wc C0|g body r G E Q|q' Lq']; subst t q; cbn [is_identifier t_type t_len t_str]; try (exists false; split; [reflexivity|apply NoB; reflexivity]).
  - destruct (Tot (length w) (p + length g)%nat) as [b Eb]; [lia|]. exists b. split; [exact Eb|]. intros ->. rewrite (skip_d _ _ _ E) in Eb. apply strncmp_prefix in Eb; [|apply ident_not_zero; exact I].
    exists g, w. split; [exact G|]. split; [split; [apply I|exact Eb]|]. split; [|reflexivity]. rewrite app_assoc in E. rewrite <- Nat.add_assoc, <- app_length in *. rewrite app_assoc. exact (drop0 p (g ++ w) r Lp E Lq).
  - destruct (Tot 1%nat (p + length g)%nat) as [b Eb]; [lia|]. exists b. split; [exact Eb|]. intros ->. rewrite (skip_d _ _ _ E) in Eb. apply (strncmp_prefix [c] r) in Eb as [more Em]; [|constructor; [exact C0|constructor]]. rewrite Em in W. apply Forall_inv in W. congruence.
Qed.
Lemma include_statement : forall p defs out, (p < length d)%nat -> named defs -> exists r, merge_include_statement files dir d p defs already out = Some r /\
  match r with
  | Merge_skip => True
  | Merge_error => exists src name rest, 35 :: skipn p t0 = src ++ rest /\ include_directive src name /\ (In name already \/ dir = [] /\ name = [])
  | Merge_ok (out', q) => exists src name data r1 r2 r3, 35 :: skipn p t0 = src ++ skipn q t0 /\ (p < q < length d)%nat /\ include_directive src name /\ ~ In name already /\ file_of name = Some data /\
      erase_undef_statements data defs = Some r1 /\ process_definitions r1 defs = Some r2 /\ indent_range r2 (get_indent (m_data out)) = Some r3 /\
      out' = Merged (m_data out ++ r3) (add_name name (m_files out)) (m_success out) (m_changed out)
  end.
Proof using Len.
  intros p defs out Lp Nm. unfold merge_include_statement. destruct (next_token_spec t0 Len p Lp) as (t1 & q1 & E1 & X1 & L1). fold d in E1, X1, L1. rewrite E1. cbv beta iota.
  change word_include with (the_include ++ [0]). destruct (keyword the_include p t1 q1) as (b & -> & K); [repeat constructor; discriminate|repeat constructor|exact Lp|exact X1|exact L1|]. cbv beta iota.
  destruct b; cbn [negb]; [|exists Merge_skip; split; [reflexivity|exact I]]. destruct (K eq_refl) as (g1 & k & G1 & Kp & Ek & Eq1).
  destruct (next_token_spec t0 Len q1 L1) as (t2 & q2 & E2 & X2 & L2). fold d in E2, X2, L2. rewrite E2. cbv beta iota.
  inversion X2 as [g r G E|g w r G E Iw B|g c r G E Wc C0|g body r G E Q|q' Lq']; subst t2 q2; cbn [is_string t_type t_len t_str negb]; try (exists Merge_skip; split; [reflexivity|exact I]).
  assert (Nm1 : slice d (q1 + length g + 1) (q1 + length g + 1 + length body) = body).
  { pose proof (slice_at d q1 (g ++ [34]) body (34 :: r)) as Y. rewrite app_length in Y. cbn [length] in Y. rewrite Nat.add_assoc in Y. apply Y. rewrite E, <- app_assoc. reflexivity. }
  rewrite Nm1. set (src := 35 :: g1 ++ k ++ g ++ 34 :: body ++ [34]).
  assert (Dir : include_directive src body) by (exists g1, k, g; split; [reflexivity|]; auto).
  assert (Src : 35 :: skipn p t0 = src ++ skipn (q1 + length g + 1 + length body + 1) t0).
  { rewrite Ek. unfold src. cbn [app]. f_equal. rewrite <- !app_assoc. f_equal. f_equal. assert (Y : skipn q1 d = (g ++ 34 :: body ++ [34]) ++ r) by (rewrite E, <- !app_assoc; cbn [app]; rewrite <- app_assoc; reflexivity).
    pose proof (drop0 q1 _ r L1 Y) as D. assert (Lx : length (g ++ 34 :: body ++ [34]) = (length g + 1 + length body + 1)%nat) by (rewrite app_length; cbn [length]; rewrite app_length; cbn; lia). rewrite Lx in D. rewrite !Nat.add_assoc in D. rewrite (D L2), <- !app_assoc. cbn [app]. reflexivity. }
  destruct (is_in body already) eqn:Al. { exists Merge_error. split; [reflexivity|]. exists src, body, (skipn (q1 + length g + 1 + length body + 1) t0). split; [exact Src|]. split; [exact Dir|]. left. apply is_in_spec. exact Al. }
  destruct (concat_paths dir body) as [|z zs] eqn:Cp.
  { exists Merge_error. split; [reflexivity|]. exists src, body, (skipn (q1 + length g + 1 + length body + 1) t0). split; [exact Src|]. split; [exact Dir|]. right.
    unfold concat_paths in Cp. destruct (rev_case dir) as [Ed|(d' & x & Ed)]; rewrite Ed in Cp |- *; [split; [reflexivity|exact Cp]|]. exfalso. rewrite rev_app_distr in Cp. cbn [rev app] in Cp. destruct (_ || _); destruct d'; discriminate Cp. }
  rewrite <- Cp. fold (file_of body). destruct (file_of body) as [data|] eqn:Fd; [|exists Merge_skip; split; [reflexivity|exact I]].
  destruct (erase_undef_total defs data) as [r1 R1]. rewrite R1. cbv beta iota. destruct (process_total defs r1 Nm) as [r2 R2]. rewrite R2. cbv beta iota. destruct (indent_total (get_indent (m_data out)) r2) as [r3 R3]. rewrite R3. cbv beta iota zeta.
  eexists. split; [reflexivity|]. cbv beta iota. exists src, body, data, r1, r2, r3. split; [exact Src|]. split; [split; [lia|exact L2]|]. split; [exact Dir|]. split; [intros Y; apply is_in_spec in Y; congruence|]. repeat split; assumption.
Qed.
(** Behind the name of a definition there is a line break in the text. *)
Definition break_behind (p : nat) : Prop := index 10 (skipn p d) <> None.
Lemma define_statement : forall p, (p < length d)%nat -> exists r, parse_define_statement d p = Some r /\
  match r with
  | Merge_skip => True
  | Merge_error => exists h name rest, 35 :: skipn p t0 = (h ++ [40]) ++ rest /\ define_head h name
  | Merge_ok (def, q) => exists h, define_head h (d_name def) /\ (exists n, 35 :: skipn p t0 = h ++ skipn n t0 /\ (n < length d)%nat /\ (index 10 (skipn n d) <> None -> q <> length d)) /\
      (q <> length d -> (p < q < length d)%nat /\ exists src, 35 :: skipn p t0 = src ++ skipn q t0 /\ define_directive src (d_name def) (d_value def))
  end.
Proof using Len.
  intros p Lp. unfold parse_define_statement. destruct (next_token_spec t0 Len p Lp) as (t1 & q1 & E1 & X1 & L1). fold d in E1, X1, L1. rewrite E1. cbv beta iota.
  change word_define with (the_define ++ [0]). destruct (keyword the_define p t1 q1) as (b & -> & K); [repeat constructor; discriminate|repeat constructor|exact Lp|exact X1|exact L1|]. cbv beta iota.
  destruct b; cbn [negb]; [|exists Merge_skip; split; [reflexivity|exact I]]. destruct (K eq_refl) as (g1 & k & G1 & Kp & Ek & Eq1).
  destruct (next_token_spec t0 Len q1 L1) as (t2 & q2 & E2 & X2 & L2). fold d in E2, X2, L2. rewrite E2. cbv beta iota. change word_merge with the_merge.
  assert (Tot : forall s, (s < length d)%nat -> exists b, strncmp_eq 6 (skipn s d) (the_merge ++ [0]) = Some b) by (intros s Ls; rewrite (suffix0 s Ls); apply strncmp_total).
  assert (Mz : Forall (fun c => c <> 0) the_merge) by (repeat constructor; discriminate).
  inversion X2 as [g r G E|g w r G E Iw B|g c r G E Wc C0|g body r G E Q|q' Lq']; subst t2 q2; cbn [is_identifier t_type t_len t_str]; try (exists Merge_skip; split; [reflexivity|exact I]).
  2: { destruct (Tot (q1 + length g)%nat) as [b Eb]; [lia|]. rewrite Eb. cbv beta iota. destruct b; [|exists Merge_skip; split; [reflexivity|exact I]]. exfalso. rewrite (skip_d _ _ _ E) in Eb. apply (strncmp_lit the_merge _ Mz) in Eb as [more Em]. injection Em as -> _. discriminate Wc. }
  destruct (Tot (q1 + length g)%nat) as [b Eb]; [lia|]. rewrite Eb. cbv beta iota. destruct b; cbn [negb]; [|exists Merge_skip; split; [reflexivity|exact I]].
  pose proof (skip_d _ _ _ E) as Ew. rewrite Ew in Eb. apply (strncmp_lit the_merge _ Mz) in Eb as [more Em].
  assert (exists more', w = the_merge ++ more') as Mw.
  { destruct (Nat.lt_ge_cases (length w) (length the_merge)) as [Y|Y].
    - exfalso. assert (Z : the_merge = w ++ skipn (length w) the_merge). { rewrite <- (firstn_skipn (length w) the_merge) at 1. f_equal. pose proof (f_equal (firstn (length w)) Em) as F. rewrite !firstn_app, firstn_all, Nat.sub_diag in F. replace (length w - length the_merge)%nat with 0%nat in F by lia. cbn [firstn] in F. rewrite !app_nil_r in F. symmetry. exact F. }
      rewrite Z, <- app_assoc in Em. apply app_inv_head in Em. assert (Fm : Forall (fun c => word c = true) (skipn (length w) the_merge)). { assert (Fw : Forall (fun c => word c = true) the_merge) by (repeat constructor). rewrite Z in Fw. apply Forall_app in Fw. apply Fw. }
      destruct (skipn (length w) the_merge) as [|z zs] eqn:Ez; [apply (f_equal (@length N)) in Ez; rewrite skipn_length in Ez; change (length (@nil N)) with 0%nat in Ez; lia|]. rewrite Em in B. cbn [app begins_word] in B. apply Forall_inv in Fm. congruence.
    - exists (skipn (length the_merge) w). rewrite <- (firstn_skipn (length the_merge) w) at 1. f_equal. pose proof (f_equal (firstn (length the_merge)) Em) as F. rewrite !firstn_app, firstn_all, Nat.sub_diag in F. replace (length the_merge - length w)%nat with 0%nat in F by lia. cbn [firstn] in F. rewrite !app_nil_r in F. exact F. }
  set (p2 := (q1 + length g + length w)%nat) in *. rewrite (suffix0 p2 L2). destruct (skip_whitespace_spec (skipn p2 t0)) as (n & -> & Ln & Bn & Kn). cbv beta iota zeta. rewrite skipn_length in Ln.
  assert (Ld : length d = S (length t0)) by (unfold d; rewrite app_length; cbn; lia). set (p3 := (p2 + n)%nat). assert (Ep2 : p2 = (q1 + length g + length w)%nat) by reflexivity. assert (Ep3 : p3 = (p2 + n)%nat) by reflexivity. assert (L3 : (p3 < length d)%nat) by lia.
  set (bl := firstn n (skipn p2 t0)) in *. assert (Lbl : length bl = n) by (unfold bl; rewrite firstn_length, skipn_length; lia).
  set (h := 35 :: g1 ++ k ++ g ++ w ++ bl).
  assert (Hd : define_head h w) by (exists g1, k, g, bl; split; [reflexivity|]; repeat split; try assumption; try (apply Kp); try (apply Iw); apply G).
  assert (Src : 35 :: skipn p t0 = h ++ skipn p3 t0).
  { rewrite Ek. unfold h. cbn [app]. f_equal. rewrite <- !app_assoc. f_equal. f_equal. rewrite app_assoc in E. pose proof (drop0 q1 (g ++ w) r L1 E) as D. rewrite app_length, Nat.add_assoc in D. fold p2 in D. rewrite (D L2), <- app_assoc. f_equal. f_equal. unfold p3. rewrite skipn_plus. unfold bl. symmetry. apply firstn_skipn. }
  assert (Nme : slice d (q1 + length g) p2 = w) by (apply (slice_at d q1 g w r); exact E).
  pose proof (suffix0 p3 L3) as S3. destruct (skipn p3 t0) as [|c rest] eqn:Et; cbn [app] in S3.
  - rewrite (read_d _ _ _ S3). cbv beta iota. change (0 =? 40) with false. cbv beta iota. fold d. rewrite S3. change (index 10 [0]) with (@None nat). cbv beta iota. assert ((p3 <? length d)%nat = true) as -> by (apply Nat.ltb_lt; lia).
    assert (Z : nth_error d (length d - 1) = Some 0) by (unfold d; rewrite app_length; cbn [length]; replace (length t0 + 1 - 1)%nat with (length t0) by lia; rewrite nth_error_app2, Nat.sub_diag by lia; reflexivity).
    rewrite Z. cbv beta iota. change (0 =? 13) with false. cbv beta iota. rewrite (dist_d) by (fold d; lia). eexists. split; [reflexivity|]. cbv beta iota. rewrite Nme. cbn [d_name d_value]. exists h. split; [exact Hd|]. split; [exists p3; split; [rewrite Et; exact Src|]; split; [exact L3|intros Y; rewrite S3 in Y; exfalso; apply Y; reflexivity]|]. intros Y. exfalso. apply Y. reflexivity.
  - rewrite (read_d _ _ _ S3). cbv beta iota. destruct (N.eqb_spec c 40) as [->|N40]. { exists Merge_error. split; [reflexivity|]. exists h, w, rest. split; [rewrite Src, <- app_assoc; reflexivity|exact Hd]. }
    fold d. rewrite S3. destruct (index 10 (c :: rest ++ [0])) as [m|] eqn:Ix; cbv beta iota.
    + destruct (index_spec _ _ _ Ix) as (va & vb & Ev & <- & Nv). assert (exists t, vb = t ++ [0] /\ c :: rest = va ++ 10 :: t) as (t & -> & Ec).
      { destruct (rev_case vb) as [->|(t & z & ->)]; [change (c :: rest ++ [0]) with ((c :: rest) ++ [0]) in Ev; apply app_inj_tail in Ev as [_ Ev]; discriminate|]. change (c :: rest ++ [0]) with ((c :: rest) ++ [0]) in Ev. rewrite app_comm_cons, app_assoc in Ev. apply app_inj_tail in Ev as [Ev <-]. exists t. split; [reflexivity|exact Ev]. }
      assert (Lr : (length va + S (length t) = length t0 - p3)%nat) by (rewrite <- skipn_length, Et, Ec, app_length; reflexivity).
      assert ((p3 <? length d)%nat = true) as -> by (apply Nat.ltb_lt; lia).
      assert (S4 : skipn p3 d = va ++ 10 :: t ++ [0]) by (rewrite S3; change (c :: rest ++ [0]) with ((c :: rest) ++ [0]); rewrite Ec, <- app_assoc; reflexivity).
      assert (Nxt : skipn p3 t0 = va ++ 10 :: skipn (p3 + length va + 1) t0).
      { rewrite Et, Ec. f_equal. f_equal. replace (p3 + length va + 1)%nat with (p3 + length (va ++ [10%N]))%nat by (rewrite app_length; cbn; lia). rewrite skipn_plus, Et, Ec. change (va ++ 10 :: t) with (va ++ [10] ++ t). rewrite app_assoc, skipn_exact. reflexivity. }
      destruct (rev_case va) as [->|(va' & z & ->)]; [exfalso; cbn [app] in Ec; injection Ec as -> _; apply (Kn 10 rest); [rewrite <- skipn_plus; exact Et|right; lia]|].
      rewrite app_length in *. cbn [length] in *. replace (p3 + (length va' + 1) - 1)%nat with (p3 + length va')%nat by lia.
      rewrite <- app_assoc in S4. cbn [app] in S4. rewrite (read_d _ _ _ (skip_d _ _ _ S4)). cbv beta iota.
      assert (Fin : forall value e, va' ++ z :: [10] = value ++ e -> is_line value -> e = [10] \/ e = [13; 10] -> exists src, 35 :: skipn p t0 = src ++ skipn (p3 + (length va' + 1) + 1) t0 /\ define_directive src w value).
      { intros value e Ev2 Lv He. exists (h ++ value ++ e). split; [|exists h, e; auto]. rewrite Src, <- Et, Nxt, <- Ev2, <- !app_assoc. reflexivity. }
      destruct (N.eqb_spec z 13) as [->|N13].
      * rewrite dist_d by lia. replace (p3 + length va' - p3)%nat with (length va') by lia. eexists. split; [reflexivity|]. cbv beta iota. rewrite Nme. cbn [d_name d_value]. exists h. split; [exact Hd|].
        split; [exists p3; split; [rewrite Et; exact Src|]; split; [exact L3|lia]|]. intros _. split; [lia|]. rewrite <- S3, S4, firstn_app, firstn_all, Nat.sub_diag. cbn [firstn]. rewrite app_nil_r. apply (Fin va' [13; 10]); [reflexivity| |right; reflexivity]. intros Y. apply Nv. apply in_or_app. left. exact Y.
      * rewrite dist_d by lia. replace (p3 + (length va' + 1) - p3)%nat with (length (va' ++ [z])) by (rewrite app_length; cbn; lia). eexists. split; [reflexivity|]. cbv beta iota. rewrite Nme. cbn [d_name d_value]. exists h. split; [exact Hd|].
        split; [exists p3; split; [rewrite Et; exact Src|]; split; [exact L3|lia]|]. intros _. split; [lia|]. rewrite <- S3, S4. replace (va' ++ z :: 10 :: t ++ [0]) with ((va' ++ [z]) ++ 10 :: t ++ [0]) by (rewrite <- app_assoc; reflexivity). rewrite firstn_app, firstn_all, Nat.sub_diag. cbn [firstn]. rewrite app_nil_r. apply (Fin (va' ++ [z]) [10]); [rewrite <- app_assoc; reflexivity|exact Nv|left; reflexivity].
    + assert ((p3 <? length d)%nat = true) as -> by (apply Nat.ltb_lt; lia). assert (Z : nth_error d (length d - 1) = Some 0) by (unfold d; rewrite app_length; cbn [length]; replace (length t0 + 1 - 1)%nat with (length t0) by lia; rewrite nth_error_app2, Nat.sub_diag by lia; reflexivity).
      rewrite Z. cbv beta iota. change (0 =? 13) with false. cbv beta iota. rewrite dist_d by lia. eexists. split; [reflexivity|]. cbv beta iota. rewrite Nme. cbn [d_name d_value]. exists h. split; [exact Hd|]. split; [exists p3; split; [rewrite Et; exact Src|]; split; [exact L3|intros Y; rewrite S3 in Y; exfalso; exact (Y Ix)]|]. intros Y. exfalso. apply Y. reflexivity.
Qed.
(** Behind the name of each definition, and the blanks there, comes a line break. *)
Definition defines_end : Prop := forall p h n name, (p < length d)%nat -> 35 :: skipn p t0 = h ++ skipn n t0 -> define_head h name -> (n < length d)%nat -> index 10 (skipn n d) <> None.
Lemma loop_at_end fuel defs out : merge_loop files dir fuel d already (length d) defs out = None.
Proof using. clear Len. destruct fuel as [|fuel]; [reflexivity|]. cbn [merge_loop]. unfold next_token. rewrite skipn_all. reflexivity. Qed.
Lemma head_named h name : define_head h name -> ident name. Proof using. clear Len. intros (g1 & k & g2 & b & _ & _ & _ & _ & I & _). exact I. Qed.
Theorem merge_loop_passes : forall fuel p defs base s s' ns ch, (length d - p < fuel)%nat -> (p < length d)%nat -> named defs -> process_definitions s defs = Some s' -> cut s (skipn p t0) ->
  (defines_end -> exists m, merge_loop files dir fuel d already p defs (Merged (base ++ s') ns false ch) = Some m) /\
  (forall m, merge_loop files dir fuel d already p defs (Merged (base ++ s') ns false ch) = Some m -> passes defs base ns ch (s ++ skipn p t0) m).
Proof using Len.
  induction fuel as [|fuel IH]; intros p defs base s s' ns ch L Lp Nm Es C; [lia|]. cbn [merge_loop].
  destruct (next_token_spec t0 Len p Lp) as (t & q & E1 & X1 & L1). fold d in E1, X1, L1. rewrite E1. cbv beta iota.
  assert (Ld : length d = S (length t0)) by (unfold d; rewrite app_length; cbn; lia).
  (* copying the octets [x] that come next, in two pieces *)
  assert (Copy : forall x1 x2 q, skipn p t0 = (x1 ++ x2) ++ skipn q t0 -> q = (p + length x1 + length x2)%nat -> (p < q < length d)%nat -> (x1 = [] \/ exists x' c, x1 = x' ++ [c] /\ word c = false) -> cut (s ++ x1 ++ x2) (skipn q t0) ->
    exists r1 r2, process_definitions x1 defs = Some r1 /\ process_definitions x2 defs = Some r2 /\
    ((defines_end -> exists m, merge_loop files dir fuel d already q defs (Merged ((base ++ s' ++ r1) ++ r2) ns false ch) = Some m) /\
     (forall m, merge_loop files dir fuel d already q defs (Merged ((base ++ s' ++ r1) ++ r2) ns false ch) = Some m -> passes defs base ns ch (s ++ skipn p t0) m))).
  { intros x1 x2 q2 Ex Eq Lq Cx C2. rewrite Ex, <- app_assoc in C. destruct (process_app defs s x1 (x2 ++ skipn q2 t0) s' Nm C Es) as (r1 & R1 & R1').
    pose proof (cut_end _ _ _ C Cx) as C1. destruct (process_app defs (s ++ x1) x2 (skipn q2 t0) (s' ++ r1) Nm C1 R1') as (r2 & R2 & R2'). exists r1, r2. split; [exact R1|]. split; [exact R2|].
    rewrite <- app_assoc in R2'. destruct (IH q2 defs base (s ++ x1 ++ x2) ((s' ++ r1) ++ r2) ns ch ltac:(lia) (proj2 Lq) Nm R2' C2) as [A B]. replace ((base ++ s' ++ r1) ++ r2) with (base ++ (s' ++ r1) ++ r2) by (rewrite !app_assoc; reflexivity). split; [exact A|]. intros m H. rewrite Ex, app_assoc. exact (B m H). }
  assert (First : forall x1 r1, slice d p (p + length x1) = x1 -> process_definitions x1 defs = Some r1 ->
    (if (p =? p + length x1)%nat then Some (p, Merged (base ++ s') ns false ch) else cur <- process_definitions (slice d p (p + length x1)) defs ;; Some ((p + length x1)%nat, set_data (Merged (base ++ s') ns false ch) ((base ++ s') ++ cur))) = Some ((p + length x1)%nat, Merged (base ++ s' ++ r1) ns false ch)).
  { intros x1 r1 Sl R. rewrite Sl, R. unfold set_data. cbn [m_files m_success m_changed]. rewrite <- app_assoc. destruct x1 as [|z x1]; [|destruct (Nat.eqb_spec p (p + length (z :: x1))) as [Y|_]; [cbn in Y; lia|reflexivity]].
    cbn [length]. rewrite Nat.add_0_r, Nat.eqb_refl. assert (process_definitions [] defs = Some []) as Z. { clear - Nm. induction Nm as [|x l I F IHl]; [reflexivity|]. rewrite process_cons, (replace_nil x I). exact IHl. } rewrite Z in R. injection R as <-. rewrite app_nil_r. reflexivity. }
  inversion X1 as [g r G E|g w r G E Iw B|g c r G E Wc C0|g body r G E Q|q' Lq']; subst t q; cbn [t_type t_str t_len m_data].
  - (* # *)
    assert (Ge := gap_end g G). assert (Ex : skipn p t0 = (g ++ [35]) ++ skipn (p + length g + 1) t0). { replace (p + length g + 1)%nat with (p + length (g ++ [35%N]))%nat by (rewrite app_length; cbn; lia). apply (drop0 p (g ++ [35]) r Lp); [rewrite E, <- app_assoc; reflexivity|rewrite app_length; cbn; lia]. }
    destruct (Copy g [35] (p + length g + 1)%nat Ex eq_refl ltac:(lia) Ge) as (r1 & r2 & R1 & R2 & Cp). { right; right; left. exists (s ++ g), 35. rewrite app_assoc. split; reflexivity. }
    rewrite (First g r1 (slice_from _ _ _ _ E) R1). cbv beta iota. cbn [m_data].
    destruct (include_statement (p + length g + 1) defs (Merged (base ++ s' ++ r1) ns false ch) L1 Nm) as (ri & -> & Ri). cbv beta iota.
    assert (R1' : process_definitions (s ++ g) defs = Some (s' ++ r1)). { rewrite Ex, <- app_assoc in C. destruct (process_app defs s g _ s' Nm C Es) as (y & Y1 & Y2). rewrite R1 in Y1. injection Y1 as <-. exact Y2. }
    assert (Src : s ++ skipn p t0 = (s ++ g) ++ 35 :: skipn (p + length g + 1) t0) by (rewrite Ex, <- !app_assoc; reflexivity).
    destruct ri as [[out' q']| |].
    + cbn [m_data m_files m_success m_changed] in Ri. destruct Ri as (src & name & data & x1 & x2 & x3 & Y0 & Lq & Y1 & Y2 & Y3 & Y4 & Y5 & Y6 & ->). cbn [m_data m_files m_success m_changed]. replace (base ++ s' ++ r1) with (base ++ (s' ++ r1)) in * by reflexivity. rewrite app_assoc in Y6.
      assert (Nm1 : named (firstn 1 defs)) by (destruct Nm; [constructor|constructor; [assumption|constructor]]). assert (Pn : process_definitions [] (firstn 1 defs) = Some []) by (clear - Nm1; induction Nm1 as [|x l I F IHl]; [reflexivity|rewrite process_cons, (replace_nil x I); exact IHl]).
      destruct (IH q' (firstn 1 defs) ((base ++ s' ++ r1) ++ x3) [] [] (add_name name ns) true ltac:(lia) (proj2 Lq) Nm1 Pn (or_introl eq_refl)) as [A Bm]. rewrite app_nil_r in A, Bm. split; [exact A|]. intros m H. rewrite Src, Y0. rewrite <- app_assoc in Y6.
      apply (R_include defs base ns ch (s ++ g) (s' ++ r1) src name data x1 x2 x3); try assumption. exact (Bm m H).
    + destruct (define_statement (p + length g + 1) L1) as (rd & -> & Rd). cbv beta iota. destruct rd as [[def q']| |].
      * destruct Rd as (h & Hh & (n & Hn & Ln & Hq) & Rd). assert (Nm2 : named (defs ++ [def])) by (apply Forall_app; split; [exact Nm|constructor; [exact (head_named _ _ Hh)|constructor]]).
        destruct (Nat.eq_dec q' (length d)) as [->|Nq].
        -- rewrite loop_at_end. split; [|discriminate]. intros De. exfalso. apply Hq; [|reflexivity]. exact (De _ _ _ _ L1 Hn Hh Ln).
        -- destruct (Rd Nq) as (Lq & src & Y0 & Y1). assert (Pn : process_definitions [] (defs ++ [def]) = Some []) by (clear - Nm2; induction Nm2 as [|x l I F IHl]; [reflexivity|rewrite process_cons, (replace_nil x I); exact IHl]).
           destruct (IH q' (defs ++ [def]) (base ++ s' ++ r1) [] [] ns ch ltac:(lia) (proj2 Lq) Nm2 Pn (or_introl eq_refl)) as [A Bm]. rewrite app_nil_r in A, Bm. split; [exact A|]. intros m H. rewrite Src, Y0.
           apply (R_define defs base ns ch (s ++ g) (s' ++ r1) src (d_name def) (d_value def)); [exact R1'|exact Y1|]. replace (Def (d_name def) (d_value def)) with def by (destruct def; reflexivity). exact (Bm m H).
      * assert (Sl : slice d (p + length g) (p + length g + 1) = [35]) by exact (slice_at d p g [35] r E). rewrite Sl, R2. unfold set_data. cbn [m_files m_success m_changed]. exact Cp.
      * split; [intros _; eexists; reflexivity|]. intros m H. injection H as <-. destruct Rd as (h & name & rest & Y0 & Y1). rewrite Src, Y0. apply (R_fail defs base ns ch (s ++ g) (s' ++ r1) (h ++ [40]) rest R1'). right. exists h, name. split; [reflexivity|exact Y1].
    + split; [intros _; eexists; reflexivity|]. intros m H. injection H as <-. destruct Ri as (src & name & rest & Y0 & Y1 & Y2). rewrite Src, Y0. apply (R_fail defs base ns ch (s ++ g) (s' ++ r1) src rest R1'). left. exists name. split; assumption.
  - assert (Ge := gap_end g G). assert (Pw : (0 < length w)%nat) by (destruct Iw as [Iw _]; destruct w; [congruence|cbn; lia]).
    assert (Ex : skipn p t0 = (g ++ w) ++ skipn (p + length g + length w) t0). { rewrite <- Nat.add_assoc, <- app_length in *. apply (drop0 p (g ++ w) r Lp); [rewrite E, <- app_assoc; reflexivity|exact L1]. }
    assert (Br : begins_word (skipn (p + length g + length w) t0) = false). { pose proof (suffix0 _ L1) as Y. rewrite app_assoc in E. rewrite <- Nat.add_assoc, <- app_length in *. rewrite (skip_d _ _ _ E) in Y. rewrite Y in B. clear - B. destruct (skipn (p + length (g ++ w)) t0); [reflexivity|exact B]. }
    destruct (Copy g w _ Ex eq_refl ltac:(lia) Ge (cut_at _ _ Br)) as (r1 & r2 & R1 & R2 & Cp). rewrite (First g r1 (slice_from _ _ _ _ E) R1). cbv beta iota. rewrite (slice_at d p g w r E), R2. unfold set_data. cbn [m_data m_files m_success m_changed]. exact Cp.
  - assert (Ge := gap_end g G). assert (Ex : skipn p t0 = (g ++ [c]) ++ skipn (p + length g + 1) t0). { replace (p + length g + 1)%nat with (p + length (g ++ [c]))%nat by (rewrite app_length; cbn; lia). apply (drop0 p (g ++ [c]) r Lp); [rewrite E, <- app_assoc; reflexivity|rewrite app_length; cbn; lia]. }
    destruct (Copy g [c] (p + length g + 1)%nat Ex eq_refl ltac:(lia) Ge) as (r1 & r2 & R1 & R2 & Cp). { right; right; left. exists (s ++ g), c. rewrite app_assoc. split; [reflexivity|exact Wc]. }
    rewrite (First g r1 (slice_from _ _ _ _ E) R1). cbv beta iota. assert (Sl : slice d (p + length g) (p + length g + 1) = [c]) by exact (slice_at d p g [c] r E). rewrite Sl, R2. unfold set_data. cbn [m_data m_files m_success m_changed]. exact Cp.
  - set (g' := g ++ [34]). set (b' := body ++ [34]). assert (Lg : length g' = (length g + 1)%nat) by (unfold g'; rewrite app_length; cbn; lia). assert (Lb : length b' = (length body + 1)%nat) by (unfold b'; rewrite app_length; cbn; lia).
    assert (E' : skipn p d = g' ++ b' ++ r) by (rewrite E; unfold g', b'; rewrite <- !app_assoc; reflexivity). replace (p + length g + 1 + length body + 1)%nat with (p + length g' + length b')%nat in * by lia. replace (p + length g + 1)%nat with (p + length g')%nat by lia.
    assert (Ex : skipn p t0 = (g' ++ b') ++ skipn (p + length g' + length b') t0). { rewrite <- Nat.add_assoc, <- app_length in *. apply (drop0 p (g' ++ b') r Lp); [rewrite E', <- app_assoc; reflexivity|exact L1]. }
    destruct (Copy g' b' _ Ex eq_refl ltac:(lia)) as (r1 & r2 & R1 & R2 & Cp); [right; exists g, 34; split; reflexivity|right; right; left; exists (s ++ g' ++ body), 34; unfold b'; rewrite !app_assoc; split; reflexivity|].
    rewrite (First g' r1 (slice_from _ _ _ _ E') R1). cbv beta iota. rewrite (slice_at d p g' b' r E'), R2. unfold set_data. cbn [m_data m_files m_success m_changed]. exact Cp.
  - assert (Sl : slice d p (length d - 1) = skipn p t0). { unfold slice. rewrite (suffix0 p Lp). rewrite firstn_app. rewrite firstn_all2 by (rewrite skipn_length; lia). rewrite skipn_length. replace (length d - 1 - p - (length t0 - p))%nat with 0%nat by lia. cbn [firstn]. apply app_nil_r. }
    destruct (process_app defs s (skipn p t0) [] s' Nm) as (r1 & R1 & R1'); [rewrite app_nil_r; exact C|exact Es|]. rewrite Sl, R1. cbv beta iota. cbn [m_data m_files m_changed]. rewrite <- app_assoc.
    split; [intros _; eexists; reflexivity|]. intros m H. injection H as <-. apply R_end. exact R1'.
Qed.
End Pass.
End Merge.
