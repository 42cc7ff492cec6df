(** Replacing names piece by piece, removing directives, indenting lines. *)
From Coq Require Import Arith NArith List Bool Lia.
From Verif Require Import Base MgModel MgSpec MgWord.
Import ListNotations.
Local Open Scope N_scope.

(** ** Replacing *)
Section Replace.
Variable def : definition.
Hypothesis Id : ident (d_name def).
Local Notation name := (d_name def).
Lemma name_pos : (0 < length name)%nat.
Proof using Id. destruct Id as [N _]. destruct name; [congruence|cbn; lia]. Qed.
Lemma alnum_word c : isalnum c = true -> word c = true.
Proof using. rewrite word_alnum. intros ->. reflexivity. Qed.
Lemma begins_name r : begins_word (name ++ r) = true.
Proof using Id. destruct Id as [N F]. destruct name; [congruence|]. apply Forall_inv in F. exact F. Qed.
Lemma found w l k : (0 < length w)%nat -> search w l = Some k -> exists f a, l = f ++ w ++ a /\ firstn k l = f /\ skipn (k + length w) l = a /\ (length a < length l)%nat /\ (forall f1 f2, f = f1 ++ f2 -> f2 <> [] -> starts_with w (f2 ++ w ++ a) = false).
Proof using.
  intros P H. apply search_some in H as (L & E & M). exists (firstn k l), (skipn (k + length w) l). split; [exact E|]. split; [reflexivity|]. split; [reflexivity|]. split; [pose proof (f_equal (@length N) E) as X; rewrite !app_length in X; rewrite skipn_length in *; lia|].
  assert (Sk : skipn k l = w ++ skipn (k + length w) l). { rewrite E at 1. rewrite skipn_app. rewrite skipn_all2 by (rewrite firstn_length; lia). rewrite firstn_length, Nat.min_l, Nat.sub_diag by exact L. reflexivity. }
  rewrite <- Sk. exact M.
Qed.
(** The text before matters only by its last octet, and not at all if no word begins. *)
Lemma replace_prefix : forall fuel before before' rest, (length rest < fuel)%nat -> ends_alnum before = ends_alnum before' \/ begins_word rest = false ->
  exists out, replace_loop fuel def before rest = Some (before ++ out) /\ replace_loop fuel def before' rest = Some (before' ++ out).
Proof using Id.
  induction fuel as [|fuel IH]; intros before before' rest L C; [lia|]. cbn [replace_loop]. destruct (search name rest) as [k|] eqn:Sr; [|exists rest; split; reflexivity].
  destruct (found _ _ _ name_pos Sr) as (f & a & E & -> & -> & La & _).
  assert (B : ends_alnum (before ++ f) = ends_alnum (before' ++ f)).
  { destruct f as [|x f]; [rewrite !app_nil_r; destruct C as [C|C]; [exact C|rewrite E, app_nil_l, begins_name in C; discriminate]|]. rewrite !ends_alnum_app by discriminate. reflexivity. }
  rewrite <- B. destruct (ends_alnum (before ++ f) || begins_alnum a).
  - destruct (IH ((before ++ f) ++ name) ((before' ++ f) ++ name) a ltac:(lia)) as (out & -> & ->); [left; rewrite !ends_alnum_app by apply Id; reflexivity|]. exists (f ++ name ++ out). rewrite <- !app_assoc. split; reflexivity.
  - destruct (IH ((before ++ f) ++ d_value def) ((before' ++ f) ++ d_value def) a ltac:(lia)) as (out & -> & ->).
    { left. destruct (d_value def) as [|x v]; [rewrite !app_nil_r; exact B|rewrite !ends_alnum_app by discriminate; reflexivity]. }
    exists (f ++ d_value def ++ out). rewrite <- !app_assoc. split; reflexivity.
Qed.
Lemma replace_fuel : forall fuel fuel' before rest, (length rest < fuel)%nat -> (length rest < fuel')%nat -> replace_loop fuel def before rest = replace_loop fuel' def before rest.
Proof using Id.
  induction fuel as [|fuel IH]; intros fuel' before rest L L'; [lia|]. destruct fuel' as [|fuel']; [lia|]. cbn [replace_loop]. destruct (search name rest) as [k|] eqn:Sr; [|reflexivity].
  destruct (found _ _ _ name_pos Sr) as (f & a & E & -> & -> & La & _). destruct (_ || _); apply IH; lia.
Qed.
Lemma starts_app_false : forall w a b, starts_with w (a ++ b) = true -> (length w <= length a)%nat -> starts_with w a = true.
Proof using.
  induction w as [|x w IH]; intros a b H L; [reflexivity|]. destruct a as [|y a]; [cbn in L; lia|]. cbn [app starts_with] in *. apply andb_true_iff in H as [-> H]. cbn. apply (IH _ b H). cbn in L. lia.
Qed.
Lemma search_left : forall w l r k, search w l = Some k -> search w (l ++ r) = Some k.
Proof using.
  intros w. induction l as [|c t IH]; intros r k H; cbn [search] in H.
  - destruct (starts_with w []) eqn:E; [|discriminate]. injection H as <-. apply starts_with_spec in E as [q E]. destruct w; [|discriminate E]. destruct r; reflexivity.
  - cbn [app search]. destruct (starts_with w (c :: t)) eqn:E.
    + injection H as <-. assert (starts_with w (c :: t ++ r) = true) as ->; [|reflexivity]. apply starts_with_spec in E as [q E]. apply starts_with_spec. exists (q ++ r). rewrite app_assoc, <- E. reflexivity.
    + destruct (search w t) as [n|] eqn:F; [|discriminate]. injection H as <-. destruct (starts_with w (c :: t ++ r)) eqn:G; [|rewrite (IH r n eq_refl); reflexivity].
      exfalso. apply search_some in F as (L & F & _). assert (length w <= length t)%nat by (rewrite F, !app_length; lia).
      change (c :: t ++ r) with ((c :: t) ++ r) in G. rewrite (starts_app_false _ _ _ G) in E; [discriminate|cbn; lia].
Qed.
(** An octet on one side of the cut is in no word. *)
Definition cut (a b : text) : Prop := a = [] \/ b = [] \/ (exists a' c, a = a' ++ [c] /\ word c = false) \/ (exists c b', b = c :: b' /\ word c = false).
Lemma no_straddle : forall a b, cut a b -> search name a = None -> search name (a ++ b) = option_map (plus (length a)) (search name b).
Proof using Id.
  induction a as [|c t IH]; intros b C H; [cbn [app length plus]; destruct (search name b); reflexivity|]. cbn [search] in H. destruct (starts_with name (c :: t)) eqn:E; [discriminate|]. destruct (search name t) eqn:F; [discriminate|].
  cbn [app search]. assert (starts_with name (c :: t ++ b) = false) as ->.
  { destruct (starts_with name (c :: t ++ b)) eqn:G; [|reflexivity]. exfalso. pose proof G as G0. apply starts_with_spec in G as [r G].
    change (c :: t ++ b) with ((c :: t) ++ b) in G, G0. assert (Lt : (length (c :: t) < length name)%nat) by (destruct (Nat.lt_ge_cases (length (c :: t)) (length name)) as [X|X]; [exact X|rewrite (starts_app_false _ _ _ G0 X) in E; discriminate]).
    assert (exists n2, name = (c :: t) ++ n2 /\ n2 <> [] /\ b = n2 ++ r) as (n2 & N1 & N2 & N3).
    { exists (skipn (length (c :: t)) name). assert (firstn (length (c :: t)) name = c :: t).
      { pose proof (f_equal (firstn (length (c :: t))) G) as X. rewrite !firstn_app in X. rewrite firstn_all, Nat.sub_diag in X. replace (length (c :: t) - length name)%nat with 0%nat in X by lia. cbn [firstn] in X. rewrite !app_nil_r in X. symmetry. exact X. }
      split; [rewrite <- H0 at 1; symmetry; apply firstn_skipn|]. split; [intros X; apply (f_equal (@length N)) in X; rewrite skipn_length in X; cbn in X; cbn in Lt; lia|].
      rewrite <- (firstn_skipn (length (c :: t)) name), H0, <- app_assoc in G. apply app_inv_head in G. exact G. }
    destruct Id as [_ Fw]. rewrite N1 in Fw. apply Forall_app in Fw as [F1 F2].
    destruct C as [C|[C|[(a' & x & C & W)|(x & b' & C & W)]]]; [discriminate|destruct n2; [congruence|rewrite C in N3; discriminate]| |].
    - rewrite C in F1. apply Forall_app in F1 as [_ F1]. apply Forall_inv in F1. congruence.
    - destruct n2 as [|y n2]; [congruence|]. rewrite C in N3. injection N3 as <- _. apply Forall_inv in F2. congruence. }
  rewrite IH; [destruct (search name b); reflexivity| |reflexivity].
  destruct C as [C|[C|[(a' & x & C & W)|C]]]; [discriminate|right; left; exact C| |right; right; right; exact C]. destruct a' as [|y a']; injection C as -> ->; [left; reflexivity|right; right; left; exists a', x; split; [reflexivity|exact W]].
Qed.
Lemma cut_search a b : cut a b -> search name b = Some 0%nat -> begins_word b = true.
Proof using Id. intros _ H. destruct (found _ _ _ name_pos H) as (f & r & E & F & _). cbn [firstn] in F. subst f. rewrite E. apply begins_name. Qed.
Lemma begins_alnum_word l : begins_word l = false -> begins_alnum l = false.
Proof using. destruct l as [|c l]; [reflexivity|]. cbn. rewrite word_alnum. intros H. apply orb_false_iff in H as [H _]. exact H. Qed.
Lemma replace_split : forall fuel s1 before s2 x y, (length (s1 ++ s2) < fuel)%nat -> cut s1 s2 -> (s1 = [] -> begins_word s2 = true -> ends_alnum before = false) ->
  replace_loop fuel def before s1 = Some x -> replace_loop fuel def [] s2 = Some y -> replace_loop fuel def before (s1 ++ s2) = Some (x ++ y).
Proof using Id.
  induction fuel as [|fuel IH]; intros s1 before s2 x y L C Bf H1 H2; [lia|]. rewrite app_length in L.
  destruct (search name s1) as [k|] eqn:Sr.
  - pose proof H1 as H1'. cbn [replace_loop] in H1' |- *. rewrite (search_left _ _ s2 _ Sr). rewrite Sr in H1'. destruct (found _ _ _ name_pos Sr) as (f & a & E & Ef & Ea & La & _). rewrite Ef, Ea in H1'.
    assert (Lk : (k + length name <= length s1)%nat). { apply search_some in Sr as (Lk & E2 & _). apply (f_equal (@length N)) in E2. rewrite !app_length, firstn_length, skipn_length in E2. lia. }
    rewrite firstn_app, skipn_app. replace (k - length s1)%nat with 0%nat by lia. replace (k + length name - length s1)%nat with 0%nat by lia. cbn [firstn skipn]. rewrite app_nil_r, Ef, Ea.
    assert (Last : a = [] -> begins_word s2 = false).
    { intros ->. rewrite app_nil_r in E. destruct C as [C|[C|[(a' & c & C & W)|(c & b' & C & W)]]].
      - rewrite C in E. symmetry in E. apply app_eq_nil in E as [_ E]. destruct Id. congruence.
      - rewrite C. reflexivity.
      - exfalso. pose proof (name_ends_word _ Id f) as X. rewrite <- E, C in X. unfold ends_word in X. rewrite rev_app_distr in X. cbn [rev app] in X. congruence.
      - rewrite C. exact W. }
    assert (Ca : cut a s2).
    { destruct C as [C|[C|[(a' & c & C & W)|C]]]; [rewrite C in La; cbn in La; lia|right; left; exact C| |right; right; right; exact C].
      destruct (rev_case a) as [->|(a0 & z & ->)]; [left; reflexivity|]. right; right; left. exists a0, z. split; [reflexivity|]. rewrite C, app_assoc in E. rewrite app_assoc in E. apply app_inj_tail in E as [_ E]. rewrite <- E. exact W. }
    assert (begins_alnum (a ++ s2) = begins_alnum a) as ->. { destruct a as [|z a]; [|reflexivity]. cbn [app]. rewrite begins_alnum_word by (apply Last; reflexivity). reflexivity. }
    assert (H2' : replace_loop fuel def [] s2 = Some y) by (rewrite <- H2; apply replace_fuel; lia).
    destruct (ends_alnum (before ++ f) || begins_alnum a); apply IH; try assumption; try (rewrite app_length; lia); intros X Y; rewrite (Last X) in Y; discriminate.
  - assert (H1' : Some (before ++ s1) = Some x) by (cbn [replace_loop] in H1; rewrite Sr in H1; exact H1). injection H1' as <-.
    destruct (replace_prefix (S fuel) (before ++ s1) [] s2 ltac:(lia)) as (out & P1 & P2).
    { destruct (begins_word s2) eqn:B; [left|right; reflexivity]. destruct C as [C|[C|[(a' & c & C & W)|(c & b' & C & W)]]].
      - rewrite C, app_nil_r, (Bf C eq_refl). reflexivity.
      - rewrite C in B. discriminate.
      - rewrite C, app_assoc. unfold ends_alnum. rewrite rev_app_distr. cbn [rev app]. rewrite word_alnum in W. apply orb_false_iff in W as [W _]. exact W.
      - rewrite C in B. cbn in B. congruence. }
    rewrite P2 in H2. injection H2 as <-. cbn [app]. rewrite <- P1. cbn [replace_loop]. rewrite (no_straddle _ _ C Sr). destruct (search name s2) as [k|]; cbn [option_map]; [|rewrite app_assoc; reflexivity].
    rewrite firstn_app_2, skipn_app. rewrite skipn_all2 by lia. replace (length s1 + k + length name - length s1)%nat with (k + length name)%nat by lia. cbn [app]. rewrite !app_assoc. reflexivity.
Qed.
Lemma replace_total t : exists t', replace_one t def = Some t'.
Proof using Id. destruct (replace_prefix (S (length t)) [] [] t ltac:(lia) (or_introl eq_refl)) as (out & E & _). exists out. exact E. Qed.
Lemma replace_cut s1 s2 : cut s1 s2 -> exists r1 r2, replace_one s1 def = Some r1 /\ replace_one s2 def = Some r2 /\ replace_one (s1 ++ s2) def = Some (r1 ++ r2).
Proof using Id.
  intros C. destruct (replace_total s1) as [r1 E1]. destruct (replace_total s2) as [r2 E2]. exists r1, r2. split; [exact E1|]. split; [exact E2|]. unfold replace_one in *.
  apply replace_split; [lia|exact C|reflexivity| |]; [rewrite <- E1|rewrite <- E2]; apply replace_fuel; rewrite ?app_length; lia.
Qed.
Lemma replace_single c : word c = false -> replace_one [c] def = Some [c].
Proof using Id.
  intros W. unfold replace_one. cbn [length replace_loop]. destruct (search name [c]) as [k|] eqn:E; [|reflexivity]. exfalso. destruct (found _ _ _ name_pos E) as (f & a & E2 & _).
  destruct Id as [Ne F]. assert (In c name). { destruct f as [|x f]; [destruct name as [|y n]; [congruence|]; injection E2 as <- _; left; reflexivity|]. injection E2 as _ X. symmetry in X. apply app_eq_nil in X as [_ X]. apply app_eq_nil in X as [X _]. congruence. }
  rewrite Forall_forall in F. specialize (F _ H). congruence.
Qed.
Lemma replace_nil : replace_one [] def = Some [].
Proof using Id. unfold replace_one. cbn [length replace_loop search]. destruct Id as [Ne _]. destruct name; [congruence|reflexivity]. Qed.
Lemma replace_cut_kept s1 s2 : cut s1 s2 -> exists r1 r2, replace_one s1 def = Some r1 /\ replace_one s2 def = Some r2 /\ replace_one (s1 ++ s2) def = Some (r1 ++ r2) /\ cut r1 r2.
Proof using Id.
  intros C. destruct (replace_cut s1 s2 C) as (r1 & r2 & E1 & E2 & E3). exists r1, r2. repeat split; try assumption.
  destruct C as [->|[->|[(a & c & -> & W)|(c & b & -> & W)]]].
  - rewrite replace_nil in E1. injection E1 as <-. left. reflexivity.
  - rewrite replace_nil in E2. injection E2 as <-. right; left. reflexivity.
  - destruct (replace_cut a [c]) as (x & y & _ & Y & Z); [right; right; right; exists c, []; split; [reflexivity|exact W]|]. rewrite (replace_single c W) in Y. injection Y as <-. rewrite Z in E1. injection E1 as <-. right; right; left. exists x, c. split; [reflexivity|exact W].
  - destruct (replace_cut [c] b) as (x & y & X & _ & Z); [right; right; left; exists [], c; split; [reflexivity|exact W]|]. rewrite (replace_single c W) in X. injection X as <-. change ([c] ++ b) with (c :: b) in Z. rewrite Z in E2. injection E2 as <-. right; right; right. exists c, y. split; [reflexivity|exact W].
Qed.
Lemma replace_absent t : absent name t -> replace_one t def = Some t.
Proof using. intros A. unfold replace_one. cbn [replace_loop]. rewrite (search_absent _ _ A). reflexivity. Qed.
End Replace.
Definition named (defs : list definition) : Prop := Forall (fun x => ident (d_name x)) defs.
Lemma each_none (f : text -> definition -> option text) defs : fold_left (fun r def => data <- r ;; f data def) defs (@None text) = None.
Proof. induction defs as [|x defs IH]; [reflexivity|exact IH]. Qed.
Lemma process_cons x defs t : process_definitions t (x :: defs) = (t <- replace_one t x ;; process_definitions t defs).
Proof. unfold process_definitions, each. cbn [fold_left]. destruct (replace_one t x); [reflexivity|apply each_none]. Qed.
Theorem process_cut : forall defs s1 s2, named defs -> cut s1 s2 -> exists r1 r2, process_definitions s1 defs = Some r1 /\ process_definitions s2 defs = Some r2 /\ process_definitions (s1 ++ s2) defs = Some (r1 ++ r2).
Proof.
  induction defs as [|x defs IH]; intros s1 s2 Nm C; [exists s1, s2; repeat split|]. inversion Nm; subst. rewrite !process_cons. destruct (replace_cut_kept x H1 s1 s2 C) as (r1 & r2 & -> & -> & -> & C2). exact (IH _ _ H2 C2).
Qed.
Lemma process_total defs t : named defs -> exists t', process_definitions t defs = Some t'.
Proof. intros Nm. destruct (process_cut defs t [] Nm) as (r & _ & E & _); [right; left; reflexivity|]. exists r. exact E. Qed.

(** ** Removing *)
Lemma erase_total : forall fuel w before rest, (0 < length w)%nat -> (length rest < fuel)%nat -> exists t, erase_loop fuel w before rest = Some t.
Proof.
  induction fuel as [|fuel IH]; intros w before rest P L; [lia|]. cbn [erase_loop]. destruct (search w rest) as [k|] eqn:E; [|eexists; reflexivity]. destruct (found _ _ _ P E) as (f & a & _ & -> & -> & La & _).
  destruct (_ || _); apply IH; try assumption; try lia. unfold behind_line. destruct (index 10 a); [rewrite skipn_length; lia|cbn; lia].
Qed.
Lemma erase_one_total x t : exists t', erase_one t x = Some t'.
Proof. apply erase_total; [cbn; lia|lia]. Qed.
Lemma erase_cons x defs t : erase_undef_statements t (x :: defs) = (t <- erase_one t x ;; erase_undef_statements t defs).
Proof. unfold erase_undef_statements, each. cbn [fold_left]. destruct (erase_one t x); [reflexivity|apply each_none]. Qed.
Lemma erase_undef_total : forall defs t, exists t', erase_undef_statements t defs = Some t'.
Proof. induction defs as [|x defs IH]; intros t; [exists t; reflexivity|]. rewrite erase_cons. destruct (erase_one_total x t) as [t' ->]. apply IH. Qed.
Lemma erase_absent x t : absent (word_undef ++ d_name x) t -> erase_one t x = Some t.
Proof. intros A. unfold erase_one. cbn [erase_loop]. rewrite (search_absent _ _ A). reflexivity. Qed.
Lemma index_none c : forall l, ~ In c l -> index c l = None.
Proof. induction l as [|x l IH]; intros H; [reflexivity|]. cbn. destruct (N.eqb_spec x c) as [->|]; [exfalso; apply H; left; reflexivity|]. rewrite IH; [reflexivity|intros X; apply H; right; exact X]. Qed.
Lemma index_app c : forall l r, ~ In c l -> index c (l ++ c :: r) = Some (length l).
Proof. induction l as [|x l IH]; intros r H; [cbn; rewrite N.eqb_refl; reflexivity|]. cbn. destruct (N.eqb_spec x c) as [->|]; [exfalso; apply H; left; reflexivity|]. rewrite IH; [reflexivity|intros X; apply H; right; exact X]. Qed.
Lemma search_first : forall w f a, (0 < length w)%nat -> (forall a' b', f ++ w ++ a = a' ++ w ++ b' -> (length f <= length a')%nat) -> search w (f ++ w ++ a) = Some (length f).
Proof.
  intros w f a P U. destruct (search w (f ++ w ++ a)) as [k|] eqn:E.
  - pose proof (search_some _ _ _ E) as (L & E2 & M). f_equal. pose proof (U _ _ E2) as Le. rewrite firstn_length in Le.
    destruct (Nat.lt_ge_cases (length f) k) as [X|X]; [exfalso|lia]. assert (Y : firstn k (f ++ w ++ a) = f ++ firstn (k - length f) (w ++ a)) by (rewrite firstn_app, firstn_all2 by lia; reflexivity).
    specialize (M f (firstn (k - length f) (w ++ a)) Y). assert (firstn (k - length f) (w ++ a) <> []) as Ne by (intros Z; apply (f_equal (@length N)) in Z; rewrite firstn_length, app_length in Z; cbn in Z; lia).
    specialize (M Ne). assert (Z : skipn k (f ++ w ++ a) = skipn (k - length f) (w ++ a)) by (rewrite skipn_app, skipn_all2 by lia; reflexivity). rewrite Z, firstn_skipn in M. assert (starts_with w (w ++ a) = true) by (apply starts_with_spec; exists a; reflexivity). congruence.
  - exfalso. pose proof (search_none _ _ E f (w ++ a) eq_refl). assert (starts_with w (w ++ a) = true) by (apply starts_with_spec; exists a; reflexivity). congruence.
Qed.
(** One directive: its line goes, and the break before it too. *)
Theorem erase_single : forall x pre a b post, (pre = [] \/ exists pre', pre = pre' ++ [10]) -> is_line a -> is_line b -> ends_alnum a = false -> begins_alnum b = false ->
  let w := word_undef ++ d_name x in
  (forall a' b', pre ++ a ++ w ++ b ++ 10 :: post = a' ++ w ++ b' -> a' = pre ++ a) -> ~ In 10 w ->
  erase_one (pre ++ a ++ w ++ b ++ 10 :: post) x = Some (removelast pre ++ post).
Proof.
  intros x pre a b post Pre La Lb Ea Eb w U W. unfold erase_one. fold w. set (t := pre ++ a ++ w ++ b ++ 10 :: post) in *.
  assert (P : (0 < length w)%nat) by (cbn; lia). assert (T : t = (pre ++ a) ++ w ++ b ++ 10 :: post) by (unfold t; rewrite <- !app_assoc; reflexivity).
  assert (Hn : (0 < length t)%nat) by (rewrite T, !app_length; lia). set (n := length t) in *. clearbody n. clearbody t. subst t.
  cbn [erase_loop]. rewrite search_first; [|exact P|intros a' b' E; rewrite (U a' b' E); lia].
  rewrite firstn_app, firstn_all, Nat.sub_diag. cbn [firstn]. rewrite app_nil_r, app_nil_l.
  rewrite skipn_app, skipn_all2 by lia. replace (length (pre ++ a) + length w - length (pre ++ a))%nat with (length w) by lia. rewrite app_nil_l, skipn_app, skipn_all, Nat.sub_diag. cbn [skipn]. rewrite app_nil_l.
  assert (ends_alnum (pre ++ a) = false) as ->. { destruct a as [|c a]; [|rewrite ends_alnum_app by discriminate; exact Ea]. rewrite app_nil_r. destruct Pre as [->|[pre' ->]]; [reflexivity|]. unfold ends_alnum. rewrite rev_app_distr. reflexivity. }
  assert (begins_alnum (b ++ 10 :: post) = false) as -> by (destruct b; [reflexivity|exact Eb]). cbn [orb].
  assert (back_to_line (pre ++ a) = removelast pre) as ->.
  { unfold back_to_line. rewrite rev_app_distr. assert (R : ~ In 10 (rev a)) by (rewrite <- in_rev; exact La). destruct Pre as [->|[pre' ->]].
    - cbn [rev]. rewrite app_nil_r, (index_none _ _ R). reflexivity.
    - rewrite rev_app_distr. cbn [rev app]. rewrite (index_app _ _ _ R), rev_length. rewrite removelast_last. rewrite !app_length. cbn [length]. replace (length pre' + 1 + length a - length a - 1)%nat with (length pre') by lia.
      rewrite <- app_assoc, firstn_app, firstn_all, Nat.sub_diag. cbn [firstn]. apply app_nil_r. }
  assert (behind_line (b ++ 10 :: post) = post) as ->.
  { unfold behind_line. rewrite (index_app _ _ _ Lb). change (S (length b)) with (1 + length b)%nat. rewrite Nat.add_comm. rewrite skipn_app, skipn_all2 by lia. replace (length b + 1 - length b)%nat with 1%nat by lia. reflexivity. }
  assert (N : search w post = None).
  { apply search_absent. intros q r E. assert (X : pre ++ a ++ w ++ b ++ 10 :: q = pre ++ a); [|apply app_inv_head in X; rewrite <- (app_nil_r a) in X at 2; apply app_inv_head in X; apply app_eq_nil in X as [X _]; rewrite X in P; cbn in P; lia].
    apply (U _ r). rewrite E. rewrite <- !app_assoc. cbn [app]. reflexivity. }
  destruct n; [lia|]. cbn [erase_loop]. rewrite N. reflexivity.
Qed.

(** ** Indenting *)
Section Lines.
Variable pre : text.
Fixpoint ind_start (l : text) : text :=
  match l with
  | [] => []
  | c :: t => if is_break c then c :: ind_start t else pre ++ c :: (fix mid (l : text) : text := match l with [] => [] | c :: t => c :: (if c =? 10 then ind_start t else mid t) end) t
  end.
Fixpoint ind_mid (l : text) : text := match l with [] => [] | c :: t => c :: (if c =? 10 then ind_start t else ind_mid t) end.
Lemma ind_start_cons c t : ind_start (c :: t) = if is_break c then c :: ind_start t else pre ++ c :: ind_mid t.
Proof using. reflexivity. Qed.
Definition or_nil (l : text) : text := match l with [] => [] | _ => pre ++ ind_mid l end.
Lemma ind_start_skip : forall l, ind_start l = firstn (skip_breaks l) l ++ or_nil (skipn (skip_breaks l) l).
Proof using.
  induction l as [|c t IH]; [reflexivity|]. rewrite ind_start_cons. cbn [skip_breaks]. destruct (is_break c) eqn:B; [cbn [firstn skipn app]; f_equal; exact IH|]. cbn [firstn skipn app or_nil ind_mid].
  assert (c =? 10 = false) as -> by (unfold is_break in B; apply orb_false_iff in B; apply B). reflexivity.
Qed.
Lemma next_line_cons c t : next_line (c :: t) = S (if c =? 10 then skip_breaks t else next_line t).
Proof using.
  unfold next_line. cbn [index]. destruct (N.eqb_spec c 10) as [->|N]; [reflexivity|]. destruct (index 10 t); reflexivity.
Qed.
Lemma ind_mid_next : forall l, ind_mid l = firstn (next_line l) l ++ or_nil (skipn (next_line l) l).
Proof using.
  induction l as [|c t IH]; [reflexivity|]. rewrite next_line_cons. cbn [firstn skipn app ind_mid]. f_equal. destruct (c =? 10); [apply ind_start_skip|exact IH].
Qed.
Lemma ind_lines : forall ls l, is_line l -> Forall is_line ls -> ind_mid (joined (l :: ls)) = joined (l :: map (indented pre) ls) /\ ind_start (joined (l :: ls)) = joined (indented pre l :: map (indented pre) ls).
Proof using.
  induction ls as [|l2 ls IH].
  - intros l L _. cbn [map joined]. assert (M : forall l, is_line l -> ind_mid l = l).
    { clear. induction l as [|c t IH]; intros L; [reflexivity|]. cbn [ind_mid]. destruct (N.eqb_spec c 10) as [->|]; [exfalso; apply L; left; reflexivity|]. rewrite IH; [reflexivity|intros X; apply L; right; exact X]. }
    split; [apply M; exact L|]. induction l as [|c t IH]; [reflexivity|]. rewrite ind_start_cons. assert (Lt : is_line t) by (intros X; apply L; right; exact X). unfold is_break. cbn [indented].
    destruct (N.eqb_spec c 13) as [->|]; [cbn [orb]; rewrite (IH Lt); reflexivity|]. destruct (N.eqb_spec c 10) as [->|]; [exfalso; apply L; left; reflexivity|]. cbn [orb]. rewrite (M t Lt). reflexivity.
  - intros l L F. inversion F as [|? ? L2 F2]; subst. destruct (IH l2 L2 F2) as [_ IS]. change (map (indented pre) (l2 :: ls)) with (indented pre l2 :: map (indented pre) ls).
    change (joined (l :: l2 :: ls)) with (l ++ 10 :: joined (l2 :: ls)). change (joined (l :: indented pre l2 :: map (indented pre) ls)) with (l ++ 10 :: joined (indented pre l2 :: map (indented pre) ls)).
    change (joined (indented pre l :: indented pre l2 :: map (indented pre) ls)) with (indented pre l ++ 10 :: joined (indented pre l2 :: map (indented pre) ls)). rewrite <- IS. set (r := joined (l2 :: ls)). clearbody r. clear - L.
    assert (M : forall l, is_line l -> ind_mid (l ++ 10 :: r) = l ++ 10 :: ind_start r).
    { clear. induction l as [|c t IH]; intros L; [reflexivity|]. cbn [app ind_mid]. destruct (N.eqb_spec c 10) as [->|]; [exfalso; apply L; left; reflexivity|]. rewrite IH; [reflexivity|intros X; apply L; right; exact X]. }
    split; [apply M; exact L|]. induction l as [|c t IH]; [reflexivity|]. cbn [app]. rewrite ind_start_cons. assert (Lt : is_line t) by (intros X; apply L; right; exact X). unfold is_break. cbn [indented].
    destruct (N.eqb_spec c 13) as [->|]; [cbn [orb app]; rewrite (IH Lt); reflexivity|]. destruct (N.eqb_spec c 10) as [->|]; [exfalso; apply L; left; reflexivity|]. cbn [orb]. rewrite (M t Lt), <- app_assoc. reflexivity.
Qed.
End Lines.
Definition indent_text (i : indentation) : text := concat (repeat (unit_of i) (i_amount i)).
Lemma indent_lines_spec i : forall fuel before rest, (length rest < fuel)%nat -> rest <> [] -> indent_lines fuel i before rest = Some (before ++ indent_text i ++ ind_mid (indent_text i) rest).
Proof.
  induction fuel as [|fuel IH]; intros before rest L Ne; [lia|]. cbn [indent_lines]. fold (indent_text i). rewrite (ind_mid_next _ rest). assert (P : (0 < next_line rest)%nat) by (destruct rest; [congruence|rewrite next_line_cons; lia]).
  assert (Ls : (length (skipn (next_line rest) rest) < length rest)%nat) by (rewrite skipn_length; destruct rest; [congruence|cbn [length] in *; lia]). destruct (skipn (next_line rest) rest) as [|c t] eqn:E.
  - cbn [or_nil]. rewrite app_nil_r. reflexivity.
  - rewrite IH; [|lia|discriminate]. cbn [or_nil]. rewrite <- !app_assoc. reflexivity.
Qed.
Theorem indent_range_mid i data : (0 < i_amount i)%nat -> indent_range data i = Some (ind_mid (indent_text i) data).
Proof.
  intros P. unfold indent_range. destruct (Nat.eqb_spec (i_amount i) 0); [lia|]. rewrite (ind_mid_next _ data). destruct (skipn (next_line data) data) as [|c t] eqn:E.
  - cbn [or_nil]. rewrite app_nil_r. rewrite <- (firstn_skipn (next_line data) data) at 1. rewrite E, app_nil_r. reflexivity.
  - rewrite indent_lines_spec; [reflexivity| |discriminate]. rewrite <- E, skipn_length. lia.
Qed.
Theorem indent_range_lines i l ls : is_line l -> Forall is_line ls -> indent_range (joined (l :: ls)) i = Some (joined (l :: if (i_amount i =? 0)%nat then ls else map (indented (indent_text i)) ls)).
Proof.
  intros L F. destruct (Nat.eqb_spec (i_amount i) 0) as [E|N].
  - unfold indent_range. rewrite E. reflexivity.
  - rewrite indent_range_mid by lia. f_equal. apply ind_lines; assumption.
Qed.
Lemma indent_total i data : exists t, indent_range data i = Some t.
Proof. destruct (Nat.eq_dec (i_amount i) 0) as [E|N]; [unfold indent_range; rewrite E; eexists; reflexivity|rewrite indent_range_mid by lia; eexists; reflexivity]. Qed.
