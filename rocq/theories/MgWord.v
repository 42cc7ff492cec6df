(** Replacing names: whole words, as long as no underscore is involved. *)
From Coq Require Import Arith NArith List Bool Lia.
From Verif Require Import Base MgModel MgSpec.
Import ListNotations.
Local Open Scope N_scope.

Lemma word_alnum c : word c = isalnum c || (c =? 95). Proof. reflexivity. Qed.
Lemma starts_with_spec : forall w l, starts_with w l = true <-> exists r, l = w ++ r.
Proof.
  induction w as [|x w IH]; intros l; cbn [starts_with app]; [split; [exists l; reflexivity|reflexivity]|].
  destruct l as [|y l]; [split; [discriminate|intros [r E]; discriminate E]|].
  rewrite andb_true_iff, IH, N.eqb_eq. split; [intros [<- [r ->]]; exists r; reflexivity|intros [r E]; injection E as -> ->; split; [reflexivity|exists r; reflexivity]].
Qed.
Lemma search_some : forall w l k, search w l = Some k -> (k <= length l)%nat /\ l = firstn k l ++ w ++ skipn (k + length w) l /\ (forall f1 f2, firstn k l = f1 ++ f2 -> f2 <> [] -> starts_with w (f2 ++ skipn k l) = false).
Proof.
  intros w. induction l as [|c t IH]; intros k H; cbn [search] in H.
  - destruct (starts_with w []) eqn:E; [|discriminate]. injection H as <-. apply starts_with_spec in E as [r E]. destruct w; [|discriminate E]. cbn. repeat split; auto. intros f1 f2 X Y. symmetry in X. apply app_eq_nil in X as [-> ->]. congruence.
  - destruct (starts_with w (c :: t)) eqn:E.
    + injection H as <-. apply starts_with_spec in E as [r E]. rewrite E. cbn [firstn app plus]. rewrite skipn_app, skipn_all, Nat.sub_diag. split; [lia|]. split; [reflexivity|]. intros f1 f2 X Y. symmetry in X. apply app_eq_nil in X as [-> ->]. congruence.
    + destruct (search w t) as [n|]; [|discriminate]. injection H as <-. destruct (IH _ eq_refl) as (L & F & M). cbn [firstn app plus skipn length]. split; [lia|]. split; [f_equal; exact F|].
      intros f1 f2 X Y. destruct f1 as [|x f1]; cbn [app] in X; [subst f2; cbn [app]; rewrite firstn_skipn; exact E|]. injection X as _ X. exact (M _ _ X Y).
Qed.
Lemma search_none : forall w l, search w l = None -> forall f1 f2, l = f1 ++ f2 -> starts_with w f2 = false.
Proof.
  intros w. induction l as [|c t IH]; intros H f1 f2 E; cbn [search] in H.
  - symmetry in E. apply app_eq_nil in E as [-> ->]. destruct (starts_with w []); [discriminate|reflexivity].
  - destruct (starts_with w (c :: t)) eqn:E2; [discriminate|]. destruct (search w t); [discriminate|]. destruct f1 as [|x f1]; cbn [app] in E; [subst f2; exact E2|]. injection E as _ E. exact (IH eq_refl _ _ E).
Qed.
Lemma search_absent w l : absent w l -> search w l = None.
Proof. intros A. destruct (search w l) as [k|] eqn:E; [|reflexivity]. apply search_some in E as (_ & E & _). exfalso. exact (A _ _ E). Qed.

Section Word.
Variable name value : text.
Hypothesis Id : ident name.
Local Notation ww := (words_replaced name value).
(** What is left of the text when the octet before is or is not in a word that is already dealt with. *)
Definition going (inw : bool) (t t' : text) : Prop :=
  if inw then exists u v v', t = u ++ v /\ t' = u ++ v' /\ Forall (fun c => word c = true) u /\ begins_word v = false /\ ww v v' else ww t t'.
Definition ends_word (l : text) : bool := match rev l with [] => false | c :: _ => word c end.
Definition now (inw : bool) (f : text) : bool := match f with [] => inw | _ => ends_word f end.
Lemma going_other c inw t t' : word c = false -> going false t t' -> going inw (c :: t) (c :: t').
Proof using. intros W G. unfold going in *. assert (ww (c :: t) (c :: t')) by (apply W_other; assumption). destruct inw; [exists [], (c :: t), (c :: t'); repeat split; [constructor|exact W|assumption]|assumption]. Qed.
Lemma going_in c t t' : word c = true -> going true t t' -> going true (c :: t) (c :: t').
Proof using. intros W (u & v & v' & -> & -> & U & B & R). exists (c :: u), v, v'. repeat split; auto. Qed.
Lemma going_start c t t' : word c = true -> starts_with name (c :: t) = false -> going true t t' -> going false (c :: t) (c :: t').
Proof using.
  intros W S (u & v & v' & -> & -> & U & B & R). unfold going. apply (W_word name value (c :: u) v v'); [discriminate|constructor; assumption| |exact B|exact R].
  intros E. assert (starts_with name (c :: u ++ v) = true) by (apply starts_with_spec; exists v; rewrite <- E; reflexivity). congruence.
Qed.
Lemma now_cons c f : now (word c) f = now false (c :: f).
Proof using. unfold now, ends_word. cbn [rev]. destruct f as [|x f]; [reflexivity|]. destruct (rev (x :: f)) eqn:E; [|reflexivity]. exfalso. apply (f_equal (@length N)) in E. rewrite rev_length in E. discriminate E. Qed.
Lemma now_cons' inw c f : now inw (c :: f) = now (word c) f.
Proof using. rewrite now_cons. reflexivity. Qed.
(** Octets in which the name does not begin. *)
Lemma going_app : forall f inw r r', (forall f1 f2, f = f1 ++ f2 -> f2 <> [] -> starts_with name (f2 ++ r) = false) -> going (now inw f) r r' -> going inw (f ++ r) (f ++ r').
Proof using.
  induction f as [|c f IH]; intros inw r r' S G; [exact G|]. cbn [app]. rewrite now_cons' in G. assert (S' : forall f1 f2, f = f1 ++ f2 -> f2 <> [] -> starts_with name (f2 ++ r) = false) by (intros f1 f2 E; apply (S (c :: f1)); rewrite E; reflexivity).
  specialize (IH (word c) r r' S' G). destruct (word c) eqn:W; [|apply going_other; assumption]. destruct inw; [apply going_in; assumption|]. apply going_start; [assumption| |assumption]. apply (S [] (c :: f) eq_refl). discriminate.
Qed.
Lemma going_words : forall w r r', Forall (fun c => word c = true) w -> going true r r' -> going true (w ++ r) (w ++ r').
Proof using. induction w as [|c w IH]; intros r r' F G; [exact G|]. inversion F; subst. cbn [app]. apply going_in; auto. Qed.
Lemma going_part inw r r' : inw || begins_word r = true -> going true r r' -> going inw (name ++ r) (name ++ r').
Proof using Id.
  intros B G. destruct inw; [apply going_words; [apply Id|exact G]|]. cbn [orb] in B. destruct G as (u & v & v' & -> & -> & U & B2 & R). unfold going. rewrite !app_assoc. destruct Id as [Ne Fw].
  apply W_word; [destruct name; [congruence|discriminate]|apply Forall_app; split; assumption| |exact B2|exact R].
  intros E. rewrite <- (app_nil_r name) in E at 2. apply app_inv_head in E. subst u. cbn [app] in B. congruence.
Qed.
Lemma going_whole r r' : begins_word r = false -> going true r r' -> going false (name ++ r) (value ++ r').
Proof using.
  intros B (u & v & v' & -> & -> & U & B2 & R). destruct u as [|c u]; [|inversion U; subst; cbn [app begins_word] in B; congruence]. apply W_name; assumption.
Qed.
Lemma rev_case {A} (l : list A) : l = [] \/ exists l' x, l = l' ++ [x].
Proof using. destruct (rev l) as [|x r] eqn:E; [left; rewrite <- (rev_involutive l), E; reflexivity|right; exists (rev r), x; rewrite <- (rev_involutive l), E; reflexivity]. Qed.
Lemma ends_alnum_app a l : l <> [] -> ends_alnum (a ++ l) = ends_alnum l.
Proof using. intros N. destruct (rev_case l) as [->|(l' & x & ->)]; [congruence|]. unfold ends_alnum. rewrite app_assoc, !rev_app_distr. reflexivity. Qed.
Lemma ends_word_app a l : l <> [] -> ends_word (a ++ l) = ends_word l.
Proof using. intros N. destruct (rev_case l) as [->|(l' & x & ->)]; [congruence|]. unfold ends_word. rewrite app_assoc, !rev_app_distr. reflexivity. Qed.
Lemma ends_agree l : (forall l', l <> l' ++ [95]) -> ends_alnum l = ends_word l.
Proof using. intros N. destruct (rev_case l) as [->|(l' & x & ->)]; [reflexivity|]. unfold ends_alnum, ends_word. rewrite rev_app_distr. cbn [rev app]. rewrite word_alnum. destruct (N.eqb_spec x 95) as [->|]; [exfalso; apply (N l'); reflexivity|rewrite orb_false_r; reflexivity]. Qed.
Lemma begins_agree l : (forall l', l <> 95 :: l') -> begins_alnum l = begins_word l.
Proof using. intros N. destruct l as [|x l]; [reflexivity|]. cbn [begins_alnum begins_word]. rewrite word_alnum. destruct (N.eqb_spec x 95) as [->|]; [exfalso; apply (N l); reflexivity|rewrite orb_false_r; reflexivity]. Qed.
Lemma name_ends_word a : ends_word (a ++ name) = true.
Proof using Id. destruct Id as [Ne F]. rewrite ends_word_app by exact Ne. destruct (rev_case name) as [->|(l' & x & E)]; [congruence|]. rewrite E in F. apply Forall_app in F as [_ F]. apply Forall_inv in F. unfold ends_word. rewrite E, rev_app_distr. exact F. Qed.
Theorem replace_loop_spec : forall fuel orig before rest, (length rest < fuel)%nat -> no_underscore_at name (orig ++ rest) ->
  (starts_with name rest = true -> ends_alnum before = ends_word orig) ->
  exists out, replace_loop fuel (Def name value) before rest = Some (before ++ out) /\ going (ends_word orig) rest out.
Proof using Id.
  induction fuel as [|fuel IH]; intros orig before rest L U I; [lia|]. cbn [replace_loop d_name d_value].
  destruct (search name rest) as [k|] eqn:Sr.
  - apply search_some in Sr as (Lk & E & M). set (f := firstn k rest) in *. set (a := skipn (k + length name) rest) in *.
    destruct (U (orig ++ f) a) as [U1 U2]; [rewrite E at 1; rewrite <- !app_assoc; reflexivity|].
    assert (Sk : skipn k rest = name ++ a) by (rewrite E at 1; rewrite skipn_app; unfold f; rewrite skipn_all2 by (rewrite firstn_length; lia); rewrite firstn_length, Nat.min_l, Nat.sub_diag by exact Lk; reflexivity).
    clearbody f a.
    assert (EA : ends_alnum (before ++ f) = ends_word (orig ++ f)).
    { destruct f as [|c f']; [rewrite !app_nil_r; apply I; apply starts_with_spec; exists a; rewrite E; reflexivity|].
      rewrite ends_alnum_app by discriminate. rewrite <- (ends_alnum_app orig) by discriminate. apply ends_agree. exact U1. }
    rewrite EA, (begins_agree a U2).
    assert (La : (length a < fuel)%nat). { assert (length rest = length f + (length name + length a))%nat by (rewrite E at 1; rewrite !app_length; reflexivity). destruct Id as [Ne _]. destruct name; [congruence|]. cbn [length] in *. lia. }
    assert (Ua : no_underscore_at name (((orig ++ f) ++ name) ++ a)) by (replace (((orig ++ f) ++ name) ++ a) with (orig ++ rest); [exact U|rewrite E at 1; rewrite <- !app_assoc; reflexivity]).
    assert (Nw : now (ends_word orig) f = ends_word (orig ++ f)) by (destruct f; [rewrite app_nil_r; reflexivity|unfold now; rewrite ends_word_app by discriminate; reflexivity]).
    assert (M' : forall f1 f2, f = f1 ++ f2 -> f2 <> [] -> starts_with name (f2 ++ name ++ a) = false) by (rewrite <- Sk; exact M).
    destruct (ends_word (orig ++ f) || begins_word a) eqn:B.
    + destruct (IH ((orig ++ f) ++ name) ((before ++ f) ++ name) a La Ua) as (out & -> & G).
      { intros Sa. apply starts_with_spec in Sa as [r Er]. destruct (Ua ((orig ++ f) ++ name) r) as [V _]; [rewrite Er; reflexivity|].
        destruct Id as [Ne _]. rewrite ends_alnum_app by exact Ne. rewrite <- (ends_alnum_app (orig ++ f) name) by exact Ne. apply ends_agree. exact V. }
      rewrite name_ends_word in G. exists (f ++ name ++ out). split; [rewrite <- !app_assoc; reflexivity|]. rewrite E at 1. apply going_app; [exact M'|]. rewrite Nw. apply going_part; assumption.
    + apply orb_false_iff in B as [B1 B2].
      destruct (IH ((orig ++ f) ++ name) ((before ++ f) ++ value) a La Ua) as (out & -> & G).
      { intros Sa. exfalso. apply starts_with_spec in Sa as [r Er]. destruct Id as [Ne F]. destruct name as [|x n']; [congruence|]. apply Forall_inv in F. rewrite Er in B2. cbn [app begins_word] in B2. congruence. }
      rewrite name_ends_word in G. exists (f ++ value ++ out). split; [rewrite <- !app_assoc; reflexivity|]. rewrite E at 1. apply going_app; [exact M'|]. rewrite Nw, B1. apply going_whole; assumption.
  - exists rest. split; [reflexivity|]. pose proof (search_none _ _ Sr) as M. rewrite <- (app_nil_r rest) at 1 2. apply going_app; [intros f1 f2 E _; rewrite app_nil_r; exact (M _ _ E)|].
    destruct (now _ _); [exists [], [], []; repeat split; constructor|constructor].
Qed.
End Word.
Theorem replace_words : forall name value t, ident name -> no_underscore_at name t -> exists t', replace_one t (Def name value) = Some t' /\ words_replaced name value t t'.
Proof.
  intros name value t Id U. destruct (replace_loop_spec name value Id (S (length t)) [] [] t ltac:(lia) U ltac:(reflexivity)) as (out & E & G). exists out. split; [exact E|exact G].
Qed.
