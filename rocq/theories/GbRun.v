(** The state of the machine is a function of the text read, and its decisions are those of the rules. *)
From Coq Require Import ZArith NArith List Bool Lia Arith.
From Verif Require Import UgModel GbModel GbSpec.
Import ListNotations.

(** Of a reversed text: an odd number of regional indicators at the end; an emoji with extensions at the end. *)
Fixpoint odd_regional (r : list grapheme) : bool := match r with GRegional :: t => negb (odd_regional t) | _ => false end.
Fixpoint emoji (r : list grapheme) : bool :=
  match r with GPictographic :: _ => true | GExtend :: t => emoji t | _ => false end.
Definition joiner (r : list grapheme) : bool := match r with GZwj :: t => emoji t | _ => false end.
Definition state (r : list grapheme) : nat :=
  match r with
  | [] => 0
  | GRegional :: _ => if odd_regional r then num GRegional else num GOther
  | GExtend :: t => if emoji t then num GPictographic else num GExtend
  | GZwj :: t => if emoji t then pictographic_zwj else num GZwj
  | x :: _ => num x
  end.
(** The rules as a function. *)
Definition keeps (r : list grapheme) (b : grapheme) : bool :=
  match r with
  | [] => false
  | a :: _ =>
      match a, b with
      | GCr, GLf => true
      | (GCr | GLf | GControl), _ => false
      | _, (GCr | GLf | GControl) => false
      | _, (GExtend | GZwj | GSpacing) => true
      | GPrepend, _ => true
      | GL, (GL | GV | GLV | GLVT) => true
      | (GLV | GV), (GV | GT) => true
      | (GLVT | GT), GT => true
      | GZwj, GPictographic => joiner r
      | GRegional, GRegional => odd_regional r
      | _, _ => false
      end
  end.
Definition mark (b : grapheme) : bool := match b with GExtend | GZwj | GSpacing => true | _ => false end.
Definition wrong (r : list grapheme) (b : grapheme) : bool := joiner r && mark b.

Lemma step r b : r <> [] -> exists t, transition (state r) (num b) = Some t /\
  (Z.land t 128 =? 0)%Z = negb (keeps r b && negb (wrong r b)) /\
  ((Z.land t 128 =? 0)%Z = false -> Z.to_nat (Z.land t 127) = state (b :: r)) /\
  ((Z.land t 128 =? 0)%Z = true -> state (b :: r) = num b).
Proof.
  intros NE. destruct r as [|a r]; [congruence|].
  destruct a; destruct b; unfold state, keeps, wrong, joiner, mark; cbn [odd_regional emoji];
    generalize (odd_regional r) (emoji r); intros [] [];
    (eexists; split; [vm_compute; reflexivity|]; split; [vm_compute; reflexivity|]; split; vm_compute; intros; try discriminate; reflexivity).
Qed.

Lemma emoji_spec r : emoji r = true <-> exists p k, rev r = p ++ [GPictographic] ++ repeat GExtend k.
Proof.
  induction r as [|a r IH].
  - split; [discriminate|]. intros (p & k & E). destruct p; discriminate.
  - split.
    + intros H. destruct a; try discriminate; cbn [emoji] in H.
      * apply IH in H. destruct H as (p & k & E). exists p, (S k). cbn [rev]. rewrite E.
        replace (S k) with (k + 1) by lia. rewrite repeat_app, <- !app_assoc. reflexivity.
      * exists (rev r), 0. reflexivity.
    + intros (p & k & E). cbn [rev] in E. destruct k as [|k].
      * rewrite app_nil_r in E. apply app_inj_tail in E. destruct E as [_ ->]. reflexivity.
      * replace (S k) with (k + 1) in E by lia. rewrite repeat_app, !app_assoc in E. cbn [repeat] in E. apply app_inj_tail in E.
        destruct E as [E ->]. cbn [emoji]. apply IH. exists p, k. now rewrite E, <- app_assoc.
Qed.
Lemma joiner_spec r : joiner r = true <-> exists p k, rev r = p ++ [GPictographic] ++ repeat GExtend k ++ [GZwj].
Proof.
  destruct r as [|a r]; [split; [discriminate|intros (p & k & E); destruct p; discriminate]|]. cbn [rev]. split.
  - intros H. destruct a; try discriminate. cbn [joiner] in H. apply emoji_spec in H. destruct H as (p & k & E). exists p, k.
    rewrite E, <- !app_assoc. reflexivity.
  - intros (p & k & E). rewrite !app_assoc in E. apply app_inj_tail in E. destruct E as [E ->]. cbn [joiner]. apply emoji_spec.
    exists p, k. now rewrite E, <- app_assoc.
Qed.
Lemma regional_split r : exists p k, rev r = p ++ repeat GRegional k /\ (~ exists q, p = q ++ [GRegional]) /\ odd_regional r = Nat.odd k.
Proof.
  induction r as [|a r (p & k & E & N & O)].
  - exists [], 0. split; [reflexivity|]. split; [|reflexivity]. intros [q Q]. destruct q; discriminate.
  - assert (D : a = GRegional \/ a <> GRegional) by (destruct a; ((now left) || (right; discriminate))). destruct D as [->|D].
    + exists p, (S k). cbn [rev odd_regional]. rewrite E, O. split; [|split; [exact N|now rewrite Nat.odd_succ, <- Nat.negb_odd]].
      replace (S k) with (k + 1) by lia. now rewrite repeat_app, app_assoc.
    + exists (rev r ++ [a]), 0. cbn [rev]. split; [now rewrite app_nil_r|]. split.
      * intros [q Q]. apply app_inj_tail in Q. now destruct Q.
      * destruct a; reflexivity || congruence.
Qed.
Lemma regional_unique (p p' : list grapheme) k k' : p ++ repeat GRegional k = p' ++ repeat GRegional k' ->
  (~ exists q, p = q ++ [GRegional]) -> (~ exists q, p' = q ++ [GRegional]) -> k = k'.
Proof.
  revert k'. induction k as [|k IH]; intros [|k'] E N N'; [reflexivity| | |].
  - exfalso. apply N. rewrite app_nil_r in E. replace (S k') with (k' + 1) in E by lia. rewrite repeat_app, app_assoc in E. eexists. exact E.
  - exfalso. apply N'. rewrite app_nil_r in E. replace (S k) with (k + 1) in E by lia. rewrite repeat_app, app_assoc in E. eexists. symmetry. exact E.
  - f_equal. apply IH; [|exact N|exact N']. replace (S k) with (k + 1) in E by lia. replace (S k') with (k' + 1) in E by lia.
    rewrite !repeat_app, !app_assoc in E. now apply app_inj_tail in E.
Qed.
Lemma odd_spec r : odd_regional r = true <-> exists p k, rev r = p ++ repeat GRegional (2 * k + 1) /\ ~ exists q, p = q ++ [GRegional].
Proof.
  destruct (regional_split r) as (p & k & E & N & O). split.
  - intros H. rewrite O in H. apply Nat.odd_spec in H. destruct H as [m ->]. now exists p, m.
  - intros (p' & k' & E' & N'). rewrite O. rewrite E in E'. apply regional_unique in E'; [|exact N|exact N']. apply Nat.odd_spec. now exists k'.
Qed.

Lemma keeps_spec r b : keeps r b = true <-> forbidden (rev r) b.
Proof.
  unfold forbidden. destruct r as [|a r].
  - split; [discriminate|]. intros (pre & a & E & _). destruct pre; discriminate.
  - assert (J := joiner_spec (a :: r)). assert (O := odd_spec (a :: r)). cbn [rev] in *. split.
    + intros H. exists (rev r), a. split; [reflexivity|].
      assert (Cc : forall g, {is_control g} + {~ is_control g}).
      { intros g. destruct g; unfold is_control; cbn; ((left; tauto) || (right; intuition discriminate)). }
      destruct (Cc a) as [Ca|Ca], (Cc b) as [Cb|Cb].
      1-3: left; destruct a, b; cbn [keeps] in H; try discriminate; unfold is_control in *; cbn in *; intuition discriminate.
      right. split; [exact Ca|]. split; [exact Cb|]. clear Cc.
      destruct a, b; cbn [keeps] in H; try discriminate H; try (exfalso; apply Ca; unfold is_control; cbn; tauto); try (cbn; tauto).
    + intros (pre & a' & E & H). apply app_inj_tail in E. destruct E as [_ <-].
      destruct H as [[-> ->]|(Ca & Cb & H)]; [reflexivity|].
      assert (Xa : a <> GCr /\ a <> GLf /\ a <> GControl) by (unfold is_control in Ca; cbn in Ca; intuition congruence).
      assert (Xb : b <> GCr /\ b <> GLf /\ b <> GControl) by (unfold is_control in Cb; cbn in Cb; intuition congruence).
      clear Ca Cb. destruct Xa as (Xa1 & Xa2 & Xa3), Xb as (Xb1 & Xb2 & Xb3).
      destruct H as [[-> H]|[[H1 H2]|[[H1 ->]|[H|[->|[[-> H]|[-> H]]]]]]].
      * cbn in H. destruct H as [<-|[<-|[<-|[<-|[]]]]]; reflexivity.
      * cbn in H1, H2. destruct H1 as [<-|[<-|[]]], H2 as [<-|[<-|[]]]; reflexivity.
      * cbn in H1. destruct H1 as [<-|[<-|[]]]; reflexivity.
      * cbn in H. destruct H as [<-|[<-|[<-|[]]]]; destruct a; (reflexivity || congruence).
      * destruct b; (reflexivity || congruence).
      * apply J in H. destruct a; try discriminate H. exact H.
      * apply O in H. destruct a; try discriminate H. exact H.
Qed.
Lemma wrong_spec r b : wrong r b = true <-> mark_after_joiner (rev r) b.
Proof.
  unfold wrong, mark_after_joiner. rewrite andb_true_iff, joiner_spec. assert (mark b = true <-> In b [GExtend; GZwj; GSpacing]); [|tauto].
  destruct b; cbn; intuition discriminate.
Qed.

(** ** The loop *)
Definition cut (r : list grapheme) (b : grapheme) : bool := negb (keeps r b && negb (wrong r b)).
Lemma more_spec prop rest : forall r, r <> [] -> exists k, more prop (state r) rest = Some k /\ (k <= length rest) /\
  (forall j c, j < k -> nth_error rest j = Some c -> cut (rev (map prop (firstn j rest)) ++ r) (prop c) = false) /\
  (forall c, nth_error rest k = Some c -> cut (rev (map prop (firstn k rest)) ++ r) (prop c) = true).
Proof.
  induction rest as [|c rest IH]; intros r NE.
  - exists 0. cbn. split; [reflexivity|]. split; [lia|]. split; [intros; lia|discriminate].
  - destruct (step r (prop c) NE) as (t & T1 & T2 & T3 & T4). cbn [more]. rewrite T1. cbn [obind]. destruct (Z.land t 128 =? 0)%Z eqn:Z.
    + exists 0. split; [reflexivity|]. split; [cbn; lia|]. split; [intros; lia|]. intros c' C. cbn in C. injection C as <-. cbn. unfold cut. now rewrite <- T2.
    + rewrite (T3 eq_refl). destruct (IH (prop c :: r) ltac:(discriminate)) as (k & K1 & K2 & K3 & K4). rewrite K1. cbn [obind].
      exists (S k). split; [reflexivity|]. split; [cbn; lia|].
      assert (X : forall j, rev (map prop (firstn (S j) (c :: rest))) ++ r = rev (map prop (firstn j rest)) ++ prop c :: r).
      { intros j. cbn [firstn map rev]. now rewrite <- app_assoc. }
      split.
      * intros [|j] c' J C; [cbn in C; injection C as <-; cbn; unfold cut; now rewrite <- T2|]. rewrite X. apply K3; [lia|exact C].
      * intros c' C. rewrite X. now apply K4.
Qed.

(** Whether there is a cut at position [i] of the text. *)
Definition cut_at (prop : N -> grapheme) (cps : list N) (i : nat) : bool :=
  match nth_error cps i with Some c => cut (rev (map prop (firstn i cps))) (prop c) | None => true end.
Lemma cut_state r b : cut r b = true -> state (b :: r) = num b.
Proof.
  intros H. destruct r as [|a r]; [destruct b; reflexivity|]. destruct (step (a :: r) b ltac:(discriminate)) as (t & _ & T2 & _ & T4).
  apply T4. rewrite T2. exact H.
Qed.
Lemma next_spec prop cps c : c < length cps -> cut_at prop cps c = true ->
  exists n, to_next_grapheme_break prop c cps = Some n /\ c < n <= length cps /\ cut_at prop cps n = true /\
    forall i, c < i < n -> cut_at prop cps i = false.
Proof.
  intros L C. unfold to_next_grapheme_break. rewrite (proj2 (Nat.leb_le _ _)) by lia. cbn [guard obind].
  destruct (nth_error cps c) as [x|] eqn:Nx; [|apply nth_error_None in Nx; lia].
  assert (Sk : skipn c cps = x :: skipn (S c) cps).
  { clear -Nx. revert cps Nx. induction c as [|c IH]; intros [|y cps] N; try discriminate; [cbn in N; injection N as ->; reflexivity|]. cbn in N. now apply IH in N. }
  assert (Fs : forall j, firstn (S c + j) cps = firstn c cps ++ x :: firstn j (skipn (S c) cps)).
  { intros j. rewrite <- (firstn_skipn c cps) at 1. rewrite Sk, firstn_app, firstn_firstn, firstn_length.
    replace (min (S c + j) c) with c by lia. replace (S c + j - min c (length cps)) with (S j) by lia. reflexivity. }
  assert (Nr : forall j, nth_error (skipn (S c) cps) j = nth_error cps (S c + j)).
  { intros j. generalize (S c) as m. clear. intros m. revert m. induction cps as [|y cps IH]; intros [|m]; cbn; try reflexivity; [destruct j; reflexivity|apply IH]. }
  assert (Lr : length (skipn (S c) cps) = length cps - S c) by apply skipn_length.
  unfold cut_at in C. rewrite Nx in C. assert (S0 := cut_state _ _ C).
  destruct (more_spec prop (skipn (S c) cps) (prop x :: rev (map prop (firstn c cps))) ltac:(discriminate)) as (k & K1 & K2 & K3 & K4).
  assert (X : forall j, rev (map prop (firstn (S c + j) cps)) = rev (map prop (firstn j (skipn (S c) cps))) ++ prop x :: rev (map prop (firstn c cps))).
  { intros j. rewrite Fs, map_app, rev_app_distr. cbn [map rev]. now rewrite <- app_assoc. }
  assert (Q : exists n, n = S c + k /\ c < n <= length cps /\ cut_at prop cps n = true /\ forall i, c < i < n -> cut_at prop cps i = false).
  { exists (S c + k). split; [reflexivity|]. split; [lia|]. split.
    - unfold cut_at. destruct (nth_error cps (S c + k)) as [y|] eqn:Ny; [|reflexivity]. rewrite X. apply K4. now rewrite Nr.
    - intros i I. replace i with (S c + (i - S c)) by lia. unfold cut_at. destruct (nth_error cps (S c + (i - S c))) as [y|] eqn:Ny.
      + rewrite X. apply K3; [lia|now rewrite Nr].
      + apply nth_error_None in Ny. lia. }
  destruct Q as (n & En & Q). exists n. split; [|exact Q]. rewrite Sk. rewrite S0 in K1.
  destruct (skipn (S c) cps) as [|y r] eqn:E.
  - cbn in K2, Lr. f_equal. lia.
  - rewrite K1. cbn [obind]. f_equal. lia.
Qed.
(** Positions that repeated calls from the start give, as in test_grapheme_break (main.cpp 2227-2242). *)
Inductive visited (prop : N -> grapheme) (cps : list N) : nat -> Prop :=
| visit_start : visited prop cps 0
| visit_next c n : visited prop cps c -> c < length cps -> to_next_grapheme_break prop c cps = Some n -> visited prop cps n.
Lemma cut_zero prop cps : cut_at prop cps 0 = true.
Proof. unfold cut_at. destruct cps; reflexivity. Qed.
Lemma visited_cut prop cps i : visited prop cps i -> i <= length cps /\ cut_at prop cps i = true.
Proof.
  induction 1 as [|c n V [IH1 IH2] L H]; [split; [lia|apply cut_zero]|].
  destruct (next_spec prop cps c L IH2) as (n' & N1 & N2 & N3 & _). assert (n' = n) by congruence. subst n'. split; [lia|exact N3].
Qed.
Lemma cut_visited prop cps i : i <= length cps -> cut_at prop cps i = true -> visited prop cps i.
Proof.
  intros L C. assert (G : forall m c, i - c <= m -> c <= i -> visited prop cps c -> visited prop cps i).
  { induction m as [|m IH]; intros c M Lc V; [now replace i with c by lia|].
    destruct (Nat.eq_dec c i) as [<-|Ne]; [exact V|]. destruct (visited_cut _ _ _ V) as [_ Cc].
    destruct (next_spec prop cps c ltac:(lia) Cc) as (n & N1 & N2 & N3 & N4).
    apply (IH n); [lia| |apply (visit_next _ _ c); [exact V|lia|exact N1]].
    destruct (le_lt_dec n i) as [Le|Lt]; [exact Le|]. specialize (N4 i ltac:(lia)). congruence. }
  apply (G i 0); [lia|lia|constructor].
Qed.
Lemma cut_spec prop cps i c : nth_error cps i = Some c ->
  (cut_at prop cps i = true <-> ~ forbidden (map prop (firstn i cps)) (prop c) \/ mark_after_joiner (map prop (firstn i cps)) (prop c)).
Proof.
  intros N. unfold cut_at. rewrite N. assert (K := keeps_spec (rev (map prop (firstn i cps))) (prop c)).
  assert (W := wrong_spec (rev (map prop (firstn i cps))) (prop c)). rewrite rev_involutive in K, W. unfold cut.
  destruct (keeps _ _), (wrong _ _); cbn; intuition discriminate.
Qed.
