(** The types of the generated tables hold the values that are put into them. *)
From Coq Require Import ZArith NArith List Bool Lia Arith.
From Verif Require Import UgModel UgLists.
Import ListNotations.
Local Open Scope Z_scope.

Lemma minmax_fold vs : forall lo hi a b, fold_left (fun '(lo, hi) v => (Z.min v lo, Z.max v hi)) vs (lo, hi) = (a, b) ->
  a <= lo /\ hi <= b /\ (forall v, In v vs -> a <= v <= b) /\
  (a = lo \/ In a vs) /\ (b = hi \/ In b vs).
Proof.
  induction vs as [|x vs IH]; intros lo hi a b H; cbn [fold_left] in H.
  - injection H as <- <-. split; [lia|]. split; [lia|]. split; [intros ? []|]. split; now left.
  - destruct (IH _ _ _ _ H) as (A1 & A2 & A3 & A4 & A5). split; [lia|]. split; [lia|]. split; [|split].
    + intros v [<-|I]; [lia|now apply A3].
    + destruct A4 as [A4|A4]; [|right; now right]. destruct (Z.min_spec x lo) as [[? E]|[? E]]; rewrite E in A4; [right; left; lia|now left].
    + destruct A5 as [A5|A5]; [|right; now right]. destruct (Z.max_spec x hi) as [[? E]|[? E]]; rewrite E in A5; [now left|right; left; lia].
Qed.
Lemma minmax_spec vs a b : minmax vs = (a, b) -> a <= 0 <= b /\ (forall v, In v vs -> a <= v <= b) /\
  (a = 0 \/ In a vs) /\ (b = 0 \/ In b vs).
Proof. unfold minmax. intros H. apply minmax_fold in H. intuition lia. Qed.

Lemma cast_fits t v : In (c_size t) [8; 16; 32] -> fits t v = true -> cast t v = v.
Proof.
  unfold fits, cast. intros [<-|[<-|[<-|[]]]] H; destruct (c_signed t); apply andb_true_iff in H; rewrite !Z.leb_le in H; destruct H as [H1 H2];
    cbn in H1, H2 |- *.
  all: try (apply Z.mod_small; lia).
  all: match goal with |- context [?v mod ?m] => destruct (Z.lt_ge_cases v 0);
         [replace (v mod m) with (v + m) by (apply Z.mod_unique with (-1); lia); rewrite (proj2 (Z.ltb_ge _ _)) by lia; lia
         |rewrite Z.mod_small by lia; rewrite (proj2 (Z.ltb_lt _ _)) by lia; reflexivity] end.
Qed.
Lemma value_to_size_fits vs t v : value_to_size (minmax vs) = Some t -> 0 < c_size t -> In v (0 :: vs) ->
  fits t v = true /\ In (c_size t) [8; 16; 32].
Proof.
  destruct (minmax vs) as [lo hi] eqn:M. apply minmax_spec in M. destruct M as (M0 & M & _). unfold value_to_size. intros H S I.
  destruct (lo =? hi) eqn:E; [injection H as <-; cbn in S; lia|].
  destruct (find _ type_choices) as [c|] eqn:F; [|discriminate]. cbn [obind] in H. injection H as <-. cbn [c_size] in S |- *.
  assert (R : lo <= v <= hi) by (destruct I as [<-|I]; [lia|now apply M]). clear M I.
  apply find_some in F. destruct F as [F1 F2]. apply andb_true_iff in F2. destruct F2 as [F2 F3].
  unfold fits in *. cbn [c_signed c_size].
  unfold type_choices in F1.
  destruct F1 as [<-|[<-|[<-|[<-|[<-|[<-|[]]]]]]]; cbn [c_signed c_size] in *;
    rewrite !andb_true_iff, !Z.leb_le in F2, F3; cbn in F2, F3; (split; [|cbn; tauto]);
    (destruct (lo <? 0) eqn:L; [apply Z.ltb_lt in L|apply Z.ltb_ge in L]); rewrite andb_true_iff, !Z.leb_le; cbn; lia.
Qed.
Lemma value_to_size_cast vs t v : obind (value_to_size (minmax vs)) get_type = Some t -> In v (0 :: vs) -> cast t v = v.
Proof.
  destruct (value_to_size (minmax vs)) as [t'|] eqn:E; [|discriminate]. cbn [obind]. unfold get_type.
  destruct (0 <? c_size t') eqn:S; [|discriminate]. intros H I. injection H as <-. apply Z.ltb_lt in S.
  destruct (value_to_size_fits _ _ _ E S I). now apply cast_fits.
Qed.
Lemma map_cast t vs : (forall v, In v vs -> cast t v = v) -> map (cast t) vs = vs.
Proof. intros H. rewrite <- (map_id vs) at 2. apply map_ext_in. exact H. Qed.

(** No smaller type of the same kind holds all values. *)
Lemma value_to_size_least vs t n : value_to_size (minmax vs) = Some t -> 0 < c_size t -> In n [8; 16; 32] ->
  (forall v, In v vs -> fits {| c_signed := c_signed t; c_size := n |} v = true) -> c_size t <= n.
Proof.
  destruct (minmax vs) as [lo hi] eqn:M. apply minmax_spec in M. destruct M as (M0 & M & M1 & M2). unfold value_to_size. intros H S I A.
  destruct (lo =? hi) eqn:E; [injection H as <-; cbn in S; lia|].
  destruct (find _ type_choices) as [c|] eqn:F; [|discriminate]. cbn [obind] in H. injection H as <-. cbn [c_size c_signed] in *.
  assert (A0 : forall sg, fits {| c_signed := sg; c_size := n |} 0 = true).
  { intros []; unfold fits; cbn; destruct I as [<-|[<-|[<-|[]]]]; reflexivity. }
  assert (Al : fits {| c_signed := lo <? 0; c_size := n |} lo = true) by (destruct M1 as [->|M1]; [apply A0|now apply A]).
  assert (Ah : fits {| c_signed := lo <? 0; c_size := n |} hi = true) by (destruct M2 as [->|M2]; [apply A0|now apply A]).
  destruct (Z.le_gt_cases (c_size c) n) as [|G]; [assumption|exfalso].
  unfold type_choices in F. cbn [find] in F. destruct (lo <? 0) eqn:L.
  - apply Z.ltb_lt in L.
    assert (U : forall k, fits {| c_signed := false; c_size := k |} lo = false).
    { intros k. unfold fits. cbn [c_signed]. rewrite (proj2 (Z.leb_gt 0 lo)) by lia. reflexivity. }
    rewrite !U in F. cbn [andb] in F.
    destruct I as [<-|[<-|[<-|[]]]]; rewrite Al, Ah in F; cbn [andb] in F.
    + injection F as <-. cbn in G. lia.
    + destruct (_ && _) in F; injection F as <-; cbn in G; lia.
    + destruct (_ && _) in F; [injection F as <-; cbn in G; lia|]. destruct (_ && _) in F; injection F as <-; cbn in G; lia.
  - destruct I as [<-|[<-|[<-|[]]]]; rewrite Al, Ah in F; cbn [andb] in F.
    + injection F as <-. cbn in G. lia.
    + destruct (_ && _) in F; injection F as <-; cbn in G; lia.
    + destruct (_ && _) in F; [injection F as <-; cbn in G; lia|]. destruct (_ && _) in F; injection F as <-; cbn in G; lia.
Qed.
