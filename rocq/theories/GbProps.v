(** Grapheme clusters as tools/unicode_gen finds them, and the transition table that it writes. *)
From Coq Require Import ZArith NArith List Bool Lia Arith.
From Verif Require Import UgModel UgSpec UgProps GbModel GbSpec GbRun GbLook.
Import ListNotations.

(** ** C207: clusters are those of the Unicode rules *)
(** Repeated calls visit exactly the positions where the rules have a boundary, and those within an emoji sequence where a mark follows
    the joiner. Missing: the latter should not be visited. *)
Theorem C207_boundaries_partial prop cps i c : nth_error cps i = Some c ->
  (visited prop cps i <-> ~ forbidden (map prop (firstn i cps)) (prop c) \/ mark_after_joiner (map prop (firstn i cps)) (prop c)).
Proof.
  intros N. rewrite <- (cut_spec prop cps i c N). split; intros H; [now apply visited_cut|].
  apply cut_visited; [|exact H]. assert (i < length cps) by (apply nth_error_Some; congruence). lia.
Qed.
(** So in texts without a mark behind an emoji with joiner the boundaries are right. *)
Theorem C207_plain_partial prop cps : (forall i c, nth_error cps i = Some c -> ~ mark_after_joiner (map prop (firstn i cps)) (prop c)) ->
  forall i c, nth_error cps i = Some c -> (visited prop cps i <-> ~ forbidden (map prop (firstn i cps)) (prop c)).
Proof. intros M i c N. rewrite (C207_boundaries_partial prop cps i c N). specialize (M i c N). tauto. Qed.
(** An emoji (0), a joiner (1), a mark (2): GB9 forbids a boundary before the mark, the tool has one. *)
Definition small (cp : N) : grapheme := if (cp =? 0)%N then GPictographic else if (cp =? 1)%N then GZwj else if (cp =? 2)%N then GExtend else GRegional.
Theorem C207_refuted : visited small [0; 1; 2]%N 2 /\ forbidden (map small (firstn 2 [0; 1; 2]%N)) (small 2).
Proof.
  split.
  - apply (visit_next _ _ 0); [constructor|cbn; lia|vm_compute; reflexivity].
  - exists [GPictographic], GZwj. split; [reflexivity|]. right. split; [unfold is_control; cbn; intuition discriminate|].
    split; [unfold is_control; cbn; intuition discriminate|]. right. right. right. left. now left.
Qed.
(** Emoji, mark, joiner, emoji, three regional indicators: boundaries at 4 and 6. *)
Example C207_example : to_next_grapheme_break small 0 [0; 2; 1; 0; 3; 3; 3]%N = Some 4 /\
  to_next_grapheme_break small 4 [0; 2; 1; 0; 3; 3; 3]%N = Some 6 /\ to_next_grapheme_break small 6 [0; 2; 1; 0; 3; 3; 3]%N = Some 7 /\
  forbidden (map small [0; 2; 1]%N) (small 0) /\ ~ forbidden (map small [0; 2; 1; 0; 3; 3]%N) (small 3).
Proof.
  split; [vm_compute; reflexivity|]. split; [vm_compute; reflexivity|]. split; [vm_compute; reflexivity|]. split.
  - apply (keeps_spec [GZwj; GExtend; GPictographic] GPictographic). reflexivity.
  - intros H. apply (keeps_spec [GRegional; GRegional; GPictographic; GZwj; GExtend; GPictographic] GRegional) in H. discriminate.
Qed.

(** ** C208: every call advances and ends within the text *)
Lemma more_total prop rest : forall s, s < 16 -> exists k, more prop s rest = Some k /\ k <= length rest.
Proof.
  induction rest as [|c rest IH]; intros s L; [exists 0; now split|]. cbn [more].
  assert (T : exists t, transition s (num (prop c)) = Some t /\ Z.to_nat (Z.land t 127) < 16).
  { destruct (prop c); do 16 (destruct s as [|s]; [eexists; split; [reflexivity|vm_compute; lia]|]); lia. }
  destruct T as (t & T1 & T2). rewrite T1. cbn [obind]. destruct (Z.land t 128 =? 0)%Z; [exists 0; split; [reflexivity|lia]|].
  destruct (IH _ T2) as (k & K1 & K2). rewrite K1. cbn [obind]. exists (S k). split; [reflexivity|cbn; lia].
Qed.
Theorem C208_advances prop cps current : current <= length cps ->
  exists n, to_next_grapheme_break prop current cps = Some n /\ n <= length cps /\ (current < length cps -> current < n).
Proof.
  intros L. unfold to_next_grapheme_break. rewrite (proj2 (Nat.leb_le _ _) L). cbn [guard obind].
  assert (E : length (skipn current cps) = length cps - current) by apply skipn_length.
  destruct (skipn current cps) as [|c [|c' r]]; cbn in E.
  - exists (length cps). split; [reflexivity|lia].
  - exists (length cps). split; [reflexivity|lia].
  - destruct (more_total prop (c' :: r) (num (prop c))) as (k & K1 & K2); [destruct (prop c); vm_compute; lia|].
    rewrite K1. cbn [obind]. exists (current + 1 + k). split; [reflexivity|]. cbn in K2. lia.
Qed.
(** The end of the text is visited. *)
Theorem C208_end prop cps : visited prop cps (length cps).
Proof. apply cut_visited; [lia|]. unfold cut_at. now rewrite (proj2 (nth_error_None _ _)) by lia. Qed.
Example C208_example : to_next_grapheme_break small 1 [0; 1; 2]%N = Some 3 /\ to_next_grapheme_break small 3 [0; 1; 2]%N = Some 3 /\
  to_next_grapheme_break small 4 [0; 1; 2]%N = None.
Proof. repeat split; vm_compute; reflexivity. Qed.

(** ** C209: the property the tool looks up is that of the data, with every kind of pruning *)
Theorem C209_property B P fl ds pr cp : 0 < B -> generate B P fl ds = Some pr -> f_grapheme fl = true ->
  property_of B P fl ds cp = Some (grapheme_num (d_gb (datum ds cp))).
Proof. apply property_spec. Qed.
Example C209_example : exists pr, generate 4 3 (opts true true true) sample = Some pr /\
  property_of 4 3 (opts true true true) sample 17 = Some 5%Z /\ property_of 4 3 (opts true true true) sample 16 = Some 0%Z /\
  property_of 4 3 (opts true true true) sample 5000 = Some 0%Z.
Proof.
  destruct (generate 4 3 (opts true true true) sample) as [pr|] eqn:E; [|vm_compute in E; discriminate]. exists pr.
  split; [reflexivity|]. clear. repeat split; vm_compute; reflexivity.
Qed.

(** ** C210: the table of tm_unicode.h is the one the tool writes *)
Theorem C210_table from to : from < 16 -> to < 16 -> nth_error shipped (from * 16 + to) = transition from to.
Proof.
  intros F T. do 16 (destruct from as [|from]; [do 16 (destruct to as [|to]; [vm_compute; reflexivity|]); lia|]). lia.
Qed.
Theorem C210_written : written = shipped.
Proof. vm_compute. reflexivity. Qed.
Example C210_example : nth_error shipped (num GPictographic * 16 + num GZwj) = Some 143%Z.
Proof. reflexivity. Qed.

Print Assumptions C207_boundaries_partial.
Print Assumptions C207_plain_partial.
Print Assumptions C207_refuted.
Print Assumptions C208_advances.
Print Assumptions C208_end.
Print Assumptions C209_property.
Print Assumptions C210_table.
Print Assumptions C210_written.
