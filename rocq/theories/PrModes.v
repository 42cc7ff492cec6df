(** tm_print.h: the printer with enough room, with a fixed buffer, and with a growing one; proofs *)
From Coq Require Import Arith NArith ZArith Bool Lia Ascii String List.
From Verif Require Import Base DigitsSpec PrModel PrSpec PrProofs PrParse PrWalk.
Import ListNotations.
Local Open Scope nat_scope.

Lemma digits_loop_length fuel base : forall v acc, List.length (digits_loop fuel base v acc) <= fuel + List.length acc.
Proof.
  induction fuel as [|fuel IH]; intros v acc; [cbn [digits_loop]; lia|]. cbn [digits_loop]. destruct (v / base =? 0)%N; [cbn [List.length]; lia|].
  specialize (IH (v / base)%N ((v mod base)%N :: acc)). cbn [List.length] in IH. lia.
Qed.
Lemma unsigned_text_length v f : (v < 2 ^ 64)%N -> List.length (unsigned_text v f) < 200.
Proof.
  intros H. unfold unsigned_text. rewrite map_length.
  match goal with |- List.length (digits_loop ?n ?b v []) < _ => pose proof (digits_loop_length n b v []) as L end. cbn [List.length] in L.
  assert (N.size v <= 64)%N.
  { destruct v as [|p]; [cbn; lia|]. destruct (N.le_gt_cases (N.size (N.pos p)) 64) as [C|C]; [exact C|]. exfalso.
    pose proof (N.size_le (N.pos p)) as S. assert (2 ^ 65 <= 2 ^ N.size (N.pos p))%N by (apply N.pow_le_mono_r; lia).
    change (2 ^ 65)%N with (2 * 2 ^ 64)%N in H0. lia. }
  lia.
Qed.

(** What printing a value amounts to *)
Definition as_number alloc rounds v f neg strip raw : Prop :=
  forall t, print_arg alloc rounds v f t = print_value alloc rounds (print_number f neg strip raw) (get_print_size (print_number f neg strip raw)) t.
Lemma arg_cases alloc rounds v f text : printable v f -> shows f v text ->
  (exists neg strip raw digits, as_number alloc rounds v f neg strip raw /\ prefix_ok f /\ raw_of strip raw digits f /\ text = decorate f neg digits
     /\ (plain v f -> bare f neg /\ raw <> [] /\ strip = false) /\ (measurable v f -> List.length raw < 200))
  \/ (exists s, (forall t, print_arg alloc rounds v f t = print_value alloc rounds (print_string f s) (fun d => Some (Result (List.length s) OK, d)) t) /\ unpadded f (List.length s) /\ text = s /\ List.length s <= 5)
  \/ (exists s, (forall t, print_arg alloc rounds v f t = print_string_value alloc s f t) /\ unpadded f (List.length s) /\ text = s)
  \/ (exists c, v = V_char c /\ f_char f = true /\ text = [Z.to_N (c mod 256)]).
Proof.
  intros P S.
  assert (NUM : forall least z, z <> least -> base_ok f -> prefix_ok f -> shows_number f z text -> (forall t, print_arg alloc rounds v f t = print_signed alloc rounds least f z t) ->
    (plain v f -> bare f (z <? 0)%Z) -> (measurable v f -> (Z.abs z < 2 ^ 64)%Z) ->
    exists neg strip raw digits, as_number alloc rounds v f neg strip raw /\ prefix_ok f /\ raw_of strip raw digits f /\ text = decorate f neg digits
     /\ (plain v f -> bare f neg /\ raw <> [] /\ strip = false) /\ (measurable v f -> List.length raw < 200)).
  { intros least z Hz B X SH E PL ME. exists (z <? 0)%Z, false, (unsigned_text (Z.to_N (Z.abs z)) f), (unsigned_text (Z.to_N (Z.abs z)) f).
    split; [intros t; rewrite E; unfold print_signed, print_num; destruct (Z.eqb_spec z least); [contradiction|reflexivity]|].
    split; [exact X|]. split; [reflexivity|]. split; [apply shows_number_text; assumption|]. split.
    - intros Q. split; [exact (PL Q)|]. split; [apply unsigned_text_nonempty; exact B|reflexivity].
    - intros Q. apply unsigned_text_length. specialize (ME Q). change (2 ^ 64)%N with (Z.to_N (2 ^ 64)). lia. }
  assert (UNUM : forall n, base_ok f -> prefix_ok f -> shows_number f (Z.of_N n) text -> (forall t, print_arg alloc rounds v f t = print_num alloc rounds f false false (unsigned_text n) t) ->
    (plain v f -> bare f false) -> (measurable v f -> (Z.of_N n < 2 ^ 64)%Z) ->
    exists neg strip raw digits, as_number alloc rounds v f neg strip raw /\ prefix_ok f /\ raw_of strip raw digits f /\ text = decorate f neg digits
     /\ (plain v f -> bare f neg /\ raw <> [] /\ strip = false) /\ (measurable v f -> List.length raw < 200)).
  { intros n B X SH E PL ME. exists false, false, (unsigned_text n f), (unsigned_text n f).
    split; [intros t; rewrite E; reflexivity|]. split; [exact X|]. split; [reflexivity|].
    split; [rewrite (shows_number_text _ _ _ B SH); replace (Z.of_N n <? 0)%Z with false by (symmetry; apply Z.ltb_ge; lia); replace (Z.to_N (Z.abs (Z.of_N n))) with n by lia; reflexivity|]. split.
    - intros Q. split; [exact (PL Q)|]. split; [apply unsigned_text_nonempty; exact B|reflexivity].
    - intros Q. apply unsigned_text_length. specialize (ME Q). change (2 ^ 64)%N with (Z.to_N (2 ^ 64)). lia. }
  assert (REAL : forall neg raw, prefix_ok f -> real_ok f (raw f) -> text = decorate f neg (if f_hex f then skipn 2 (raw f) else raw f) ->
    (forall t, print_arg alloc rounds v f t = print_num alloc rounds f neg (f_hex f) raw t) ->
    (plain v f -> bare f neg /\ raw f <> []) -> (measurable v f -> (Z.of_nat (List.length (raw f)) < 200)%Z) ->
    exists neg strip raw digits, as_number alloc rounds v f neg strip raw /\ prefix_ok f /\ raw_of strip raw digits f /\ text = decorate f neg digits
     /\ (plain v f -> bare f neg /\ raw <> [] /\ strip = false) /\ (measurable v f -> List.length raw < 200)).
  { intros neg raw X RO SH E PL ME. exists neg, (f_hex f), (raw f), (if f_hex f then skipn 2 (raw f) else raw f).
    split; [intros t; rewrite E; reflexivity|]. split; [exact X|]. split.
    - unfold raw_of. destruct (f_hex f) eqn:H; [|reflexivity]. destruct (RO H) as [PH [c [r [E1 [NE [-> | ->]]]]]]; rewrite E1; cbn [skipn]; split; try exact PH; split; try exact NE; [left|right]; reflexivity.
    - split; [exact SH|]. split.
      + intros Q. destruct (PL Q) as [B NR]. split; [exact B|]. split; [exact NR|].
        destruct (f_hex f) eqn:H; [|reflexivity]. destruct (RO H) as [PH _]. destruct B as [_ [_ [B _]]]. congruence.
      + intros Q. specialize (ME Q). lia. }
  destruct v as [c|b|z|n|z|n|neg raw|neg raw|s|s]; cbn [printable shows] in P, S.
  - destruct (f_char f) eqn:FC.
    + right. right. right. exists c. split; [reflexivity|]. split; [reflexivity|]. rewrite S. apply pad_unpadded. exact P.
    + left. destruct P as [P1 [P2 P3]]. apply (NUM (-2147483648)%Z c); try assumption.
      * intros t. cbn [print_arg]. rewrite FC. reflexivity.
      * intros [_ Q]. rewrite FC in Q. exact Q.
      * intros [_ Q]. exact Q.
  - right. left. exists (bool_text f b).
    assert (E : bytes_of (if f_bool_number f then if b then "1" else "0" else if f_lower f then if b then "true" else "false" else if b then "TRUE" else "FALSE")%string = bool_text f b)
      by (unfold bool_text; destruct (f_bool_number f), (f_lower f), b; reflexivity).
    rewrite E in S.
    assert (L : List.length (bool_text f b) = (if f_bool_number f then 1 else if b then 4 else 5)) by (unfold bool_text; destruct (f_bool_number f), (f_lower f), b; reflexivity).
    split; [intros t; reflexivity|]. rewrite L. split; [exact P|]. split; [rewrite S; apply pad_unpadded; rewrite L; exact P|]. destruct (f_bool_number f), b; lia.
  - left. destruct P as [P1 [P2 P3]]. apply (NUM (-2147483648)%Z z); try assumption; [intros t; reflexivity|intros [_ Q]; exact Q|intros [_ Q]; exact Q].
  - left. destruct P as [P1 P2]. apply (UNUM n); try assumption; [intros t; reflexivity|intros [_ Q]; exact Q|intros [_ Q]; exact Q].
  - left. destruct P as [P1 [P2 P3]]. apply (NUM (-9223372036854775808)%Z z); try assumption; [intros t; reflexivity|intros [_ Q]; exact Q|intros [_ Q]; exact Q].
  - left. destruct P as [P1 P2]. apply (UNUM n); try assumption; [intros t; reflexivity|intros [_ Q]; exact Q|intros [_ Q]; exact Q].
  - left. destruct P as [P1 P2]. apply (REAL neg raw); try assumption; [intros t; reflexivity|intros [_ Q]; exact Q|intros [_ Q]; exact Q].
  - left. destruct P as [P1 P2]. apply (REAL neg raw); try assumption; [intros t; reflexivity|intros [_ Q]; exact Q|intros [_ Q]; exact Q].
  - right. right. left. exists s. split; [intros t; reflexivity|]. split; [exact P|]. rewrite S. apply pad_unpadded. exact P.
  - right. right. left. exists s. split; [intros t; reflexivity|]. split; [exact P|]. rewrite S. apply pad_unpadded. exact P.
Qed.

Definition holds (t : printer) (out : list N) : Prop := seg (data t) 0 out /\ used t = List.length out /\ necessary t = List.length out /\ ec t = OK.
Lemma holds_le t out : holds t out -> List.length out <= List.length (data t).
Proof. intros [[L _] _]. exact L. Qed.

(** ** Enough room *)
Section Room.
Variable cap : nat.
Definition InvA (t : printer) (out : list N) : Prop := holds t out /\ List.length (data t) = cap.
Definition FailA (t : printer) (out : list N) : Prop := False.
Definition limitA (out : list N) : Prop := List.length out < cap.

Lemma room_value t out F G text : InvA t out ->
  (exists b', F (data t) (List.length out) (cap - List.length out) = Some (Result (List.length text) OK, b') /\ List.length b' = cap /\ seg b' 0 (out ++ text)) ->
  forall alloc rounds, step InvA FailA (print_value alloc (S rounds) F G t) (out ++ text).
Proof.
  intros [[Hs [Hu [Hn He]]] HL] [b' [E [L S]]] alloc rounds. unfold print_value. rewrite He. cbn [attempt].
  unfold remaining. rewrite Hu, HL, E. cbv beta iota. cbn [r_ec]. cbv beta iota. cbn [negb r_ec r_size].
  eexists _, _. split; [reflexivity|]. cbv beta iota. unfold InvA, holds, need, advance, with_data. cbn [data used necessary ec].
  rewrite app_length, Hu, Hn. auto.
Qed.
Lemma litA alloc t out s : InvA t out -> limitA (out ++ s) -> step InvA FailA (print_literal alloc s t) (out ++ s).
Proof.
  intros [[Hs [Hu [Hn He]]] HL] Lm. unfold limitA in Lm. rewrite app_length in Lm. unfold print_literal, remaining, need. cbn [data used necessary ec].
  rewrite Hu, HL. destruct (Nat.ltb_spec (cap - List.length out) (List.length s)) as [C|_]; [lia|].
  rewrite Nat.min_l by lia. rewrite firstn_all.
  destruct (store_some (data t) (List.length out) s) as [b' [E [L [S K]]]]; [lia|]. rewrite E. cbv beta iota.
  eexists _, _. split; [reflexivity|]. cbv beta iota. unfold InvA, holds, advance, with_data. cbn [data used necessary ec].
  rewrite app_length, L. split; [|exact HL]. split; [|rewrite Hn; auto].
  apply seg_app. split; [apply K; [exact Hs|left; lia]|exact S].
Qed.
Lemma argA alloc rounds t out v f text : InvA t out -> printable v f -> shows f v text -> limitA (out ++ text) -> step InvA FailA (print_arg alloc (S rounds) v f t) (out ++ text).
Proof.
  intros I P SH Lm. unfold limitA in Lm. rewrite app_length in Lm. pose proof I as I0. destruct I0 as [[Hs [Hu [Hn He]]] HL].
  destruct (arg_cases alloc (S rounds) v f text P SH) as [[neg [strip [raw [digits [E [X [R [-> _]]]]]]]]|[[s [E [U [-> _]]]]|[[s [E [U ->]]]|[c [-> [FC ->]]]]]].
  - rewrite E. apply (room_value t out _ _ (decorate f neg digits) I). rewrite <- HL. apply print_number_fits; try assumption. lia.
  - rewrite E. apply (room_value t out _ _ s I). rewrite <- HL. apply print_string_fits; try assumption. lia.
  - rewrite E. unfold print_string_value.
    assert (BN : (if (0 <? f_width f)%Z then List.length s + (Z.to_nat (f_width f) - List.length s) else List.length s) = List.length s).
    { unfold unpadded in U. destruct (0 <? f_width f)%Z; lia. }
    rewrite BN. unfold need, remaining. cbn [data used necessary ec]. rewrite He, Hu, HL.
    destruct (Nat.ltb_spec (cap - List.length out) (List.length s)) as [C|_]; [lia|]. rewrite <- HL.
    destruct (print_string_fits f s (data t) out U Hs) as [b' [E1 [L1 S1]]]; [lia|]. rewrite E1. cbv beta iota. cbn [r_ec r_size]. cbv beta iota.
    eexists _, _. split; [reflexivity|]. cbv beta iota. unfold InvA, holds, advance, with_data. cbn [data used necessary ec]. rewrite app_length.
    split; [|lia]. split; [exact S1|]. rewrite Hn. auto.
  - cbn [print_arg]. rewrite FC. unfold need, remaining. cbn [data used necessary ec List.length] in *. rewrite Hu, HL.
    destruct (Nat.eqb_spec (cap - List.length out) 0) as [C|_]; [lia|].
    destruct (store_some (data t) (List.length out) [Z.to_N (c mod 256)]) as [b' [E1 [L1 [S1 K1]]]]; [cbn [List.length]; lia|]. rewrite E1. cbv beta iota.
    eexists _, _. split; [reflexivity|]. cbv beta iota. unfold InvA, holds, advance, with_data. cbn [data used necessary ec]. rewrite app_length. cbn [List.length].
    split; [|lia]. split; [apply seg_app; split; [apply K1; [exact Hs|left; lia]|exact S1]|]. rewrite Hn. auto.
Qed.
End Room.

(** ** A fixed buffer *)
Section Fixed.
Variable cap : nat.
Definition InvB (t : printer) (out : list N) : Prop :=
  List.length (data t) = cap /\ used t <= cap /\ necessary t = List.length out
  /\ ((ec t = OK /\ seg (data t) 0 out /\ used t = List.length out) \/ (ec t = ERANGE /\ cap <= List.length out)).
Definition limitB (out : list N) : Prop := True.
Lemma InvB_holds t out : holds t out -> List.length (data t) = cap -> InvB t out.
Proof. intros H L. pose proof (holds_le _ _ H). destruct H as [S [U [N E]]]. split; [exact L|]. split; [lia|]. split; [exact N|]. left. split; [exact E|]. split; assumption. Qed.
Lemma holds_InvB t out : InvB t out -> ec t = OK -> InvA cap t out.
Proof. intros [L [_ [N [[E [S U]]|[E _]]]]] H; [|congruence]. split; [|exact L]. split; [exact S|]. split; [exact U|]. split; [exact N|exact E]. Qed.
Lemma step_AB o text : step (InvA cap) FailA o text -> step InvB FailA o text.
Proof. intros [go [t' [E R]]]. exists go, t'. split; [exact E|]. destruct go; [|exact R]. destruct R as [H L]. apply InvB_holds; assumption. Qed.

Lemma litB t out s : InvB t out -> limitB (out ++ s) -> step InvB FailA (print_literal None s t) (out ++ s).
Proof.
  intros [HL [Hle [Hn HE]]] _. unfold print_literal, remaining, need. cbn [data used necessary ec]. rewrite HL.
  destruct (Nat.ltb_spec (cap - used t) (List.length s)) as [C|C].
  - eexists _, _. split; [reflexivity|]. cbv beta iota. unfold InvB, with_ec. cbn [data used necessary ec]. rewrite app_length.
    split; [exact HL|]. split; [exact Hle|]. split; [lia|]. right. split; [reflexivity|]. destruct HE as [[_ [_ U]]|[_ G]]; lia.
  - rewrite Nat.min_l by lia. rewrite firstn_all.
    destruct (store_some (data t) (used t) s) as [b' [E [L [S K]]]]; [lia|]. rewrite E. cbv beta iota.
    eexists _, _. split; [reflexivity|]. cbv beta iota. unfold InvB, advance, with_data. cbn [data used necessary ec]. rewrite app_length.
    split; [lia|]. split; [lia|]. split; [lia|]. destruct HE as [[E1 [E2 E3]]|[E1 E2]].
    + left. split; [exact E1|]. split; [|lia]. rewrite E3 in *. apply seg_app. split; [apply K; [exact E2|left; lia]|exact S].
    + right. split; [exact E1|]. lia.
Qed.
Lemma measure_number f raw d : bare f false -> raw <> [] -> List.length raw < 200 ->
  exists d', get_print_size (print_number f false false raw) d = Some (Result (List.length raw) OK, d') /\ List.length d' = List.length d.
Proof.
  intros B NR L. unfold get_print_size.
  assert (Fit : forall b, List.length raw < List.length b -> exists b', print_number f false false raw b 0 (List.length b) = Some (Result (List.length raw) OK, b') /\ List.length b' = List.length b).
  { intros b Hb. pose proof (bare_decorate f raw B NR) as D.
    destruct (print_number_fits f false false raw raw b [] (bare_prefix_ok _ _ B) eq_refl) as [b' [E [L' _]]]; [apply seg_nil; lia|rewrite D; exact Hb|].
    rewrite D in E. cbn [List.length] in E. rewrite Nat.sub_0_r in E. exists b'. split; [exact E|exact L']. }
  destruct (Nat.ltb_spec (List.length d) 200) as [C|C].
  - destruct (Fit (repeat 205%N 200)) as [b' [E _]]; [rewrite repeat_length; exact L|]. rewrite repeat_length in E. rewrite E. cbv beta iota. exists d. split; reflexivity.
  - apply Fit. lia.
Qed.
(** printing what does not fit *)
Lemma fixed_value t out F G text : InvB t out ->
  (ec t = OK -> List.length out + List.length text < cap -> exists b', F (data t) (List.length out) (cap - List.length out) = Some (Result (List.length text) OK, b') /\ List.length b' = cap /\ seg b' 0 (out ++ text)) ->
  (ec t = OK -> cap <= List.length out + List.length text ->
     (exists b', F (data t) (List.length out) (cap - List.length out) = Some (Result (List.length text) OK, b') /\ List.length b' = cap /\ seg b' 0 (out ++ text))
     \/ (exists b', F (data t) (List.length out) (cap - List.length out) = Some (Result (List.length text) ERANGE, b') /\ List.length b' = cap)
     \/ exists n, F (data t) (List.length out) (cap - List.length out) = Some (Result n EOVERFLOW, data t)) ->
  (forall d, exists d', G d = Some (Result (List.length text) OK, d') /\ List.length d' = List.length d) ->
  step InvB FailA (print_value None 1 F G t) (out ++ text).
Proof.
  intros I H1 H2 HG. pose proof I as I0. destruct I0 as [HL [Hle [Hn HE]]].
  destruct HE as [[He [Hs Hu]]|[He Hc]].
  - assert (A : InvA cap t out) by (split; [split; [exact Hs|split; [exact Hu|split; [exact Hn|exact He]]]|exact HL]).
    destruct (Nat.lt_ge_cases (List.length out + List.length text) cap) as [C|C].
    { apply step_AB. apply room_value; [exact A|apply H1; assumption]. }
    destruct (H2 He C) as [Q|[[b' [E L]]|[n E]]].
    { apply step_AB. apply room_value; [exact A|exact Q]. }
    + unfold print_value. rewrite He. cbn [attempt]. unfold remaining. rewrite Hu, HL, E. cbv beta iota. cbn [r_ec]. cbv beta iota. cbn [negb r_ec r_size].
      eexists _, _. split; [reflexivity|]. cbv beta iota. unfold InvB, need, with_ec, with_data. cbn [data used necessary ec]. rewrite app_length.
      split; [exact L|]. split; [lia|]. split; [lia|]. right. split; [reflexivity|lia].
    + unfold print_value. rewrite He. cbn [attempt]. unfold remaining. rewrite Hu, HL, E. cbv beta iota. cbn [r_ec]. cbv beta iota. cbn [negb r_ec r_size].
      unfold with_ec, with_data. cbn [data used necessary ec]. destruct (HG (data t)) as [d' [EG LG]]. rewrite EG. cbv beta iota. cbn [r_ec r_size]. cbv beta iota.
      eexists _, _. split; [reflexivity|]. cbv beta iota. unfold InvB, need. cbn [data used necessary ec]. rewrite app_length.
      split; [lia|]. split; [lia|]. split; [lia|]. right. split; [reflexivity|lia].
  - unfold print_value. rewrite He. destruct (HG (data t)) as [d' [EG LG]]. rewrite EG. cbv beta iota. cbn [r_ec r_size]. cbv beta iota.
    eexists _, _. split; [reflexivity|]. cbv beta iota. unfold InvB, need, with_data. cbn [data used necessary ec]. rewrite app_length.
    split; [lia|]. split; [lia|]. split; [lia|]. right. split; [exact He|lia].
Qed.
Lemma argB t out v f text : InvB t out -> measurable v f -> shows f v text -> limitB (out ++ text) -> step InvB FailA (print_arg None 1 v f t) (out ++ text).
Proof.
  intros I M S _. pose proof (proj1 (proj1 M)) as P. pose proof I as I0. destruct I0 as [HL [Hle [Hn HE]]].
  destruct (arg_cases None 1 v f text P S) as [[neg [strip [raw [digits [E [X [R [-> [PL ME]]]]]]]]]|[[s [E [U [-> _]]]]|[[s [E [U ->]]]|[c [-> [FC ->]]]]]].
  - destruct (PL (proj1 M)) as [B [NR ->]]. specialize (ME M). unfold raw_of in R. subst digits.
    assert (neg = false) by apply B. subst neg. pose proof (bare_decorate f raw B NR) as D. rewrite E. rewrite D.
    apply fixed_value; [exact I| | |].
    + intros He C. destruct (holds_InvB _ _ I He) as [[Hs _] _]. rewrite <- HL.
      destruct (print_number_fits f false false raw raw (data t) out X eq_refl Hs) as [b' [E1 [L1 S1]]]; [rewrite D; lia|]. rewrite D in E1, S1.
      exists b'. split; [exact E1|]. split; [exact L1|exact S1].
    + intros He C. destruct (holds_InvB _ _ I He) as [[Hs _] _]. right. destruct (Nat.eq_dec (List.length out) cap) as [Q|Q].
      * right. exists 0. rewrite Q, Nat.sub_diag. apply print_number_none.
      * left. destruct (print_number_short f raw (data t) out B NR Hs) as [b' [E1 [L1 _]]]; [destruct Hs; lia|lia|]. rewrite HL in E1. exists b'. split; [exact E1|lia].
    + intros d. apply measure_number; assumption.
  - rewrite E. apply fixed_value; [exact I| | |].
    + intros He C. destruct (holds_InvB _ _ I He) as [[Hs _] _]. rewrite <- HL. apply print_string_fits; try assumption. lia.
    + intros He C. destruct (holds_InvB _ _ I He) as [[Hs _] _]. destruct (Nat.eq_dec (List.length out + List.length s) cap) as [Q|Q].
      * left. rewrite <- HL. apply print_string_fits; try assumption. lia.
      * right. right. eexists. apply print_string_short. destruct Hs as [Hs _]. cbn [Nat.add] in Hs. lia.
    + intros d. exists d. split; reflexivity.
  - rewrite E. unfold print_string_value.
    assert (BN : (if (0 <? f_width f)%Z then List.length s + (Z.to_nat (f_width f) - List.length s) else List.length s) = List.length s).
    { unfold unpadded in U. destruct (0 <? f_width f)%Z; lia. }
    rewrite BN. unfold need, remaining. cbn [data used necessary ec]. destruct HE as [[He [Hs Hu]]|[He Hc]]; rewrite He.
    + rewrite Hu, HL. destruct (Nat.ltb_spec (cap - List.length out) (List.length s)) as [C|C].
      * eexists _, _. split; [reflexivity|]. cbv beta iota. unfold InvB, with_ec. cbn [data used necessary ec]. rewrite app_length.
        split; [exact HL|]. split; [lia|]. split; [lia|]. right. split; [reflexivity|lia].
      * rewrite <- HL. destruct (print_string_fits f s (data t) out U Hs) as [b' [E1 [L1 S1]]]; [lia|]. rewrite E1. cbv beta iota. cbn [r_ec r_size]. cbv beta iota.
        eexists _, _. split; [reflexivity|]. cbv beta iota. unfold InvB, advance, with_data. cbn [data used necessary ec]. rewrite app_length.
        split; [lia|]. split; [lia|]. split; [lia|]. left. split; [reflexivity|]. split; [exact S1|lia].
    + eexists _, _. split; [reflexivity|]. cbv beta iota. unfold InvB. cbn [data used necessary ec]. rewrite app_length.
      split; [exact HL|]. split; [exact Hle|]. split; [lia|]. right. split; [reflexivity|lia].
  - cbn [print_arg]. rewrite FC. unfold need, remaining. cbn [data used necessary ec List.length] in *. rewrite HL.
    destruct (Nat.eqb_spec (cap - used t) 0) as [C|C].
    + eexists _, _. split; [reflexivity|]. cbv beta iota. unfold InvB, with_ec. cbn [data used necessary ec]. rewrite app_length. cbn [List.length].
      split; [exact HL|]. split; [exact Hle|]. split; [lia|]. right. split; [reflexivity|]. destruct HE as [[_ [_ Hu]]|[_ Hc]]; lia.
    + destruct (store_some (data t) (used t) [Z.to_N (c mod 256)]) as [b' [E1 [L1 [S1 K1]]]]; [cbn [List.length]; lia|]. rewrite E1. cbv beta iota.
      eexists _, _. split; [reflexivity|]. cbv beta iota. unfold InvB, advance, with_data. cbn [data used necessary ec]. rewrite app_length. cbn [List.length].
      split; [lia|]. split; [lia|]. split; [lia|]. destruct HE as [[He [Hs Hu]]|[He Hc]].
      * left. split; [exact He|]. split; [|lia]. rewrite Hu in *. apply seg_app. split; [apply K1; [exact Hs|left; lia]|exact S1].
      * right. split; [exact He|lia].
Qed.
End Fixed.

(** ** A growing buffer *)
Section Growing.
Variable a : nat -> option nat.
Hypothesis a_ok : forall n c, a n = Some c -> n <= c.
Definition FailC (t : printer) (out : list N) : Prop :=
  ec t = ENOMEM /\ (exists n, a n = None) /\ exists pre post, out = pre ++ post /\ seg (data t) 0 pre /\ used t = List.length pre.
Definition limitC (out : list N) : Prop := True.
Lemma FailC_app t x y : FailC t x -> FailC t (x ++ y).
Proof. intros [E [Q [pre [post [-> [S U]]]]]]. split; [exact E|]. split; [exact Q|]. exists pre, (post ++ y). rewrite app_assoc. auto. Qed.
Lemma grow_run t out at_least : holds t out ->
  (grow a at_least t = None /\ exists n, a n = None)
  \/ exists t', grow a at_least t = Some t' /\ holds t' out /\ List.length (data t) + 2 <= List.length (data t') /\ at_least <= List.length (data t').
Proof.
  intros H. pose proof (holds_le _ _ H) as HL. destruct H as [Hs [Hu [Hn He]]]. unfold grow.
  set (n := Nat.max (3 * ((List.length (data t) + 2) / 2)) at_least).
  assert (Hn3 : List.length (data t) + 2 <= 3 * ((List.length (data t) + 2) / 2)).
  { pose proof (Nat.div_mod (List.length (data t) + 2) 2 ltac:(lia)). pose proof (Nat.mod_upper_bound (List.length (data t) + 2) 2 ltac:(lia)). lia. }
  destruct (a n) as [c|] eqn:E; [right|left; split; [reflexivity|exists n; exact E]].
  pose proof (a_ok _ _ E) as Hc. eexists. split; [reflexivity|].
  assert (LL : List.length (firstn (used t) (data t) ++ repeat 205%N (c - used t)) = c).
  { rewrite app_length, repeat_length, firstn_length_le by lia. lia. }
  unfold holds. cbn [data used necessary ec]. rewrite LL. split; [|split; lia].
  split; [|split; [exact Hu|split; [exact Hn|exact He]]].
  rewrite Hu. rewrite (seg_firstn _ _ Hs). split; [rewrite Hu, (seg_firstn _ _ Hs) in LL; rewrite LL; lia|]. intros i Hi. cbn [Nat.add]. apply app_nth1. exact Hi.
Qed.
Definition tried (o : option (bool * result * printer)) (out text : list N) : Prop :=
  (exists r t', o = Some (true, r, t') /\ r_ec r = OK /\ r_size r = List.length text /\ seg (data t') 0 (out ++ text) /\ used t' = List.length out /\ necessary t' = List.length out /\ ec t' = OK)
  \/ (exists r t', o = Some (false, r, t') /\ FailC t' out).
Lemma no_memory t out : holds t out -> (exists n, a n = None) -> FailC (with_ec ENOMEM t) out.
Proof. intros [Hs [Hu _]] Q. split; [reflexivity|]. split; [exact Q|]. exists out, []. rewrite app_nil_r. split; [reflexivity|]. split; [exact Hs|exact Hu]. Qed.

Lemma try_ok k F t out text b' : holds t out ->
  F (data t) (List.length out) (List.length (data t) - List.length out) = Some (Result (List.length text) OK, b') -> seg b' 0 (out ++ text) ->
  tried (attempt (Some a) (S k) F t) out text.
Proof.
  intros [Hs [Hu [Hn He]]] E S. left. cbn [attempt]. unfold remaining. rewrite Hu, E. cbv beta iota. cbn [r_ec]. eexists _, _. split; [reflexivity|].
  cbn [r_ec r_size data used necessary ec with_data]. auto 10.
Qed.
Lemma try_grow k F t out text r b' : holds t out -> (r_ec r = EOVERFLOW \/ r_ec r = ERANGE) ->
  F (data t) (List.length out) (List.length (data t) - List.length out) = Some (r, b') -> List.length b' = List.length (data t) -> seg b' 0 out ->
  (forall t', holds t' out -> List.length (data t) + 2 <= List.length (data t') ->
     (r_ec r = ERANGE -> List.length (data t) + r_size r - (List.length (data t) - List.length out) <= List.length (data t')) -> tried (attempt (Some a) k F t') out text) ->
  tried (attempt (Some a) (S k) F t) out text.
Proof.
  intros H HR E L S K. pose proof H as H0. destruct H0 as [Hs [Hu [Hn He]]]. cbn [attempt]. unfold remaining at 1. rewrite Hu, E. cbv beta iota.
  assert (H1 : holds (with_data b' t) out) by (unfold holds, with_data; cbn [data used necessary ec]; auto).
  destruct (grow_run (with_data b' t) out (match r_ec r with ERANGE => List.length (data (with_data b' t)) + r_size r - remaining (with_data b' t) | _ => List.length (data (with_data b' t)) end) H1) as [[G Q]|[t' [G [Ht [G1 G2]]]]].
  - destruct HR as [HR|HR]; rewrite HR in *; rewrite G; right; eexists _, _; (split; [reflexivity|]); apply no_memory; assumption.
  - cbn [with_data data] in G1. rewrite L in G1.
    assert (T : tried (attempt (Some a) k F t') out text).
    { apply K; [exact Ht|exact G1|]. intros Q. rewrite Q in G2. unfold remaining in G2. cbn [with_data data used] in G2. rewrite L, Hu in G2. exact G2. }
    destruct HR as [HR|HR]; rewrite HR in *; rewrite G; exact T.
Qed.
Lemma try_number f raw k t out : bare f false -> raw <> [] -> holds t out -> tried (attempt (Some a) (S (S (S (S k)))) (print_number f false false raw) t) out raw.
Proof.
  intros B NR. pose proof (bare_decorate f raw B NR) as D.
  assert (T1 : forall k t, holds t out -> List.length out + List.length raw < List.length (data t) -> tried (attempt (Some a) (S k) (print_number f false false raw) t) out raw).
  { intros k0 t0 H C. pose proof H as [Hs _].
    destruct (print_number_fits f false false raw raw (data t0) out (bare_prefix_ok _ _ B) eq_refl Hs) as [b' [E [_ S]]]; [rewrite D; exact C|]. rewrite D in E, S.
    eapply try_ok; eassumption. }
  assert (T2 : forall k t, holds t out -> 0 < List.length (data t) - List.length out -> List.length out + List.length raw <= List.length (data t) -> tried (attempt (Some a) (S (S k)) (print_number f false false raw) t) out raw).
  { intros k0 t0 H P C. destruct (Nat.lt_ge_cases (List.length out + List.length raw) (List.length (data t0))) as [C1|C1]; [apply T1; assumption|]. pose proof H as [Hs _].
    destruct (print_number_short f raw (data t0) out B NR Hs) as [b' [E [L S]]]; [lia|exact C1|].
    eapply try_grow; [exact H| |exact E|exact L|exact S|]; [right; reflexivity|]. intros t' H' L' _. apply T1; [exact H'|lia]. }
  assert (T3 : forall k t, holds t out -> 0 < List.length (data t) - List.length out -> tried (attempt (Some a) (S (S (S k))) (print_number f false false raw) t) out raw).
  { intros k0 t0 H P. destruct (Nat.lt_ge_cases (List.length out + List.length raw) (List.length (data t0))) as [C1|C1]; [apply T1; assumption|]. pose proof H as [Hs _].
    destruct (print_number_short f raw (data t0) out B NR Hs) as [b' [E [L S]]]; [lia|exact C1|].
    eapply try_grow; [exact H| |exact E|exact L|exact S|]; [right; reflexivity|]. intros t' H' L' R'. specialize (R' eq_refl). cbn [r_size] in R'. apply T2; [exact H'|lia|lia]. }
  intros H. destruct (Nat.eq_dec (List.length (data t) - List.length out) 0) as [C|C]; [|apply T3; [exact H|lia]].
  eapply try_grow; [exact H| |rewrite C; apply print_number_none|reflexivity|apply H|]; [left; reflexivity|].
  intros t' H' L' _. apply T3; [exact H'|]. pose proof (holds_le _ _ H). lia.
Qed.
Lemma try_string f s : unpadded f (List.length s) -> forall k t out, holds t out -> List.length out + List.length s <= List.length (data t) + 2 * k -> tried (attempt (Some a) (S k) (print_string f s) t) out s.
Proof.
  intros U. induction k as [|k IH]; intros t out H C; pose proof H as [Hs _].
  - destruct (print_string_fits f s (data t) out U Hs) as [b' [E [_ S]]]; [lia|]. eapply try_ok; eassumption.
  - destruct (Nat.le_gt_cases (List.length out + List.length s) (List.length (data t))) as [C1|C1].
    + destruct (print_string_fits f s (data t) out U Hs) as [b' [E [_ S]]]; [exact C1|]. eapply try_ok; eassumption.
    + pose proof (holds_le _ _ H). eapply try_grow; [exact H| |apply print_string_short; lia|reflexivity|exact Hs|]; [left; reflexivity|]. intros t' H' L' _. apply IH; [exact H'|lia].
Qed.
Lemma growing_value k F G t out text : holds t out -> tried (attempt (Some a) k F t) out text -> step holds FailC (print_value (Some a) k F G t) (out ++ text).
Proof.
  intros [_ [_ [_ He]]] T. unfold print_value. rewrite He. destruct T as [[r [t' [E [R1 [R2 [S [U [N E']]]]]]]]|[r [t' [E X]]]]; rewrite E; cbv beta iota; cbn [negb].
  - rewrite R1. eexists _, _. split; [reflexivity|]. cbv beta iota. unfold holds, need, advance. cbn [data used necessary ec]. rewrite app_length, R2, U, N. auto.
  - eexists _, _. split; [reflexivity|]. cbv beta iota. apply FailC_app. exact X.
Qed.
Lemma litC t out s : holds t out -> limitC (out ++ s) -> step holds FailC (print_literal (Some a) s t) (out ++ s).
Proof.
  intros H _. unfold print_literal.
  assert (P : forall t', seg (data t') 0 out -> used t' = List.length out -> necessary t' = List.length out + List.length s -> ec t' = OK -> List.length out + List.length s <= List.length (data t') ->
    step holds FailC (b <- store (data t') (used t') (firstn (Nat.min (List.length s) (remaining t')) s) ;; Some (true, advance (Nat.min (List.length s) (remaining t')) (with_data b t'))) (out ++ s)).
  { intros t' Hs Hu Hn He C. unfold remaining. rewrite Hu. rewrite Nat.min_l by lia. rewrite firstn_all.
    destruct (store_some (data t') (List.length out) s C) as [b' [E [L [S K]]]]. rewrite E. cbv beta iota. eexists _, _. split; [reflexivity|]. cbv beta iota.
    unfold holds, advance, with_data. cbn [data used necessary ec]. rewrite app_length, Hu, Hn. split; [apply seg_app; split; [apply K; [exact Hs|left; lia]|exact S]|auto]. }
  pose proof H as [Hs [Hu [Hn He]]]. unfold remaining at 1. cbn [need data used].
  destruct (Nat.ltb_spec (List.length (data t) - used t) (List.length s)) as [C|C].
  - destruct (grow_run t out (List.length (data t) + List.length s) H) as [[G Q]|[t' [G [[Hs' [Hu' [Hn' He']]] [G1 G2]]]]].
    + assert (G0 : grow a (List.length (data (need (List.length s) t)) + List.length s) (need (List.length s) t) = None).
      { unfold grow in *. cbn [need data used necessary ec] in *. destruct (a _); [discriminate|reflexivity]. }
      unfold need at 1 in G0. cbn [data] in G0. cbn [need data] in *. rewrite G0. eexists _, _. split; [reflexivity|]. cbv beta iota. apply FailC_app.
      split; [reflexivity|]. split; [exact Q|]. exists out, []. rewrite app_nil_r. auto.
    + assert (G0 : grow a (List.length (data (need (List.length s) t)) + List.length s) (need (List.length s) t) = Some (need (List.length s) t')).
      { unfold grow in *. cbn [need data used necessary ec] in *. destruct (a _) as [c|]; [|discriminate]. assert (E : t' = Printer (firstn (used t) (data t) ++ repeat 205%N (c - used t)) (used t) (necessary t) (ec t)) by congruence. subst t'. reflexivity. }
      cbn [need data] in *. rewrite G0. apply P; unfold need; cbn [data used necessary ec]; try assumption; [lia|]. pose proof (holds_le _ _ H). lia.
  - apply (P (need (List.length s) t)); unfold need; cbn [data used necessary ec]; try assumption; [lia|]. pose proof (holds_le _ _ H). lia.
Qed.
Lemma grow_need at_least n t : grow a at_least (need n t) = option_map (need n) (grow a at_least t).
Proof. unfold grow. cbn [need data used necessary ec]. destruct (a _); reflexivity. Qed.
Lemma argC rounds t out v f text : 4 <= rounds -> holds t out -> plain v f -> shows f v text -> limitC (out ++ text) -> step holds FailC (print_arg (Some a) rounds v f t) (out ++ text).
Proof.
  intros HR H M SH _. pose proof (proj1 M) as P. pose proof H as [Hs [Hu [Hn He]]]. pose proof (holds_le _ _ H) as HL.
  destruct rounds as [|[|[|[|k]]]]; try lia.
  destruct (arg_cases (Some a) (S (S (S (S k)))) v f text P SH) as [[neg [strip [raw [digits [E [X [R [-> [PL _]]]]]]]]]|[[s [E [U [-> L5]]]]|[[s [E [U ->]]]|[c [-> [FC ->]]]]]].
  - destruct (PL M) as [B [NR ->]]. unfold raw_of in R. subst digits. assert (neg = false) by apply B. subst neg. rewrite E, (bare_decorate f raw B NR).
    apply growing_value; [exact H|]. apply try_number; assumption.
  - rewrite E. apply growing_value; [exact H|]. apply try_string; [exact U|exact H|]. lia.
  - rewrite E. unfold print_string_value.
    assert (BN : (if (0 <? f_width f)%Z then List.length s + (Z.to_nat (f_width f) - List.length s) else List.length s) = List.length s).
    { unfold unpadded in U. destruct (0 <? f_width f)%Z; lia. }
    rewrite BN.
    assert (Go : forall t', seg (data t') 0 out -> used t' = List.length out -> necessary t' = List.length out + List.length s -> ec t' = OK -> List.length out + List.length s <= List.length (data t') ->
      step holds FailC (' (r, b) <- print_string f s (data t') (used t') (remaining t') ;; match r_ec r with OK => Some (true, advance (r_size r) (with_data b t')) | e => Some (false, with_ec e (with_data b t')) end) (out ++ s)).
    { intros t' Hs' Hu' Hn' He' C. unfold remaining. rewrite Hu'. destruct (print_string_fits f s (data t') out U Hs' C) as [b' [E1 [L1 S1]]]. rewrite E1. cbv beta iota. cbn [r_ec r_size].
      eexists _, _. split; [reflexivity|]. cbv beta iota. unfold holds, advance, with_data. cbn [data used necessary ec]. rewrite app_length, Hu', Hn'. auto. }
    change (ec (need (List.length s) t)) with (ec t). rewrite He. unfold remaining at 1. cbn [need data used].
    destruct (Nat.ltb_spec (List.length (data t) - used t) (List.length s)) as [C|C].
    + rewrite (grow_need _ (List.length s)). destruct (grow_run t out (List.length (data t) + (List.length s - remaining t)) H) as [[G Q]|[t' [G [[Hs' [Hu' [Hn' He']]] [G1 G2]]]]].
      * change (remaining (need (List.length s) t)) with (remaining t). change (data (need (List.length s) t)) with (data t). rewrite G. cbn [option_map].
        eexists _, _. split; [reflexivity|]. cbv beta iota. apply FailC_app. split; [reflexivity|]. split; [exact Q|]. exists out, []. rewrite app_nil_r. auto.
      * change (remaining (need (List.length s) t)) with (remaining t). change (data (need (List.length s) t)) with (data t). rewrite G. cbn [option_map].
        apply Go; unfold need; cbn [data used necessary ec]; try assumption; [lia|]. unfold remaining in G2. lia.
    + apply (Go (need (List.length s) t)); unfold need; cbn [data used necessary ec]; try assumption; lia.
  - cbn [print_arg]. rewrite FC.
    assert (Go : forall t', seg (data t') 0 out -> used t' = List.length out -> necessary t' = List.length out + 1 -> ec t' = OK -> List.length out + 1 <= List.length (data t') ->
      step holds FailC (b <- store (data t') (used t') [Z.to_N (c mod 256)] ;; Some (true, advance 1 (with_data b t'))) (out ++ [Z.to_N (c mod 256)])).
    { intros t' Hs' Hu' Hn' He' C. rewrite Hu'. destruct (store_some (data t') (List.length out) [Z.to_N (c mod 256)]) as [b' [E1 [L1 [S1 K1]]]]; [cbn [List.length]; lia|]. rewrite E1. cbv beta iota.
      eexists _, _. split; [reflexivity|]. cbv beta iota. unfold holds, advance, with_data. cbn [data used necessary ec]. rewrite app_length, Hu', Hn'. cbn [List.length].
      split; [apply seg_app; split; [apply K1; [exact Hs'|left; lia]|exact S1]|auto]. }
    unfold remaining at 1. cbn [need data used]. destruct (Nat.eqb_spec (List.length (data t) - used t) 0) as [C|C].
    + rewrite (grow_need _ 1). destruct (grow_run t out (List.length (data t)) H) as [[G Q]|[t' [G [[Hs' [Hu' [Hn' He']]] [G1 G2]]]]].
      * change (data (need 1 t)) with (data t). rewrite G. cbn [option_map]. eexists _, _. split; [reflexivity|]. cbv beta iota. apply FailC_app.
        split; [reflexivity|]. split; [exact Q|]. exists out, []. rewrite app_nil_r. auto.
      * change (data (need 1 t)) with (data t). rewrite G. cbn [option_map]. apply Go; unfold need; cbn [data used necessary ec]; try assumption; lia.
    + apply (Go (need 1 t)); unfold need; cbn [data used necessary ec]; try assumption; lia.
Qed.
End Growing.
