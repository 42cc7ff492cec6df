(** Lemmas about url encoding and decoding. *)
From Coq Require Import Arith NArith String List Bool Lia.
From Coq Require Import ZifyBool ZifyNat ZifyN.
From Verif Require Import Base CodecModel CodecSpec CodecProofs.
Import ListNotations.
Local Open Scope N_scope.

(** [cs] written at [i], cut off at [osz]. *)
Definition clip (out : list N) (osz i : nat) (cs : list N) : list N := splice out i (firstn (osz - i) cs).

Lemma clip_length : forall out osz i cs, (osz <= length out)%nat -> length (clip out osz i cs) = length out.
Proof.
  intros out osz i cs H. unfold clip. destruct (le_lt_dec osz i) as [Q|Q].
  - replace (osz - i)%nat with 0%nat by lia. cbn [firstn]. rewrite splice_nil. reflexivity.
  - apply splice_length. rewrite firstn_length. lia.
Qed.
Lemma clip_nil : forall out osz i, clip out osz i [] = out.
Proof. intros. unfold clip. rewrite firstn_nil. apply splice_nil. Qed.
Lemma put1_clip : forall out osz i c, (osz <= length out)%nat -> put1 out osz i c = Some (clip out osz i [c]).
Proof.
  intros out osz i c H. unfold put1, clip. destruct (Nat.ltb_spec i osz) as [Q|Q].
  - replace (osz - i)%nat with (S (osz - i - 1)) by lia. cbn [firstn]. rewrite firstn_nil. apply write_splice. lia.
  - replace (osz - i)%nat with 0%nat by lia. cbn [firstn]. rewrite splice_nil. reflexivity.
Qed.
Lemma clip_at : forall out osz i a j b, (osz <= length out)%nat -> j = (i + length a)%nat -> clip (clip out osz i a) osz j b = clip out osz i (a ++ b).
Proof.
  intros out osz i a j b H ->. unfold clip. rewrite firstn_app. destruct (le_lt_dec (i + length a) osz) as [Q|Q].
  - rewrite (firstn_all2 a) by lia. replace (osz - i - length a)%nat with (osz - (i + length a))%nat by lia.
    apply splice_splice. rewrite firstn_length. lia.
  - replace (osz - (i + length a))%nat with 0%nat by lia. replace (osz - i - length a)%nat with 0%nat by lia.
    cbn [firstn]. rewrite splice_nil, app_nil_r. reflexivity.
Qed.

Definition enc (c : N) : list N :=
  if url_plain c then [c] else [37; hex_digit (N.land (N.shiftr c 4) 15); hex_digit (N.land c 15)].

Lemma url_encode_ok : forall inp oi out osz, (osz <= length out)%nat ->
  url_encode inp oi out osz = Some ((oi + length (flat_map enc inp))%nat, clip out osz oi (flat_map enc inp)).
Proof.
  induction inp as [|c inp IH]; intros oi out osz H; cbn [url_encode flat_map].
  - cbn [length]. rewrite Nat.add_0_r, clip_nil. reflexivity.
  - unfold enc at 1 3. destruct (url_plain c).
    + rewrite put1_clip by exact H. rewrite IH by (rewrite clip_length; exact H). rewrite clip_at by (try exact H; cbn [length]; lia).
      rewrite app_length. cbn [length app]. f_equal. f_equal. lia.
    + rewrite put1_clip by exact H. rewrite put1_clip by (rewrite clip_length; exact H). rewrite clip_at by (try exact H; cbn [length]; lia).
      rewrite put1_clip by (rewrite clip_length; exact H). rewrite clip_at by (try exact H; cbn [length app]; lia).
      rewrite IH by (rewrite clip_length; exact H). rewrite clip_at by (try exact H; cbn [length app]; lia).
      rewrite app_length. cbn [length app]. f_equal. f_equal. lia.
Qed.

Lemma plain_unreserved : forall c, url_plain c = true <-> In c unreserved.
Proof.
  intros c. split.
  - intros H. assert (Hc : c < 256) by (unfold url_plain in H; lia).
    pose proof (all1 256 (fun c => implb (url_plain c) (existsb (N.eqb c) unreserved)) ltac:(vm_compute; reflexivity) c Hc) as P.
    cbv beta in P. rewrite H in P. cbn [implb] in P. apply existsb_exists in P. destruct P as (x & I & E). apply N.eqb_eq in E. subst. exact I.
  - intros H. assert (P : forallb url_plain unreserved = true) by (vm_compute; reflexivity). rewrite forallb_forall in P. apply P. exact H.
Qed.

Lemma hex_of_lt : forall c v, hex_of c v -> v < 16.
Proof.
  intros c v H.
  assert (Q : (N.to_nat v < 16)%nat); [|lia]. destruct H as [H|H].
  - apply (proj1 (nth_error_Some hex_upper (N.to_nat v))). rewrite H. discriminate.
  - apply (proj1 (nth_error_Some hex_lower (N.to_nat v))). rewrite H. discriminate.
Qed.
Lemma hex_of_value : forall c v, hex_of c v -> hex_value c = Some v.
Proof.
  intros c v H. pose proof (hex_of_lt c v H) as L.
  pose proof (all1 16 (fun v =>
    match nth_error hex_upper (N.to_nat v), nth_error hex_lower (N.to_nat v) with
    | Some a, Some b => match hex_value a, hex_value b with Some x, Some y => (x =? v) && (y =? v) | _, _ => false end
    | _, _ => false end) ltac:(vm_compute; reflexivity) v L) as P. cbv beta in P.
  destruct (nth_error hex_upper (N.to_nat v)) as [a|] eqn:Ea; [|discriminate].
  destruct (nth_error hex_lower (N.to_nat v)) as [b|] eqn:Eb; [|discriminate].
  destruct (hex_value a) as [x|] eqn:Xa; [|discriminate]. destruct (hex_value b) as [y|] eqn:Xb; [|discriminate].
  assert (x = v /\ y = v) as [-> ->] by lia.
  destruct H as [H|H]; congruence.
Qed.
Lemma hex_value_of : forall c v, hex_value c = Some v -> hex_of c v.
Proof.
  intros c v H. assert (Hc : c < 256).
  { unfold hex_value in H. destruct ((48 <=? c) && (c <=? 57)) eqn:A; [lia|]. destruct ((65 <=? c) && (c <=? 70)) eqn:B; [lia|].
    destruct ((97 <=? c) && (c <=? 102)) eqn:C; [lia|discriminate]. }
  pose proof (all1 256 (fun c =>
    match hex_value c with
    | Some v => match nth_error hex_upper (N.to_nat v), nth_error hex_lower (N.to_nat v) with
       | Some a, Some b => (a =? c) || (b =? c) | _, _ => false end
    | None => true end) ltac:(vm_compute; reflexivity) c Hc) as P. cbv beta in P. rewrite H in P.
  unfold hex_of. destruct (nth_error hex_upper (N.to_nat v)) as [a|]; [|discriminate].
  destruct (nth_error hex_lower (N.to_nat v)) as [b|]; [|discriminate].
  apply orb_true_iff in P. destruct P as [P|P]; apply N.eqb_eq in P; [left|right]; congruence.
Qed.

Lemma enc_hex : forall c, byte c ->
  hex_of (hex_digit (N.land (N.shiftr c 4) 15)) (N.land (N.shiftr c 4) 15) /\
  hex_of (hex_digit (N.land c 15)) (N.land c 15) /\ c = 16 * N.land (N.shiftr c 4) 15 + N.land c 15.
Proof.
  intros c H.
  pose proof (all1 256 (fun c =>
    match hex_value (hex_digit (N.land (N.shiftr c 4) 15)), hex_value (hex_digit (N.land c 15)) with
    | Some a, Some b => (a =? N.land (N.shiftr c 4) 15) && (b =? N.land c 15) && (c =? 16 * N.land (N.shiftr c 4) 15 + N.land c 15)
    | _, _ => false end) ltac:(vm_compute; reflexivity) c H) as P. cbv beta in P.
  destruct (hex_value (hex_digit (N.land (N.shiftr c 4) 15))) as [a|] eqn:A; [|discriminate].
  destruct (hex_value (hex_digit (N.land c 15))) as [b|] eqn:B; [|discriminate].
  apply hex_value_of in A. apply hex_value_of in B.
  apply andb_true_iff in P. destruct P as [P1 P3]. apply andb_true_iff in P1. destruct P1 as [P1 P2].
  apply N.eqb_eq in P1, P2, P3. rewrite P1 in A. rewrite P2 in B. repeat split; assumption.
Qed.

Lemma percent_encoded : forall inp, Forall byte inp -> percent_text inp (flat_map enc inp).
Proof.
  induction inp as [|c inp IH]; intros H; [constructor|]. inversion H as [|? ? Hc Hi]; subst. cbn [flat_map]. unfold enc at 1.
  destruct (url_plain c) eqn:P.
  - apply P_plain; [apply plain_unreserved; exact P|apply IH; exact Hi].
  - destruct (enc_hex c Hc) as (A & B & E). rewrite E at 1. apply P_hex; [exact A|exact B|apply IH; exact Hi].
Qed.

Lemma enc_chars : forall inp c, Forall byte inp -> In c (flat_map enc inp) -> In c unreserved \/ c = 37 \/ In c hex_upper.
Proof.
  intros inp c H I. apply in_flat_map in I. destruct I as (x & Ix & I). unfold enc in I. destruct (url_plain x) eqn:P.
  - destruct I as [<-|[]]. left. apply plain_unreserved. exact P.
  - right. destruct I as [<-|I]; [left; reflexivity|right]. rewrite Forall_forall in H. pose proof (H x Ix) as Bx.
    pose proof (all1 256 (fun c => existsb (N.eqb (hex_digit (N.land (N.shiftr c 4) 15))) hex_upper && existsb (N.eqb (hex_digit (N.land c 15))) hex_upper)
      ltac:(vm_compute; reflexivity) x Bx) as Q. cbv beta in Q. apply andb_true_iff in Q. destruct Q as [Q1 Q2].
    apply existsb_exists in Q1. apply existsb_exists in Q2. destruct Q1 as (a & Ia & Ea). destruct Q2 as (b & Ib & Eb).
    apply N.eqb_eq in Ea, Eb. destruct I as [<-|[<-|[]]]; congruence.
Qed.

Lemma hex_pair : forall l r, l < 16 -> r < 16 -> N.land (N.lor (N.shiftl l 4) r) 255 = 16 * l + r.
Proof.
  intros l r Hl Hr.
  pose proof (all2 16 16 (fun l r => N.land (N.lor (N.shiftl l 4) r) 255 =? 16 * l + r) ltac:(vm_compute; reflexivity) l r Hl Hr) as P.
  cbv beta in P. lia.
Qed.

Lemma not_37 : ~ In 37 unreserved.
Proof. intros H. apply plain_unreserved in H. discriminate. Qed.

Lemma url_decode_ok : forall n inp oi out osz, (length inp <= n)%nat -> (osz <= length out)%nat ->
  (exists l, percent_text l inp /\ url_decode inp oi out osz = Some ((oi + length l)%nat, clip out osz oi l)) \/
  ((forall l, ~ percent_text l inp) /\ exists out', url_decode inp oi out osz = Some (0%nat, out') /\ length out' = length out).
Proof.
  induction n as [|n IH]; intros inp oi out osz Hn Ho.
  - destruct inp; [|cbn in Hn; lia]. left. exists []. split; [constructor|]. cbn [url_decode length]. rewrite Nat.add_0_r, clip_nil. reflexivity.
  - destruct inp as [|c inp]; [left; exists []; split; [constructor|]; cbn [url_decode length]; rewrite Nat.add_0_r, clip_nil; reflexivity|].
    cbn [length] in Hn. cbn [url_decode]. destruct (url_plain c) eqn:P.
    + rewrite put1_clip by exact Ho.
      destruct (IH inp (S oi) (clip out osz oi [c]) osz ltac:(lia) ltac:(rewrite clip_length; exact Ho)) as [(l & D & E)|[D (o & E & L)]].
      * left. exists (c :: l). split; [apply P_plain; [apply plain_unreserved; exact P|exact D]|].
        rewrite E, clip_at by (try exact Ho; cbn [length]; lia). cbn [length app]. f_equal. f_equal. lia.
      * right. split.
        -- intros l D'. inversion D'; subst; [eapply D; eassumption|]. apply plain_unreserved in P. exact (not_37 P).
        -- exists o. split; [exact E|]. rewrite L. apply clip_length. exact Ho.
    + destruct (N.eqb_spec c 37) as [->|Q].
      2:{ right. split; [|exists out; split; reflexivity]. intros l D. inversion D; subst; [|congruence].
          match goal with H : In _ unreserved |- _ => apply plain_unreserved in H; congruence end. }
      destruct inp as [|hc inp].
      { right. split; [|exists out; split; reflexivity]. intros l D. inversion D; subst. apply not_37. assumption. }
      destruct inp as [|lc inp].
      { right. split; [|exists out; split; reflexivity]. intros l D. inversion D; subst. apply not_37. assumption. }
      destruct (hex_value hc) as [h|] eqn:Eh.
      2:{ right. split; [|exists out; split; reflexivity]. intros l D. inversion D; subst; [apply not_37; assumption|].
          match goal with H : hex_of hc _ |- _ => apply hex_of_value in H; congruence end. }
      destruct (hex_value lc) as [x|] eqn:El.
      2:{ right. split; [|exists out; split; reflexivity]. intros l D. inversion D; subst; [apply not_37; assumption|].
          match goal with H : hex_of lc _ |- _ => apply hex_of_value in H; congruence end. }
      apply hex_value_of in Eh, El. rewrite hex_pair by (eapply hex_of_lt; eassumption). rewrite put1_clip by exact Ho.
      destruct (IH inp (S oi) (clip out osz oi [16 * h + x]) osz ltac:(cbn [length] in Hn; lia) ltac:(rewrite clip_length; exact Ho)) as [(l & D & E)|[D (o & E & L)]].
      * left. exists (16 * h + x :: l). split; [apply P_hex; assumption|].
        rewrite E, clip_at by (try exact Ho; cbn [length]; lia). cbn [length app]. f_equal. f_equal. lia.
      * right. split.
        -- intros l D'. inversion D'; subst; [apply not_37; assumption|]. eapply D; eassumption.
        -- exists o. split; [exact E|]. rewrite L. apply clip_length. exact Ho.
Qed.

Lemma percent_fun : forall t l1, percent_text l1 t -> forall l2, percent_text l2 t -> l1 = l2.
Proof.
  intros t l1 D. induction D; intros l2 D2; inversion D2; subst.
  - reflexivity.
  - f_equal. apply IHD. assumption.
  - destruct (not_37 H).
  - destruct not_37. assumption.
  - apply hex_of_value in H, H0. repeat match goal with H : hex_of _ _ |- _ => apply hex_of_value in H end.
    assert (h = h0) by congruence. assert (l = l0) by congruence. subst. f_equal. apply IHD. assumption.
Qed.
