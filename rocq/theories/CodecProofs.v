(** Lemmas about the base64 and url codecs. *)
From Coq Require Import Arith NArith String List Bool Lia.
From Coq Require Import ZifyBool ZifyNat ZifyN.
From Verif Require Import Base CodecModel CodecSpec.
Import ListNotations.
Local Open Scope N_scope.

(** ** Buffers *)
Definition splice (out : list N) (i : nat) (cs : list N) : list N := firstn i out ++ cs ++ skipn (i + length cs) out.

Lemma splice_length : forall out i cs, (i + length cs <= length out)%nat -> length (splice out i cs) = length out.
Proof. intros out i cs H. unfold splice. rewrite !app_length, firstn_length, skipn_length. lia. Qed.
Lemma splice_nil : forall out i, splice out i [] = out.
Proof. intros out i. unfold splice. cbn [length app]. rewrite Nat.add_0_r. apply firstn_skipn. Qed.
Lemma skipn_add : forall A (l : list A) a b, skipn a (skipn b l) = skipn (a + b) l.
Proof.
  intros A l a b. revert l. induction b as [|b IH]; intros l; [rewrite Nat.add_0_r; reflexivity|].
  destruct l as [|x l]; [rewrite !skipn_nil; reflexivity|]. rewrite Nat.add_succ_r. cbn [skipn]. apply IH.
Qed.
Lemma splice_splice : forall out i a b, (i + length a + length b <= length out)%nat ->
  splice (splice out i a) (i + length a) b = splice out i (a ++ b).
Proof.
  intros out i a b H.
  assert (L : length (firstn i out ++ a) = (i + length a)%nat) by (rewrite app_length, firstn_length; lia).
  unfold splice. rewrite app_length. rewrite (app_assoc (firstn i out) a). set (P := firstn i out ++ a) in *.
  rewrite firstn_app, skipn_app, L. rewrite (firstn_all2 P) by lia. rewrite Nat.sub_diag. cbn [firstn]. rewrite app_nil_r.
  rewrite (skipn_all2 P) by lia. cbn [app]. rewrite skipn_add. subst P. rewrite <- !app_assoc. do 3 f_equal. f_equal. lia.
Qed.
Lemma splice_at : forall out i a j b, j = (i + length a)%nat -> (i + length a + length b <= length out)%nat ->
  splice (splice out i a) j b = splice out i (a ++ b).
Proof. intros out i a j b -> H. apply splice_splice. exact H. Qed.
Lemma write_splice : forall out i c, (i < length out)%nat -> write out i c = Some (splice out i [c]).
Proof.
  induction out as [|x out IH]; intros i c H; [cbn in H; lia|]. destruct i as [|i]; [reflexivity|].
  cbn [write]. rewrite IH by (cbn in H; lia). reflexivity.
Qed.
Lemma write_list_splice : forall cs out i, (i + length cs <= length out)%nat -> write_list out i cs = Some (splice out i cs).
Proof.
  induction cs as [|c cs IH]; intros out i H; cbn [write_list length] in *; [rewrite splice_nil; reflexivity|].
  rewrite write_splice by lia. rewrite IH by (rewrite splice_length; cbn [length]; lia). f_equal.
  replace (S i) with (i + length [c])%nat by (cbn; lia). rewrite splice_at by (cbn [length]; rewrite ?splice_length by (cbn [length]; lia); lia). reflexivity.
Qed.
Lemma firstn_splice : forall out i cs, (i + length cs <= length out)%nat -> firstn (i + length cs) (splice out i cs) = firstn i out ++ cs.
Proof.
  intros out i cs H. unfold splice. rewrite app_assoc.
  assert (L : length (firstn i out ++ cs) = (i + length cs)%nat) by (rewrite app_length, firstn_length; lia).
  rewrite <- L at 1. rewrite firstn_app, firstn_all, Nat.sub_diag. cbn [firstn]. apply app_nil_r.
Qed.

Lemma put_fits : forall out osz i cs, (osz <= length out)%nat -> (i + length cs < osz)%nat -> put out osz i cs = Some (splice out i cs).
Proof.
  intros out osz i cs H1 H2. unfold put. destruct (Nat.ltb_spec (i + length cs) osz) as [_|Q]; [|lia].
  apply write_list_splice. lia.
Qed.
Lemma put_some : forall out osz i cs, (osz <= length out)%nat -> exists out', put out osz i cs = Some out' /\ length out' = length out.
Proof.
  intros out osz i cs H1. unfold put. destruct (Nat.ltb_spec (i + length cs) osz) as [Q|_].
  - exists (splice out i cs). split; [apply write_list_splice; lia|apply splice_length; lia].
  - exists out. split; reflexivity.
Qed.

(** ** Exhaustive facts about single bytes and groups *)
Definition below (n : nat) : list N := map N.of_nat (seq 0 n).
Lemma below_in : forall n x, x < N.of_nat n -> In x (below n).
Proof. intros n x H. unfold below. apply in_map_iff. exists (N.to_nat x). split; [lia|apply in_seq; lia]. Qed.
Lemma all1 : forall n (f : N -> bool), forallb f (below n) = true -> forall x, x < N.of_nat n -> f x = true.
Proof. intros n f H x Hx. rewrite forallb_forall in H. apply H. apply below_in. exact Hx. Qed.
Lemma all2 : forall n k (f : N -> N -> bool), forallb (fun x => forallb (f x) (below k)) (below n) = true ->
  forall x y, x < N.of_nat n -> y < N.of_nat k -> f x y = true.
Proof.
  intros n k f H x y Hx Hy. apply (all1 k (f x)); [|exact Hy].
  apply (all1 n (fun x => forallb (f x) (below k)) H x Hx).
Qed.
Definition bits_eqb (a b : list bool) : bool := if list_eq_dec Bool.bool_dec a b then true else false.
Lemma bits_eqb_eq : forall a b, bits_eqb a b = true -> a = b.
Proof. intros a b H. unfold bits_eqb in H. destruct (list_eq_dec Bool.bool_dec a b); [assumption|discriminate]. Qed.

Definition i0 (a : N) : N := N.shiftr a 2.
Definition i1 (a b : N) : N := N.lor (N.shiftl (N.land a 3) 4) (N.shiftr b 4).
Definition i2 (b c : N) : N := N.lor (N.shiftl (N.land b 15) 2) (N.shiftr c 6).
Definition i3 (c : N) : N := N.land c 63.

Lemma i0_ok : forall a, byte a -> i0 a < 64 /\ bits 6 (i0 a) = firstn 6 (bits 8 a).
Proof.
  intros a H. pose proof (all1 256 (fun a => (i0 a <? 64) && bits_eqb (bits 6 (i0 a)) (firstn 6 (bits 8 a))) ltac:(vm_compute; reflexivity) a H) as P.
  cbv beta in P. apply andb_true_iff in P. destruct P as [P Q]. split; [lia|apply bits_eqb_eq; exact Q].
Qed.
Lemma i1_ok : forall a b, byte a -> byte b -> i1 a b < 64 /\ bits 6 (i1 a b) = skipn 6 (bits 8 a) ++ firstn 4 (bits 8 b).
Proof.
  intros a b Ha Hb.
  pose proof (all2 256 256 (fun a b => (i1 a b <? 64) && bits_eqb (bits 6 (i1 a b)) (skipn 6 (bits 8 a) ++ firstn 4 (bits 8 b))) ltac:(vm_compute; reflexivity) a b Ha Hb) as P.
  cbv beta in P. apply andb_true_iff in P. destruct P as [P Q]. split; [lia|apply bits_eqb_eq; exact Q].
Qed.
Lemma i2_ok : forall a b, byte a -> byte b -> i2 a b < 64 /\ bits 6 (i2 a b) = skipn 4 (bits 8 a) ++ firstn 2 (bits 8 b).
Proof.
  intros a b Ha Hb.
  pose proof (all2 256 256 (fun a b => (i2 a b <? 64) && bits_eqb (bits 6 (i2 a b)) (skipn 4 (bits 8 a) ++ firstn 2 (bits 8 b))) ltac:(vm_compute; reflexivity) a b Ha Hb) as P.
  cbv beta in P. apply andb_true_iff in P. destruct P as [P Q]. split; [lia|apply bits_eqb_eq; exact Q].
Qed.
Lemma i3_ok : forall a, byte a -> i3 a < 64 /\ bits 6 (i3 a) = skipn 2 (bits 8 a).
Proof.
  intros a H. pose proof (all1 256 (fun a => (i3 a <? 64) && bits_eqb (bits 6 (i3 a)) (skipn 2 (bits 8 a))) ltac:(vm_compute; reflexivity) a H) as P.
  cbv beta in P. apply andb_true_iff in P. destruct P as [P Q]. split; [lia|apply bits_eqb_eq; exact Q].
Qed.
Lemma byte0_ok : forall a b, a < 64 -> b < 64 -> byte0 a b < 256 /\ bits 8 (byte0 a b) = bits 6 a ++ firstn 2 (bits 6 b).
Proof.
  intros a b Ha Hb.
  pose proof (all2 64 64 (fun a b => (byte0 a b <? 256) && bits_eqb (bits 8 (byte0 a b)) (bits 6 a ++ firstn 2 (bits 6 b))) ltac:(vm_compute; reflexivity) a b Ha Hb) as P.
  cbv beta in P. apply andb_true_iff in P. destruct P as [P Q]. split; [lia|apply bits_eqb_eq; exact Q].
Qed.
Lemma byte1_ok : forall a b, a < 64 -> b < 64 -> byte1 a b < 256 /\ bits 8 (byte1 a b) = skipn 2 (bits 6 a) ++ firstn 4 (bits 6 b).
Proof.
  intros a b Ha Hb.
  pose proof (all2 64 64 (fun a b => (byte1 a b <? 256) && bits_eqb (bits 8 (byte1 a b)) (skipn 2 (bits 6 a) ++ firstn 4 (bits 6 b))) ltac:(vm_compute; reflexivity) a b Ha Hb) as P.
  cbv beta in P. apply andb_true_iff in P. destruct P as [P Q]. split; [lia|apply bits_eqb_eq; exact Q].
Qed.
Lemma byte2_ok : forall a b, a < 64 -> b < 64 -> byte2 a b < 256 /\ bits 8 (byte2 a b) = skipn 4 (bits 6 a) ++ bits 6 b.
Proof.
  intros a b Ha Hb.
  pose proof (all2 64 64 (fun a b => (byte2 a b <? 256) && bits_eqb (bits 8 (byte2 a b)) (skipn 4 (bits 6 a) ++ bits 6 b)) ltac:(vm_compute; reflexivity) a b Ha Hb) as P.
  cbv beta in P. apply andb_true_iff in P. destruct P as [P Q]. split; [lia|apply bits_eqb_eq; exact Q].
Qed.

Definition of_bits (l : list bool) : N := fold_left (fun acc b => 2 * acc + b2n b) l 0.
Lemma of_bits_8 : forall a, byte a -> of_bits (bits 8 a) = a.
Proof.
  intros a H. pose proof (all1 256 (fun a => of_bits (bits 8 a) =? a) ltac:(vm_compute; reflexivity) a H) as P. cbv beta in P. lia.
Qed.
Lemma bits8_inj : forall a b, byte a -> byte b -> bits 8 a = bits 8 b -> a = b.
Proof. intros a b Ha Hb E. rewrite <- (of_bits_8 a Ha), <- (of_bits_8 b Hb), E. reflexivity. Qed.
Lemma bits_length : forall k n, length (bits k n) = k.
Proof. induction k as [|k IH]; intros n; cbn [bits length]; [reflexivity|rewrite IH; reflexivity]. Qed.

(** ** Encoding *)
Section Chars.
Variable chars : list N.
Hypothesis Hlen : length chars = 64%nat.
Definition letter (x : N) : N := nth (N.to_nat x) chars 0.

Lemma letter_ok : forall x, x < 64 -> nth_error chars (N.to_nat x) = Some (letter x).
Proof using Hlen. intros x H. unfold letter. apply nth_error_nth'. lia. Qed.

(** The groups of the input. *)
Fixpoint groups (inp : list N) : list N :=
  match inp with
  | a :: b :: c :: rest => i0 a :: i1 a b :: i2 b c :: i3 c :: groups rest
  | [a; b] => [i0 a; i1 a b; i2 b 0]
  | [a] => [i0 a; i1 a 0]
  | [] => []
  end.
Definition pads (n : nat) : nat := match (n mod 3)%nat with 0 => 0 | 1 => 2 | _ => 1 end%nat.
Definition text (pad : bool) (inp : list N) : list N :=
  map letter (groups inp) ++ (if pad then repeat 61 (pads (length inp)) else []).

Lemma list3_ind : forall (P : list N -> Prop), P [] -> (forall a, P [a]) -> (forall a b, P [a; b]) ->
  (forall a b c r, P r -> P (a :: b :: c :: r)) -> forall l, P l.
Proof using. clear.
  intros P H0 H1 H2 H3 l. assert (G : forall n l, (length l <= n)%nat -> P l).
  { induction n as [|n IH]; intros [|a [|b [|c r]]] L; auto; cbn [length] in L; try lia. apply H3. apply IH. lia. }
  apply (G (length l)). lia.
Qed.

Lemma pads_block : forall n, pads (S (S (S n))) = pads n.
Proof using. clear. intros n. unfold pads. replace (S (S (S n))) with (n + 1 * 3)%nat by lia. rewrite Nat.mod_add by lia. reflexivity. Qed.

Lemma text_block : forall pad a b c rest, text pad (a :: b :: c :: rest) =
  [letter (i0 a); letter (i1 a b); letter (i2 b c); letter (i3 c)] ++ text pad rest.
Proof using. clear.
  intros pad a b c rest. unfold text. cbn [groups map length app]. rewrite pads_block. reflexivity.
Qed.

Lemma i2_0 : forall b, i2 b 0 = N.shiftl (N.land b 15) 2.
Proof using. clear. intros b. unfold i2. rewrite N.shiftr_0_l, N.lor_0_r. reflexivity. Qed.
Lemma byte_0 : byte 0.
Proof using. clear. unfold byte. lia. Qed.

(** With more room than needed, the complete text is written. *)
Lemma encode_ok : forall pad inp oi out osz, Forall byte inp -> (osz <= length out)%nat ->
  (oi + length (text pad inp) < osz)%nat ->
  encode_chars chars pad inp oi out osz = Some (oi + length (text pad inp), splice out oi (text pad inp))%nat.
Proof using Hlen.
  intros pad inp. induction inp as [|a|a b|a b c r IH] using list3_ind; intros oi out osz Hb Ho Hl.
  - cbn [encode_chars]. destruct pad; cbn; rewrite splice_nil, Nat.add_0_r; reflexivity.
  - inversion Hb as [|? ? Ba _]; subst. cbn [encode_chars]. unfold encode_tail. change (N.shiftr a 2) with (i0 a).
    change (N.lor (N.shiftl (N.land a 3) 4) (N.shiftr 0 4)) with (i1 a 0). change (N.shiftl (N.land 0 15) 2) with 0.
    rewrite (letter_ok _ (proj1 (i0_ok a Ba))), (letter_ok _ (proj1 (i1_ok a 0 Ba byte_0))), (letter_ok 0 ltac:(lia)).
    destruct pad; cbn [text groups map app length repeat pads] in *; unfold text in *; cbn in Hl.
    + destruct (Nat.ltb_spec (oi + 2) osz) as [_|Q]; [|lia]. rewrite write_list_splice by (cbn [length]; lia).
      rewrite put_fits; [|rewrite splice_length; cbn [length]; lia|cbn [length]; lia].
      rewrite put_fits; [|rewrite splice_length; cbn [length]; rewrite ?splice_length; cbn [length]; lia|cbn [length]; lia].
      apply (f_equal (@Some _)). apply f_equal2; [cbn; lia|].
      rewrite splice_at by (cbn [length]; rewrite ?splice_length by (cbn [length]; lia); lia).
      rewrite splice_at by (cbn [length app]; rewrite ?splice_length by (cbn [length]; lia); lia). reflexivity.
    + destruct (Nat.ltb_spec (oi + 2) osz) as [_|Q]; [|lia]. rewrite write_list_splice by (cbn [length]; lia). reflexivity.
  - inversion Hb as [|? ? Ba Hb']; subst. inversion Hb' as [|? ? Bb _]; subst. cbn [encode_chars]. unfold encode_tail. change (N.shiftr a 2) with (i0 a).
    change (N.lor (N.shiftl (N.land a 3) 4) (N.shiftr b 4)) with (i1 a b). rewrite <- i2_0.
    rewrite (letter_ok _ (proj1 (i0_ok a Ba))), (letter_ok _ (proj1 (i1_ok a b Ba Bb))), (letter_ok _ (proj1 (i2_ok b 0 Bb byte_0))).
    unfold text in *; cbn in Hl. destruct (Nat.ltb_spec (oi + 2) osz) as [_|Q]; [|destruct pad; cbn in Hl; lia].
    rewrite write_list_splice by (cbn [length]; destruct pad; cbn in Hl; lia).
    rewrite put_fits; [|rewrite splice_length; cbn [length]; destruct pad; cbn in Hl; lia|cbn [length]; destruct pad; cbn in Hl; lia].
    rewrite splice_at by (cbn [length]; destruct pad; cbn in Hl; lia).
    destruct pad; cbn in Hl.
    + rewrite put_fits; [|rewrite splice_length; cbn [length app]; lia|cbn [length]; lia].
      rewrite splice_at by (cbn [length app]; rewrite ?splice_length by (cbn [length]; lia); lia). apply (f_equal (@Some _)). apply f_equal2; [cbn; lia|reflexivity].
    + apply (f_equal (@Some _)). apply f_equal2; [cbn; lia|reflexivity].
  - inversion Hb as [|? ? Ba Hb']; subst. inversion Hb' as [|? ? Bb Hb2]; subst. inversion Hb2 as [|? ? Bc Hr]; subst.
    rewrite text_block in *. rewrite app_length in *. cbn [length] in Hl.
    cbn [encode_chars]. change (N.shiftr a 2) with (i0 a). change (N.lor (N.shiftl (N.land a 3) 4) (N.shiftr b 4)) with (i1 a b).
    change (N.lor (N.shiftl (N.land b 15) 2) (N.shiftr c 6)) with (i2 b c). change (N.land c 63) with (i3 c).
    rewrite (letter_ok _ (proj1 (i0_ok a Ba))), (letter_ok _ (proj1 (i1_ok a b Ba Bb))), (letter_ok _ (proj1 (i2_ok b c Bb Bc))), (letter_ok _ (proj1 (i3_ok c Bc))).
    set (blk := [letter (i0 a); letter (i1 a b); letter (i2 b c); letter (i3 c)]) in *. change 4%nat with (length blk) at 1.
    destruct (Nat.eq_dec (length (text pad r)) 0) as [Z|NZ].
    + assert (Hr0 : r = []).
      { destruct r as [|x [|y [|z r]]]; [reflexivity| | |]; unfold text in Z; rewrite app_length, map_length in Z; cbn [groups length] in Z; lia. }
      subst r. rewrite put_fits; [|exact Ho|cbn [length blk]; cbn [length blk] in Hl; lia].
      assert (Et : text pad [] = []) by (destruct pad; reflexivity).
      rewrite Et in *. rewrite app_nil_r in *. cbn [encode_chars length]. rewrite Nat.add_0_r. reflexivity.
    + rewrite put_fits; [|exact Ho|subst blk; cbn [length] in *; lia].
      rewrite IH; [|exact Hr|rewrite splice_length; subst blk; cbn [length] in *; lia|subst blk; cbn [length] in *; lia].
      rewrite splice_at by (subst blk; cbn [length] in *; lia). f_equal. f_equal. lia.
Qed.

(** The size reported for every buffer size. *)
Definition reported (pad : bool) (n osz oi : nat) : nat :=
  (let base := oi + 4 * (n / 3) in
   base + match n mod 3 with
          | 0 => 0
          | 1 => (if base + 2 <? osz then 2 else 0) + (if pad then 2 else 0)
          | _ => (if base + 2 <? osz then 2 else 0) + 1 + (if pad then 1 else 0)
          end)%nat.

Lemma encode_size : forall pad inp oi out osz, Forall byte inp -> (osz <= length out)%nat ->
  exists out', encode_chars chars pad inp oi out osz = Some (reported pad (length inp) osz oi, out') /\ length out' = length out.
Proof using Hlen.
  intros pad inp. induction inp as [|a|a b|a b c r IH] using list3_ind; intros oi out osz Hb Ho.
  - exists out. split; [|reflexivity]. cbn [encode_chars]. unfold reported. cbn. f_equal. f_equal. lia.
  - inversion Hb as [|? ? Ba _]; subst. cbn [encode_chars]. unfold encode_tail. change (N.shiftr a 2) with (i0 a).
    change (N.lor (N.shiftl (N.land a 3) 4) (N.shiftr 0 4)) with (i1 a 0). change (N.shiftl (N.land 0 15) 2) with 0.
    rewrite (letter_ok _ (proj1 (i0_ok a Ba))), (letter_ok _ (proj1 (i1_ok a 0 Ba byte_0))), (letter_ok 0 ltac:(lia)).
    unfold reported. cbn [length]. change (1 / 3)%nat with 0%nat. change (1 mod 3)%nat with 1%nat. rewrite Nat.mul_0_r, Nat.add_0_r.
    assert (G : exists out1, (if (oi + 2 <? osz)%nat then out0 <- write_list out oi [letter (i0 a); letter (i1 a 0)] ;; Some ((oi + 2)%nat, out0) else Some (oi, out))
       = Some ((oi + if (oi + 2 <? osz)%nat then 2 else 0)%nat, out1) /\ length out1 = length out).
    { destruct (Nat.ltb_spec (oi + 2) osz) as [Q|Q].
      - rewrite write_list_splice by (cbn [length]; lia). eexists. split; [reflexivity|]. apply splice_length. cbn [length]. lia.
      - exists out. rewrite Nat.add_0_r. split; reflexivity. }
    destruct G as (out1 & -> & L1). destruct pad.
    + destruct (put_some out1 osz (oi + (if (oi + 2 <? osz)%nat then 2 else 0)) [61] ltac:(lia)) as (out2 & -> & L2).
      destruct (put_some out2 osz (S (oi + (if (oi + 2 <? osz)%nat then 2 else 0))) [61] ltac:(lia)) as (out3 & -> & L3).
      exists out3. split; [|lia]. f_equal. f_equal. lia.
    + exists out1. split; [|lia]. f_equal. f_equal. lia.
  - inversion Hb as [|? ? Ba Hb']; subst. inversion Hb' as [|? ? Bb _]; subst. cbn [encode_chars]. unfold encode_tail. change (N.shiftr a 2) with (i0 a).
    change (N.lor (N.shiftl (N.land a 3) 4) (N.shiftr b 4)) with (i1 a b). rewrite <- i2_0.
    rewrite (letter_ok _ (proj1 (i0_ok a Ba))), (letter_ok _ (proj1 (i1_ok a b Ba Bb))), (letter_ok _ (proj1 (i2_ok b 0 Bb byte_0))).
    unfold reported. cbn [length]. change (2 / 3)%nat with 0%nat. change (2 mod 3)%nat with 2%nat. rewrite Nat.mul_0_r, Nat.add_0_r.
    assert (G : exists out1, (if (oi + 2 <? osz)%nat then out0 <- write_list out oi [letter (i0 a); letter (i1 a b)] ;; Some ((oi + 2)%nat, out0) else Some (oi, out))
       = Some ((oi + if (oi + 2 <? osz)%nat then 2 else 0)%nat, out1) /\ length out1 = length out).
    { destruct (Nat.ltb_spec (oi + 2) osz) as [Q|Q].
      - rewrite write_list_splice by (cbn [length]; lia). eexists. split; [reflexivity|]. apply splice_length. cbn [length]. lia.
      - exists out. rewrite Nat.add_0_r. split; reflexivity. }
    destruct G as (out1 & -> & L1).
    destruct (put_some out1 osz (oi + (if (oi + 2 <? osz)%nat then 2 else 0)) [letter (i2 b 0)] ltac:(lia)) as (out2 & -> & L2).
    destruct pad.
    + destruct (put_some out2 osz (S (oi + (if (oi + 2 <? osz)%nat then 2 else 0))) [61] ltac:(lia)) as (out3 & -> & L3).
      exists out3. split; [|lia]. f_equal. f_equal. lia.
    + exists out2. split; [|lia]. f_equal. f_equal. lia.
  - inversion Hb as [|? ? Ba Hb']; subst. inversion Hb' as [|? ? Bb Hb2]; subst. inversion Hb2 as [|? ? Bc Hr]; subst.
    cbn [encode_chars]. change (N.shiftr a 2) with (i0 a). change (N.lor (N.shiftl (N.land a 3) 4) (N.shiftr b 4)) with (i1 a b).
    change (N.lor (N.shiftl (N.land b 15) 2) (N.shiftr c 6)) with (i2 b c). change (N.land c 63) with (i3 c).
    rewrite (letter_ok _ (proj1 (i0_ok a Ba))), (letter_ok _ (proj1 (i1_ok a b Ba Bb))), (letter_ok _ (proj1 (i2_ok b c Bb Bc))), (letter_ok _ (proj1 (i3_ok c Bc))).
    destruct (put_some out osz oi [letter (i0 a); letter (i1 a b); letter (i2 b c); letter (i3 c)] Ho) as (out1 & -> & L1).
    destruct (IH (oi + 4)%nat out1 osz Hr ltac:(lia)) as (out2 & -> & L2). exists out2. split; [|lia]. f_equal. f_equal.
    unfold reported. cbn [length]. replace (S (S (S (length r)))) with (length r + 1 * 3)%nat by lia.
    rewrite Nat.mod_add, Nat.div_add by lia. replace (oi + 4 * (length r / 3 + 1))%nat with (oi + 4 + 4 * (length r / 3))%nat by lia. reflexivity.
Qed.

(** The groups are the sextets of the input. *)
Lemma groups_sextets : forall inp, Forall byte inp -> sextets inp (groups inp).
Proof using. clear.
  induction inp as [|a|a b|a b c r IH] using list3_ind; intros Hb.
  - split; [constructor|]. exists []. repeat split; [cbn; lia|constructor].
  - inversion Hb as [|? ? Ba _]; subst. destruct (i0_ok a Ba) as [A1 A2]. destruct (i1_ok a 0 Ba byte_0) as [B1 B2].
    split; [repeat constructor; assumption|]. exists [false; false; false; false].
    repeat split; [cbn; lia|repeat constructor|]. cbn [groups flat_map]. rewrite A2, B2, !app_nil_r, app_assoc, firstn_skipn. reflexivity.
  - inversion Hb as [|? ? Ba Hb']; subst. inversion Hb' as [|? ? Bb _]; subst.
    destruct (i0_ok a Ba) as [A1 A2]. destruct (i1_ok a b Ba Bb) as [B1 B2]. destruct (i2_ok b 0 Bb byte_0) as [C1 C2].
    split; [repeat constructor; assumption|]. exists [false; false].
    repeat split; [cbn; lia|repeat constructor|]. cbn [groups flat_map]. rewrite A2, B2, C2, !app_nil_r.
    rewrite <- (firstn_skipn 6 (bits 8 a)) at 3. rewrite <- (firstn_skipn 4 (bits 8 b)) at 3. rewrite <- !app_assoc. reflexivity.
  - inversion Hb as [|? ? Ba Hb']; subst. inversion Hb' as [|? ? Bb Hb2]; subst. inversion Hb2 as [|? ? Bc Hr]; subst.
    destruct (i0_ok a Ba) as [A1 A2]. destruct (i1_ok a b Ba Bb) as [B1 B2]. destruct (i2_ok b c Bb Bc) as [C1 C2]. destruct (i3_ok c Bc) as [D1 D2].
    destruct (IH Hr) as [F (z & Z1 & Z2 & Z3)]. split; [repeat constructor; assumption|]. exists z. split; [exact Z1|]. split; [exact Z2|].
    cbn [groups flat_map]. rewrite Z3, A2, B2, C2, D2.
    rewrite <- (firstn_skipn 6 (bits 8 a)) at 3. rewrite <- (firstn_skipn 4 (bits 8 b)) at 3. rewrite <- (firstn_skipn 2 (bits 8 c)) at 3.
    rewrite <- !app_assoc. reflexivity.
Qed.

(** ** Decoding *)
Hypothesis Hnz : ~ In 0 chars.
Hypothesis Hnd : NoDup chars.

Lemma find_char_app : forall l c, ~ In 0 l -> c <> 0 -> tmsu_find_char (l ++ [0]) c =
  match find (fun x => x =? c) l with Some _ => tmsu_find_char (l ++ [0]) c | None => Some (length l) end.
Proof using. clear.
  induction l as [|x l IH]; intros c Hz Hc; cbn [app tmsu_find_char find length]; [reflexivity|].
  destruct (N.eqb_spec x 0) as [->|Nx]; [destruct (Hz (or_introl eq_refl))|].
  destruct (N.eqb_spec x c) as [->|Ne]; [reflexivity|]. rewrite IH; [|intros I; apply Hz; right; exact I|exact Hc].
  destruct (find (fun y => y =? c) l) eqn:E; reflexivity.
Qed.
Lemma find_char_spec : forall l c, ~ In 0 l ->
  exists i, tmsu_find_char (l ++ [0]) c = Some i /\
    ((i = length l /\ ~ In c l) \/ ((i < length l)%nat /\ nth_error l i = Some c)).
Proof using. clear.
  induction l as [|x l IH]; intros c Hz; cbn [app tmsu_find_char length].
  - exists 0%nat. split; [reflexivity|]. left. split; [reflexivity|intros []].
  - destruct (N.eqb_spec x 0) as [->|Nx]; [destruct (Hz (or_introl eq_refl))|].
    destruct (N.eqb_spec x c) as [->|Ne]; [exists 0%nat; split; [reflexivity|right; split; [lia|reflexivity]]|].
    destruct (IH c) as (i & -> & D); [intros I; apply Hz; right; exact I|]. exists (S i). split; [reflexivity|].
    destruct D as [[-> D]|[D1 D2]]; [left; split; [reflexivity|intros [Q|Q]; [congruence|exact (D Q)]]|right; split; [lia|exact D2]].
Qed.
Lemma char_value_spec : forall c, exists v, char_value chars c = Some v /\ v <= 64 /\
  ((v = 64 /\ ~ In c chars) \/ (v < 64 /\ nth_error chars (N.to_nat v) = Some c)).
Proof using Hlen Hnz.
  intros c. unfold char_value. destruct (find_char_spec chars c Hnz) as (i & -> & D). exists (N.of_nat i).
  split; [reflexivity|]. rewrite Hlen in D. destruct D as [[-> D]|[D1 D2]]; [split; [lia|left; split; [lia|exact D]]|].
  split; [lia|]. right. split; [lia|]. rewrite Nnat.Nat2N.id. exact D2.
Qed.
Lemma char_value_letter : forall x, x < 64 -> char_value chars (letter x) = Some x.
Proof using Hlen Hnz Hnd.
  intros x H. destruct (char_value_spec (letter x)) as (v & E & _ & D). rewrite E. f_equal.
  pose proof (letter_ok x H) as L. destruct D as [[_ D]|[D1 D2]]; [destruct D; apply nth_error_In in L; exact L|].
  apply N2Nat.inj. apply (proj1 (NoDup_nth_error chars) Hnd); [lia|congruence].
Qed.
Lemma char_value_other : forall c, ~ In c chars -> char_value chars c = Some 64.
Proof using Hlen Hnz.
  intros c H. destruct (char_value_spec c) as (v & E & _ & [[-> _]|[_ D]]); [exact E|]. apply nth_error_In in D. destruct (H D).
Qed.
Lemma letter_inv : forall c v, char_value chars c = Some v -> v < 64 -> c = letter v.
Proof using Hlen Hnz.
  intros c v E H. destruct (char_value_spec c) as (w & E' & _ & D). rewrite E in E'. injection E' as <-.
  destruct D as [[-> _]|[_ D]]; [lia|]. rewrite (letter_ok v H) in D. congruence.
Qed.

(** The bytes of a list of groups; [drop] is the number of incomplete bytes at the end. *)
Fixpoint bytes_of (vs : list N) : list N :=
  match vs with
  | a :: b :: c :: d :: rest => byte0 a b :: byte1 b c :: byte2 c d :: bytes_of rest
  | [a; b; c] => [byte0 a b; byte1 b c]
  | [a; b] => [byte0 a b]
  | [a] => [byte0 a 0]
  | [] => []
  end.

Lemma list4_ind : forall (P : list N -> Prop), P [] -> (forall a, P [a]) -> (forall a b, P [a; b]) -> (forall a b c, P [a; b; c]) ->
  (forall a b c d r, P r -> P (a :: b :: c :: d :: r)) -> forall l, P l.
Proof using. clear.
  intros P H0 H1 H2 H3 H4 l. assert (G : forall n l, (length l <= n)%nat -> P l).
  { induction n as [|n IH]; intros [|a [|b [|c [|d r]]]] L; auto; cbn [length] in L; try lia. apply H4. apply IH. lia. }
  apply (G (length l)). lia.
Qed.

Lemma bytes_groups : forall inp, Forall byte inp -> bytes_of (groups inp) = inp.
Proof using. clear.
  induction inp as [|a|a b|a b c r IH] using list3_ind; intros Hb; [reflexivity| | |].
  - inversion Hb as [|? ? Ba _]; subst. destruct (i0_ok a Ba) as [A1 A2]. destruct (i1_ok a 0 Ba byte_0) as [B1 B2].
    cbn [groups bytes_of]. f_equal. destruct (byte0_ok _ _ A1 B1) as [P Q]. apply bits8_inj; [exact P|exact Ba|]. rewrite Q, A2, B2. reflexivity.
  - inversion Hb as [|? ? Ba Hb']; subst. inversion Hb' as [|? ? Bb _]; subst.
    destruct (i0_ok a Ba) as [A1 A2]. destruct (i1_ok a b Ba Bb) as [B1 B2]. destruct (i2_ok b 0 Bb byte_0) as [C1 C2].
    cbn [groups bytes_of]. f_equal; [|f_equal].
    + destruct (byte0_ok _ _ A1 B1) as [P Q]. apply bits8_inj; [exact P|exact Ba|]. rewrite Q, A2, B2. reflexivity.
    + destruct (byte1_ok _ _ B1 C1) as [P Q]. apply bits8_inj; [exact P|exact Bb|]. rewrite Q, B2, C2. reflexivity.
  - inversion Hb as [|? ? Ba Hb']; subst. inversion Hb' as [|? ? Bb Hb2]; subst. inversion Hb2 as [|? ? Bc Hr]; subst.
    destruct (i0_ok a Ba) as [A1 A2]. destruct (i1_ok a b Ba Bb) as [B1 B2]. destruct (i2_ok b c Bb Bc) as [C1 C2]. destruct (i3_ok c Bc) as [D1 D2].
    cbn [groups bytes_of]. rewrite (IH Hr). f_equal; [|f_equal; [|f_equal]].
    + destruct (byte0_ok _ _ A1 B1) as [P Q]. apply bits8_inj; [exact P|exact Ba|]. rewrite Q, A2, B2. reflexivity.
    + destruct (byte1_ok _ _ B1 C1) as [P Q]. apply bits8_inj; [exact P|exact Bb|]. rewrite Q, B2, C2. reflexivity.
    + destruct (byte2_ok _ _ C1 D1) as [P Q]. apply bits8_inj; [exact P|exact Bc|]. rewrite Q, C2, D2. reflexivity.
Qed.

(** [decoded pad s l]: [s] is accepted and stands for the bytes [l]. *)
Inductive decoded (pad : bool) : list N -> list N -> Prop :=
| D_nil : decoded pad [] []
| D_block a b c d rest l : a < 64 -> b < 64 -> c < 64 -> d < 64 -> rest <> [] -> decoded pad rest l ->
    decoded pad (letter a :: letter b :: letter c :: letter d :: rest) (byte0 a b :: byte1 b c :: byte2 c d :: l)
| D_four a b c d : a < 64 -> b < 64 -> c < 64 -> d < 64 ->
    decoded pad [letter a; letter b; letter c; letter d] [byte0 a b; byte1 b c; byte2 c d]
| D_one a b c : pad = true -> a < 64 -> b < 64 -> c < 64 -> decoded pad [letter a; letter b; letter c; 61] [byte0 a b; byte1 b c]
| D_two a b d : pad = true -> a < 64 -> b < 64 -> d = 61 \/ In d chars -> decoded pad [letter a; letter b; 61; d] [byte0 a b]
| D_url3 a b c : pad = false -> a < 64 -> b < 64 -> c < 64 -> decoded pad [letter a; letter b; letter c] [byte0 a b; byte1 b c]
| D_url2 a b : pad = false -> a < 64 -> b < 64 -> decoded pad [letter a; letter b] [byte0 a b]
| D_url1 a : pad = false -> a < 64 -> decoded pad [letter a] [byte0 a 0].

Hypothesis Hpad : ~ In 61 chars.

Definition acceptable (pad : bool) (inp : list N) : Prop := pad = true -> (length inp mod 4 = 0)%nat.

(** Result of decoding: size, and contents if the buffer is larger than needed. *)
Definition dec_post (pad : bool) (inp : list N) (oi : nat) (out : list N) (osz : nat) (r : option (nat * list N)) : Prop :=
  exists n out', r = Some (n, out') /\ length out' = length out /\
    ((exists l, decoded pad inp l /\ n = (oi + length l)%nat /\ ((oi + length l < osz)%nat -> out' = splice out oi l)) \/
     (n = 0%nat /\ forall l, ~ decoded pad inp l)).

Lemma decode_last_3 : forall a b c d oi out osz, (osz <= length out)%nat ->
  exists out', decode_last a b c d 0 oi out osz = Some ((oi + 3)%nat, out') /\ length out' = length out /\
    ((oi + 3 < osz)%nat -> out' = splice out oi [byte0 a b; byte1 b c; byte2 c d]).
Proof using. clear.
  intros a b c d oi out osz Ho. unfold decode_last. cbn [Nat.ltb Nat.leb].
  destruct (put_some out osz oi [byte0 a b] Ho) as (o1 & E1 & L1). rewrite E1.
  destruct (put_some o1 osz (S oi) [byte1 b c] ltac:(lia)) as (o2 & E2 & L2). rewrite E2.
  destruct (put_some o2 osz (S (S oi)) [byte2 c d] ltac:(lia)) as (o3 & E3 & L3). rewrite E3.
  exists o3. split; [f_equal; f_equal; lia|]. split; [lia|]. intros H.
  rewrite put_fits in E1 by (cbn [length]; lia). injection E1 as <-.
  rewrite put_fits in E2 by (cbn [length]; lia). injection E2 as <-.
  rewrite put_fits in E3 by (cbn [length]; lia). injection E3 as <-.
  rewrite splice_at by (cbn [length]; rewrite ?splice_length by (cbn [length]; lia); lia). rewrite splice_at by (cbn [length app]; rewrite ?splice_length by (cbn [length]; lia); lia). reflexivity.
Qed.
Lemma decode_last_2 : forall a b c d oi out osz, (osz <= length out)%nat ->
  exists out', decode_last a b c d 1 oi out osz = Some ((oi + 2)%nat, out') /\ length out' = length out /\
    ((oi + 2 < osz)%nat -> out' = splice out oi [byte0 a b; byte1 b c]).
Proof using. clear.
  intros a b c d oi out osz Ho. unfold decode_last. cbn [Nat.ltb Nat.leb].
  destruct (put_some out osz oi [byte0 a b] Ho) as (o1 & E1 & L1). rewrite E1.
  destruct (put_some o1 osz (S oi) [byte1 b c] ltac:(lia)) as (o2 & E2 & L2). rewrite E2.
  exists o2. split; [f_equal; f_equal; lia|]. split; [lia|]. intros H.
  rewrite put_fits in E1 by (cbn [length]; lia). injection E1 as <-.
  rewrite put_fits in E2 by (cbn [length]; lia). injection E2 as <-.
  rewrite splice_at by (cbn [length]; rewrite ?splice_length by (cbn [length]; lia); lia). reflexivity.
Qed.
Lemma decode_last_1 : forall a b c d oi out osz, (osz <= length out)%nat ->
  exists out', decode_last a b c d 2 oi out osz = Some ((oi + 1)%nat, out') /\ length out' = length out /\
    ((oi + 1 < osz)%nat -> out' = splice out oi [byte0 a b]).
Proof using. clear.
  intros a b c d oi out osz Ho. unfold decode_last. cbn [Nat.ltb Nat.leb].
  destruct (put_some out osz oi [byte0 a b] Ho) as (o1 & E1 & L1). rewrite E1.
  exists o1. split; [f_equal; f_equal; lia|]. split; [lia|]. intros H.
  rewrite put_fits in E1 by (cbn [length]; lia). injection E1 as <-. reflexivity.
Qed.

Lemma decode_chars_block : forall pad c0 c1 c2 c3 rest oi out osz, rest <> [] ->
  decode_chars chars pad (c0 :: c1 :: c2 :: c3 :: rest) oi out osz =
  (v0 <- char_value chars c0 ;; v1 <- char_value chars c1 ;; v2 <- char_value chars c2 ;; v3 <- char_value chars c3 ;;
    if (64 <=? v0) || (64 <=? v1) || (64 <=? v2) || (64 <=? v3) then Some (O, out)
    else out <- put out osz oi [byte0 v0 v1; byte1 v1 v2; byte2 v2 v3] ;;
         decode_chars chars pad rest (oi + 3) out osz).
Proof using. clear. intros pad c0 c1 c2 c3 [|x rest] oi out osz H; [congruence|reflexivity]. Qed.

Lemma not_letter : forall c x, char_value chars c = Some x -> 64 <= x -> forall y, y < 64 -> c <> letter y.
Proof using Hlen Hnz Hnd. intros c x E Hx y Hy ->. rewrite (char_value_letter y Hy) in E. injection E as <-. lia. Qed.
Lemma letter_in : forall y, y < 64 -> In (letter y) chars.
Proof using Hlen. intros y Hy. apply nth_error_In with (N.to_nat y). apply letter_ok. exact Hy. Qed.
Lemma letter_not_61 : forall y, y < 64 -> letter y <> 61.
Proof using Hlen Hpad. intros y Hy E. apply Hpad. rewrite <- E. apply letter_in. exact Hy. Qed.

Ltac refute_dec D :=
  inversion D; subst; try discriminate; try congruence;
  repeat match goal with
  | E : char_value chars (letter ?y) = Some ?x, H : 64 <= ?x, Hy : ?y < 64 |- _ => exact (not_letter _ _ E H y Hy eq_refl)
  end.

Lemma decode_ok : forall pad inp oi out osz, acceptable pad inp -> (osz <= length out)%nat ->
  dec_post pad inp oi out osz (decode_chars chars pad inp oi out osz).
Proof using All.
  intros pad inp. induction inp as [|c0|c0 c1|c0 c1 c2|c0 c1 c2 c3 r IH] using list4_ind; intros oi out osz Ac Ho.
  - cbn [decode_chars]. exists oi, out. split; [reflexivity|]. split; [reflexivity|]. left. exists [].
    split; [constructor|]. split; [cbn; lia|]. intros _. rewrite splice_nil. reflexivity.
  - cbn [decode_chars]. destruct pad; [specialize (Ac eq_refl); discriminate|]. cbn [decode_tail nth_error length Nat.ltb Nat.leb Nat.sub].
    destruct (char_value_spec c0) as (v0 & E0 & L0 & _). rewrite E0. cbn [orb N.leb N.compare].
    destruct (64 <=? v0) eqn:Q0; cbn [orb].
    + exists 0%nat, out. split; [reflexivity|]. split; [reflexivity|]. right. split; [reflexivity|].
      intros l D. assert (64 <= v0) by lia. refute_dec D.
    + rewrite (letter_inv c0 v0 E0 ltac:(lia)). destruct (decode_last_1 v0 0 0 0 oi out osz Ho) as (o & E & L & C).
      cbn [Nat.sub] in *. exists (oi + 1)%nat, o. split; [exact E|]. split; [exact L|]. left. exists [byte0 v0 0].
      split; [constructor; [reflexivity|lia]|]. split; [reflexivity|]. exact C.
  - cbn [decode_chars]. destruct pad; [specialize (Ac eq_refl); discriminate|]. cbn [decode_tail nth_error length Nat.ltb Nat.leb Nat.sub].
    destruct (char_value_spec c0) as (v0 & E0 & L0 & _). rewrite E0. destruct (char_value_spec c1) as (v1 & E1 & L1 & _). rewrite E1.
    cbn [orb N.leb N.compare].
    destruct (64 <=? v0) eqn:Q0; cbn [orb]; [|destruct (64 <=? v1) eqn:Q1; cbn [orb]].
    + exists 0%nat, out. split; [reflexivity|]. split; [reflexivity|]. right. split; [reflexivity|].
      intros l D. assert (64 <= v0) by lia. refute_dec D.
    + exists 0%nat, out. split; [reflexivity|]. split; [reflexivity|]. right. split; [reflexivity|].
      intros l D. assert (64 <= v1) by lia. refute_dec D.
    + rewrite (letter_inv c0 v0 E0 ltac:(lia)), (letter_inv c1 v1 E1 ltac:(lia)). destruct (decode_last_1 v0 v1 0 0 oi out osz Ho) as (o & E & L & C).
      cbn [Nat.sub] in *. exists (oi + 1)%nat, o. split; [exact E|]. split; [exact L|]. left. exists [byte0 v0 v1].
      split; [constructor; [reflexivity|lia|lia]|]. split; [reflexivity|]. exact C.
  - cbn [decode_chars]. destruct pad; [specialize (Ac eq_refl); discriminate|]. cbn [decode_tail nth_error length Nat.ltb Nat.leb Nat.sub].
    destruct (char_value_spec c0) as (v0 & E0 & L0 & _). rewrite E0. destruct (char_value_spec c1) as (v1 & E1 & L1 & _). rewrite E1.
    destruct (char_value_spec c2) as (v2 & E2 & L2 & _). rewrite E2.
    cbn [orb N.leb N.compare].
    destruct (64 <=? v0) eqn:Q0; cbn [orb]; [|destruct (64 <=? v1) eqn:Q1; cbn [orb]; [|destruct (64 <=? v2) eqn:Q2; cbn [orb]]].
    + exists 0%nat, out. split; [reflexivity|]. split; [reflexivity|]. right. split; [reflexivity|].
      intros l D. assert (64 <= v0) by lia. refute_dec D.
    + exists 0%nat, out. split; [reflexivity|]. split; [reflexivity|]. right. split; [reflexivity|].
      intros l D. assert (64 <= v1) by lia. refute_dec D.
    + exists 0%nat, out. split; [reflexivity|]. split; [reflexivity|]. right. split; [reflexivity|].
      intros l D. assert (64 <= v2) by lia. refute_dec D.
    + rewrite (letter_inv c0 v0 E0 ltac:(lia)), (letter_inv c1 v1 E1 ltac:(lia)), (letter_inv c2 v2 E2 ltac:(lia)).
      destruct (decode_last_2 v0 v1 v2 0 oi out osz Ho) as (o & E & L & C).
      cbn [Nat.sub] in *. exists (oi + 2)%nat, o. split; [exact E|]. split; [exact L|]. left. exists [byte0 v0 v1; byte1 v1 v2].
      split; [constructor; [reflexivity|lia|lia|lia]|]. split; [reflexivity|]. exact C.
  - destruct (char_value_spec c0) as (v0 & E0 & L0 & D0). destruct (char_value_spec c1) as (v1 & E1 & L1 & D1).
    destruct (char_value_spec c2) as (v2 & E2 & L2 & D2). destruct (char_value_spec c3) as (v3 & E3 & L3 & D3).
    destruct r as [|x r'].
    + clear IH. cbn [decode_chars]. destruct pad.
      * cbn [decode_tail nth_error]. rewrite E0, E1, E2, E3.
        destruct (64 <=? v0) eqn:Q0.
        { exists 0%nat, out. split; [reflexivity|]. split; [reflexivity|]. right. split; [reflexivity|].
          intros l D. assert (64 <= v0) by lia. refute_dec D. }
        destruct (64 <=? v1) eqn:Q1.
        { exists 0%nat, out. split; [reflexivity|]. split; [reflexivity|]. right. split; [reflexivity|].
          intros l D. assert (64 <= v1) by lia. refute_dec D. }
        rewrite (letter_inv c0 v0 E0 ltac:(lia)), (letter_inv c1 v1 E1 ltac:(lia)).
        destruct (64 <=? v3) eqn:Q3; cbn [andb].
        -- destruct (N.eqb_spec c3 61) as [->|N3]; cbn [negb].
           2:{ exists 0%nat, out. split; [reflexivity|]. split; [reflexivity|]. right. split; [reflexivity|].
               intros l D. assert (64 <= v3) by lia. refute_dec D.
               match goal with H : _ \/ In _ _ |- _ => destruct H as [Q|Q]; [congruence|] end.
               destruct D3 as [[_ D3]|[D3 _]]; [exact (D3 Q)|lia]. }
           destruct (64 <=? v2) eqn:Q2; cbn [andb].
           ++ destruct (N.eqb_spec c2 61) as [->|N2]; cbn [negb].
              2:{ exists 0%nat, out. split; [reflexivity|]. split; [reflexivity|]. right. split; [reflexivity|].
                  intros l D. assert (64 <= v2) by lia. refute_dec D. }
              destruct (decode_last_1 v0 v1 0 0 oi out osz Ho) as (o & E & L & C).
              exists (oi + 1)%nat, o. split; [exact E|]. split; [exact L|]. left. exists [byte0 v0 v1].
              split; [apply D_two; [reflexivity|lia|lia|left; reflexivity]|]. split; [reflexivity|]. exact C.
           ++ destruct (decode_last_2 v0 v1 v2 0 oi out osz Ho) as (o & E & L & C).
              rewrite (letter_inv c2 v2 E2 ltac:(lia)). cbn [andb].
              exists (oi + 2)%nat, o. split; [exact E|]. split; [exact L|]. left. exists [byte0 v0 v1; byte1 v1 v2].
              split; [apply D_one; [reflexivity|lia|lia|lia]|]. split; [reflexivity|]. exact C.
        -- rewrite (letter_inv c3 v3 E3 ltac:(lia)).
           destruct (64 <=? v2) eqn:Q2; cbn [andb].
           ++ destruct (N.eqb_spec c2 61) as [->|N2]; cbn [negb].
              2:{ exists 0%nat, out. split; [reflexivity|]. split; [reflexivity|]. right. split; [reflexivity|].
                  intros l D. assert (64 <= v2) by lia. refute_dec D. }
              destruct (decode_last_1 v0 v1 0 v3 oi out osz Ho) as (o & E & L & C).
              exists (oi + 1)%nat, o. split; [exact E|]. split; [exact L|]. left. exists [byte0 v0 v1].
              split; [apply D_two; [reflexivity|lia|lia|right; apply letter_in; lia]|]. split; [reflexivity|]. exact C.
           ++ destruct (decode_last_3 v0 v1 v2 v3 oi out osz Ho) as (o & E & L & C).
              rewrite (letter_inv c2 v2 E2 ltac:(lia)). cbn [andb].
              exists (oi + 3)%nat, o. split; [exact E|]. split; [exact L|]. left. exists [byte0 v0 v1; byte1 v1 v2; byte2 v2 v3].
              split; [apply D_four; lia|]. split; [reflexivity|]. exact C.
      * cbn [decode_tail nth_error length Nat.ltb Nat.leb Nat.sub]. rewrite E0, E1, E2, E3.
        destruct (64 <=? v0) eqn:Q0; cbn [orb]; [|destruct (64 <=? v1) eqn:Q1; cbn [orb]; [|destruct (64 <=? v2) eqn:Q2; cbn [orb]; [|destruct (64 <=? v3) eqn:Q3; cbn [orb]]]].
        -- exists 0%nat, out. split; [reflexivity|]. split; [reflexivity|]. right. split; [reflexivity|].
           intros l D. assert (64 <= v0) by lia. refute_dec D.
        -- exists 0%nat, out. split; [reflexivity|]. split; [reflexivity|]. right. split; [reflexivity|].
           intros l D. assert (64 <= v1) by lia. refute_dec D.
        -- exists 0%nat, out. split; [reflexivity|]. split; [reflexivity|]. right. split; [reflexivity|].
           intros l D. assert (64 <= v2) by lia. refute_dec D.
        -- exists 0%nat, out. split; [reflexivity|]. split; [reflexivity|]. right. split; [reflexivity|].
           intros l D. assert (64 <= v3) by lia. refute_dec D.
        -- rewrite (letter_inv c0 v0 E0 ltac:(lia)), (letter_inv c1 v1 E1 ltac:(lia)), (letter_inv c2 v2 E2 ltac:(lia)), (letter_inv c3 v3 E3 ltac:(lia)).
           destruct (decode_last_3 v0 v1 v2 v3 oi out osz Ho) as (o & E & L & C).
           exists (oi + 3)%nat, o. split; [exact E|]. split; [exact L|]. left. exists [byte0 v0 v1; byte1 v1 v2; byte2 v2 v3].
           split; [apply D_four; lia|]. split; [reflexivity|]. exact C.
    + set (rest := x :: r') in *. assert (Hr : rest <> []) by discriminate. rewrite decode_chars_block by exact Hr. rewrite E0, E1, E2, E3.
      destruct ((64 <=? v0) || (64 <=? v1) || (64 <=? v2) || (64 <=? v3)) eqn:Q.
      * exists 0%nat, out. split; [reflexivity|]. split; [reflexivity|]. right. split; [reflexivity|].
        intros l D. inversion D; subst; try congruence.
        repeat match goal with
        | E : char_value chars (letter ?y) = Some ?x, Hy : ?y < 64 |- _ => rewrite (char_value_letter y Hy) in E; injection E as <-
        end. lia.
      * rewrite (letter_inv c0 v0 E0 ltac:(lia)), (letter_inv c1 v1 E1 ltac:(lia)), (letter_inv c2 v2 E2 ltac:(lia)), (letter_inv c3 v3 E3 ltac:(lia)).
        destruct (put_some out osz oi [byte0 v0 v1; byte1 v1 v2; byte2 v2 v3] Ho) as (o1 & Ep & Lp). rewrite Ep.
        assert (Ac' : acceptable pad rest).
        { intros P. specialize (Ac P). cbn [length] in Ac. replace (S (S (S (S (length rest))))) with (length rest + 1 * 4)%nat in Ac by lia.
          rewrite Nat.mod_add in Ac by lia. exact Ac. }
        destruct (IH (oi + 3)%nat o1 osz Ac' ltac:(lia)) as (n & o2 & E & L & C). exists n, o2. split; [exact E|]. split; [lia|].
        destruct C as [(l & D & Hn & C)|[Hn C]].
        -- left. exists (byte0 v0 v1 :: byte1 v1 v2 :: byte2 v2 v3 :: l). split; [apply D_block; try lia; assumption|].
           split; [cbn [length]; lia|]. cbn [length]. intros H. rewrite C by lia.
           rewrite put_fits in Ep by (cbn [length]; lia). injection Ep as <-.
           rewrite splice_at by (cbn [length]; lia). reflexivity.
        -- right. split; [exact Hn|]. intros l D. inversion D; subst; try congruence. eapply C. eassumption.
Qed.

(** Decoded texts are non-empty for non-empty input, and the bits agree. *)
Lemma decoded_pos : forall pad s l, decoded pad s l -> s <> [] -> (0 < length l)%nat.
Proof using. clear. intros pad s l D H. destruct D; cbn [length]; try lia. congruence. Qed.

Lemma decoded_byte : forall pad s l, decoded pad s l -> Forall byte l.
Proof using. clear. 
  intros pad s l D. induction D; repeat constructor; try assumption;
  first [apply byte0_ok; lia|apply byte1_ok; lia|apply byte2_ok; lia].
Qed.

(** Encoded texts are decoded. *)
Lemma text_decoded : forall pad inp, Forall byte inp -> decoded pad (text pad inp) inp.
Proof using All.
  intros pad inp Hb. rewrite <- (bytes_groups inp Hb) at 2. revert Hb.
  induction inp as [|a|a b|a b c r IH] using list3_ind; intros Hb.
  - destruct pad; constructor.
  - inversion Hb as [|? ? Ba _]; subst. destruct (i0_ok a Ba) as [A1 A2]. destruct (i1_ok a 0 Ba byte_0) as [B1 B2].
    destruct pad; unfold text; cbn.
    + apply D_two; [reflexivity|assumption|assumption|left; reflexivity].
    + apply D_url2; [reflexivity|assumption|assumption].
  - inversion Hb as [|? ? Ba Hb']; subst. inversion Hb' as [|? ? Bb _]; subst.
    destruct (i0_ok a Ba) as [A1 A2]. destruct (i1_ok a b Ba Bb) as [B1 B2]. destruct (i2_ok b 0 Bb byte_0) as [C1 C2].
    destruct pad; unfold text; cbn.
    + apply D_one; [reflexivity|assumption|assumption|assumption].
    + apply D_url3; [reflexivity|assumption|assumption|assumption].
  - inversion Hb as [|? ? Ba Hb']; subst. inversion Hb' as [|? ? Bb Hb2]; subst. inversion Hb2 as [|? ? Bc Hr]; subst.
    destruct (i0_ok a Ba) as [A1 A2]. destruct (i1_ok a b Ba Bb) as [B1 B2]. destruct (i2_ok b c Bb Bc) as [C1 C2]. destruct (i3_ok c Bc) as [D1 D2].
    rewrite text_block. cbn [groups bytes_of app]. destruct r as [|x r'].
    + cbn [groups bytes_of]. replace (text pad []) with (@nil N) by (destruct pad; reflexivity). apply D_four; assumption.
    + apply D_block; try assumption; [|apply IH; exact Hr].
      destruct r' as [|y [|z r']]; unfold text; cbn [groups map app]; discriminate.
Qed.
Lemma decoded_fun : forall pad s l1 l2, decoded pad s l1 -> decoded pad s l2 -> l1 = l2.
Proof using All.
  intros pad s l1 l2 D1. revert l2.
  assert (Inj : forall x y, x < 64 -> y < 64 -> letter x = letter y -> x = y).
  { intros x y Hx Hy E. pose proof (char_value_letter x Hx) as P. rewrite E, (char_value_letter y Hy) in P. congruence. }
  induction D1; intros l2 D2; inversion D2; subst; try congruence;
  repeat match goal with
  | E : letter ?x = letter ?y, Hx : ?x < 64, Hy : ?y < 64 |- _ => apply (Inj x y Hx Hy) in E; subst
  | E : letter ?x = 61, Hx : ?x < 64 |- _ => destruct (letter_not_61 x Hx E)
  | E : 61 = letter ?x, Hx : ?x < 64 |- _ => symmetry in E; destruct (letter_not_61 x Hx E)
  end; try reflexivity.
  f_equal. f_equal. f_equal. apply IHD1. assumption.
Qed.

(** *** The accepted texts, in terms of groups *)
Definition suffix_ok (pad : bool) (suf : list N) : Prop :=
  suf = [] \/ (pad = true /\ (suf = [61] \/ suf = [61; 61] \/ exists d, In d chars /\ suf = [61; d])).

Lemma mod4_S : forall n, (S (S (S (S n))) mod 4 = n mod 4)%nat.
Proof using. clear. intros n. replace (S (S (S (S n)))) with (n + 1 * 4)%nat by lia. apply Nat.mod_add. lia. Qed.

Lemma bits3 : forall a b c d, a < 64 -> b < 64 -> c < 64 -> d < 64 ->
  bits 6 a ++ bits 6 b ++ bits 6 c ++ bits 6 d = bits 8 (byte0 a b) ++ bits 8 (byte1 b c) ++ bits 8 (byte2 c d).
Proof using. clear.
  intros a b c d Ha Hb Hc Hd. rewrite (proj2 (byte0_ok a b Ha Hb)), (proj2 (byte1_ok b c Hb Hc)), (proj2 (byte2_ok c d Hc Hd)).
  rewrite <- !app_assoc. reflexivity.
Qed.

Lemma decoded_groups : forall pad s l, decoded pad s l ->
  (pad = true -> length s mod 4 = 0)%nat /\
  exists xs suf, Forall (fun x => x < 64) xs /\ s = map letter xs ++ suf /\ suffix_ok pad suf /\
    ((length xs mod 4 <> 1)%nat -> carries xs l).
Proof using.
  clear. intros pad s l D. split.
  { intros P. induction D; try congruence; try reflexivity. cbn [length]. rewrite mod4_S. apply IHD. }
  assert (Bd : Forall byte l) by (exact (decoded_byte _ _ _ D)).
  induction D.
  - exists [], []. repeat split; [constructor|left; reflexivity|constructor|]. exists []. split; [cbn; lia|reflexivity].
  - inversion Bd as [|? ? B0 Bd1]; subst. inversion Bd1 as [|? ? B1 Bd2]; subst. inversion Bd2 as [|? ? B2 Bd3]; subst.
    destruct (IHD Bd3) as (xs & suf & F & -> & S & C). exists (a :: b :: c :: d :: xs), suf.
    split; [repeat constructor; assumption|]. split; [reflexivity|]. split; [exact S|]. cbn [length]. rewrite mod4_S. intros M.
    destruct (C M) as [_ (rest' & L & E)]. split; [assumption|]. exists rest'. split; [exact L|]. cbn [flat_map]. rewrite E.
    rewrite !app_assoc. f_equal. f_equal. rewrite <- !app_assoc. apply bits3; assumption.
  - exists [a; b; c; d], []. split; [repeat constructor; assumption|]. split; [reflexivity|]. split; [left; reflexivity|]. intros _.
    split; [assumption|]. exists []. split; [cbn; lia|]. cbn [flat_map]. rewrite !app_nil_r. apply bits3; assumption.
  - exists [a; b; c], [61]. split; [repeat constructor; assumption|]. split; [reflexivity|]. split; [right; auto|]. intros _.
    split; [assumption|]. exists (skipn 4 (bits 6 c)). split; [rewrite skipn_length, bits_length; lia|]. cbn [flat_map].
    rewrite !app_nil_r, <- !app_assoc. rewrite (proj2 (byte0_ok a b H0 H1)), (proj2 (byte1_ok b c H1 H2)). rewrite <- !app_assoc. reflexivity.
  - exists [a; b], [61; d]. split; [repeat constructor; assumption|]. split; [reflexivity|].
    split; [right; split; [assumption|]; match goal with H : _ \/ In _ _ |- _ => destruct H as [->|H'] end; [right; left; reflexivity|right; right; exists d; split; [assumption|reflexivity]]|]. intros _.
    split; [assumption|]. exists (skipn 2 (bits 6 b)). split; [rewrite skipn_length, bits_length; lia|]. cbn [flat_map].
    rewrite !app_nil_r. rewrite (proj2 (byte0_ok a b H0 H1)). rewrite <- !app_assoc. reflexivity.
  - exists [a; b; c], []. split; [repeat constructor; assumption|]. split; [reflexivity|]. split; [left; auto|]. intros _.
    split; [assumption|]. exists (skipn 4 (bits 6 c)). split; [rewrite skipn_length, bits_length; lia|]. cbn [flat_map].
    rewrite !app_nil_r, <- !app_assoc. rewrite (proj2 (byte0_ok a b H0 H1)), (proj2 (byte1_ok b c H1 H2)). rewrite <- !app_assoc. reflexivity.
  - exists [a; b], []. split; [repeat constructor; assumption|]. split; [reflexivity|]. split; [left; auto|]. intros _.
    split; [assumption|]. exists (skipn 2 (bits 6 b)). split; [rewrite skipn_length, bits_length; lia|]. cbn [flat_map].
    rewrite !app_nil_r. rewrite (proj2 (byte0_ok a b H0 H1)). rewrite <- !app_assoc. reflexivity.
  - exists [a], []. split; [repeat constructor; assumption|]. split; [reflexivity|]. split; [left; auto|]. intros Q. cbn in Q. congruence.
Qed.

Lemma groups_decoded : forall pad xs suf, Forall (fun x => x < 64) xs -> suffix_ok pad suf ->
  (pad = true -> length (map letter xs ++ suf) mod 4 = 0)%nat -> exists l, decoded pad (map letter xs ++ suf) l.
Proof using.
  clear. intros pad xs. induction xs as [|a|a b|a b c|a b c d r IH] using list4_ind; intros suf F S M.
  - destruct S as [->|[-> [->|[->|(d & _ & ->)]]]]; [exists []; constructor| | |]; specialize (M eq_refl); discriminate.
  - inversion F as [|? ? Fa _]; subst. destruct S as [->|[-> [->|[->|(d & _ & ->)]]]]; try (specialize (M eq_refl); discriminate).
    destruct pad; [specialize (M eq_refl); discriminate|]. eexists. apply D_url1; [reflexivity|assumption].
  - inversion F as [|? ? Fa F1]; subst. inversion F1 as [|? ? Fb _]; subst.
    destruct S as [->|[-> [->|[->|(d & I & ->)]]]]; try (specialize (M eq_refl); discriminate).
    + destruct pad; [specialize (M eq_refl); discriminate|]. eexists. apply D_url2; [reflexivity|assumption|assumption].
    + eexists. apply D_two; [reflexivity|assumption|assumption|left; reflexivity].
    + eexists. apply D_two; [reflexivity|assumption|assumption|right; assumption].
  - inversion F as [|? ? Fa F1]; subst. inversion F1 as [|? ? Fb F2]; subst. inversion F2 as [|? ? Fc _]; subst.
    destruct S as [->|[-> [->|[->|(d & I & ->)]]]]; try (specialize (M eq_refl); discriminate).
    + destruct pad; [specialize (M eq_refl); discriminate|]. eexists. apply D_url3; [reflexivity|assumption|assumption|assumption].
    + eexists. apply D_one; [reflexivity|assumption|assumption|assumption].
  - inversion F as [|? ? Fa F1]; subst. inversion F1 as [|? ? Fb F2]; subst. inversion F2 as [|? ? Fc F3]; subst. inversion F3 as [|? ? Fd F4]; subst.
    cbn [map app]. destruct (IH suf F4 S) as (l & D).
    { intros P. specialize (M P). cbn [map app length] in M. rewrite mod4_S in M. exact M. }
    destruct (map letter r ++ suf) as [|x t] eqn:E.
    + eexists. apply D_four; assumption.
    + eexists. apply D_block; try assumption; [discriminate|]. exact D.
Qed.
End Chars.
