(** C16-C19: base64, base64url and url encoding of tm_stringutil.h. *)
From Coq Require Import Arith NArith String List Bool Lia.
From Coq Require Import ZifyBool ZifyNat ZifyN.
From Verif Require Import Base CodecModel CodecSpec CodecProofs CodecUrl.
Import ListNotations.
Local Open Scope N_scope.

(** ** Alphabets *)
Lemma alphabet_64 : tmsu_base64_chars = rfc_alphabet.
Proof. vm_compute. reflexivity. Qed.
Lemma alphabet_url : tmsu_base64url_chars = rfc_url_alphabet.
Proof. vm_compute. reflexivity. Qed.

Lemma absent : forall l x, existsb (N.eqb x) l = false -> ~ In x l.
Proof.
  intros l x H I. assert (E : existsb (N.eqb x) l = true); [|congruence].
  apply existsb_exists. exists x. split; [exact I|apply N.eqb_refl].
Qed.

Fixpoint nodupb (l : list N) : bool := match l with [] => true | x :: r => negb (existsb (N.eqb x) r) && nodupb r end.
Lemma nodupb_ok : forall l, nodupb l = true -> NoDup l.
Proof.
  induction l as [|x l IH]; intros H; [constructor|]. cbn [nodupb] in H. apply andb_true_iff in H. destruct H as [H1 H2].
  constructor; [|apply IH; exact H2]. apply negb_true_iff in H1. apply absent. exact H1.
Qed.
Definition good (chars : list N) : Prop := length chars = 64%nat /\ ~ In 0 chars /\ NoDup chars /\ ~ In 61 chars.
Lemma good_64 : good tmsu_base64_chars.
Proof. split; [|split; [|split]]; [vm_compute; reflexivity|apply absent; vm_compute; reflexivity|apply nodupb_ok; vm_compute; reflexivity|apply absent; vm_compute; reflexivity]. Qed.
Lemma good_url : good tmsu_base64url_chars.
Proof. split; [|split; [|split]]; [vm_compute; reflexivity|apply absent; vm_compute; reflexivity|apply nodupb_ok; vm_compute; reflexivity|apply absent; vm_compute; reflexivity]. Qed.

Lemma groups_length : forall s, (length (groups s) = length s / 3 * 4 + match length s mod 3 with 0 => 0 | 1 => 2 | _ => 3 end)%nat.
Proof.
  induction s as [|a|a b|a b c r IH] using list3_ind; try reflexivity. cbn [groups length]. rewrite IH.
  replace (S (S (S (length r)))) with (length r + 1 * 3)%nat by lia. rewrite Nat.div_add, Nat.mod_add by lia. lia.
Qed.
Lemma div3_cases : forall n, exists q r, (n = 3 * q + r /\ r < 3 /\ n / 3 = q /\ n mod 3 = r)%nat.
Proof. intros n. exists (n / 3)%nat, (n mod 3)%nat. pose proof (Nat.div_mod n 3 ltac:(lia)). pose proof (Nat.mod_upper_bound n 3 ltac:(lia)). auto. Qed.
Lemma text_size_pad : forall chars s, (length (text chars true s) = 4 * ((length s + 2) / 3))%nat.
Proof.
  intros chars s. unfold text, pads. rewrite app_length, map_length, groups_length.
  destruct (div3_cases (length s)) as (q & r & -> & Hr & E1 & E2). rewrite E1, E2.
  assert (C : (r = 0 \/ r = 1 \/ r = 2)%nat) by lia. destruct C as [-> | [-> | ->]]; rewrite repeat_length.
  - replace (3 * q + 0 + 2)%nat with (2 + q * 3)%nat by lia. rewrite Nat.div_add by lia. change (2 / 3)%nat with 0%nat. lia.
  - replace (3 * q + 1 + 2)%nat with (3 + q * 3)%nat by lia. rewrite Nat.div_add by lia. change (3 / 3)%nat with 1%nat. lia.
  - replace (3 * q + 2 + 2)%nat with (4 + q * 3)%nat by lia. rewrite Nat.div_add by lia. change (4 / 3)%nat with 1%nat. lia.
Qed.
Lemma text_size_url : forall chars s, (length (text chars false s) = (4 * length s + 2) / 3)%nat.
Proof.
  intros chars s. unfold text. rewrite app_nil_r, map_length, groups_length.
  destruct (div3_cases (length s)) as (q & r & -> & Hr & E1 & E2). rewrite E1, E2.
  assert (C : (r = 0 \/ r = 1 \/ r = 2)%nat) by lia. destruct C as [-> | [-> | ->]].
  - replace (4 * (3 * q + 0) + 2)%nat with (2 + (4 * q) * 3)%nat by lia. rewrite Nat.div_add by lia. change (2 / 3)%nat with 0%nat. lia.
  - replace (4 * (3 * q + 1) + 2)%nat with (6 + (4 * q) * 3)%nat by lia. rewrite Nat.div_add by lia. change (6 / 3)%nat with 2%nat. lia.
  - replace (4 * (3 * q + 2) + 2)%nat with (10 + (4 * q) * 3)%nat by lia. rewrite Nat.div_add by lia. change (10 / 3)%nat with 3%nat. lia.
Qed.
Lemma splice_0 : forall out t, splice out 0 t = t ++ skipn (length t) out.
Proof. reflexivity. Qed.
Lemma firstn_here : forall (t r : list N), firstn (length t) (t ++ r) = t.
Proof. intros t r. rewrite firstn_app, Nat.sub_diag, firstn_all. cbn [firstn]. apply app_nil_r. Qed.

Lemma text_padded : forall s, Forall byte s -> padded_text s (text tmsu_base64_chars true s).
Proof.
  intros s H. exists (groups s), (pads (length s)). split; [apply groups_sextets; exact H|].
  split; [unfold pads; destruct (length s mod 3)%nat as [|[|?]]; lia|]. split; [unfold text, letter; rewrite alphabet_64; reflexivity|].
  rewrite text_size_pad, Nat.mul_comm. apply Nat.mod_mul. lia.
Qed.
Lemma text_url : forall s, Forall byte s -> url_text s (text tmsu_base64url_chars false s).
Proof.
  intros s H. exists (groups s). split; [apply groups_sextets; exact H|].
  unfold text, letter. rewrite app_nil_r, alphabet_url. reflexivity.
Qed.

Lemma decode64_ok : forall t l out osz, decoded tmsu_base64_chars true t l -> (osz <= length out)%nat ->
  exists out', tmsu_base64_decode t out osz = Some (length l, out') /\ length out' = length out /\
    ((length l < osz)%nat -> out' = l ++ skipn (length l) out).
Proof.
  intros t l out osz D Ho. destruct good_64 as (G1 & G2 & G3 & G4). unfold tmsu_base64_decode.
  destruct (Nat.eqb_spec (length t) 0) as [Z|Z].
  { destruct t; [|discriminate]. inversion D; subst. exists out. repeat split. }
  destruct (decoded_groups _ _ _ _ D) as [M _]. rewrite (M eq_refl). cbn [Nat.eqb negb].
  destruct (decode_ok _ G1 G2 G3 G4 true t 0 out osz ltac:(intros _; apply M; reflexivity) Ho) as (n & o & E & L & [(l' & D' & -> & C)|[_ C]]).
  - rewrite (decoded_fun _ G1 G2 G3 G4 _ _ _ _ D D'). exists o. split; [exact E|]. split; [exact L|]. intros H. rewrite (C H). apply splice_0.
  - destruct (C _ D).
Qed.
Lemma decodeurl_ok : forall t l out osz, decoded tmsu_base64url_chars false t l -> length t <> 1%nat -> (osz <= length out)%nat ->
  exists out', tmsu_base64url_decode t out osz = Some (length l, out') /\ length out' = length out /\
    ((length l < osz)%nat -> out' = l ++ skipn (length l) out).
Proof.
  intros t l out osz D N1 Ho. destruct good_url as (G1 & G2 & G3 & G4). unfold tmsu_base64url_decode.
  destruct (Nat.ltb_spec (length t) 2) as [Z|Z].
  { destruct t as [|? [|? ?]]; cbn [length] in *; try lia. inversion D; subst. exists out. repeat split. }
  destruct (decode_ok _ G1 G2 G3 G4 false t 0 out osz ltac:(intros Q; discriminate) Ho) as (n & o & E & L & [(l' & D' & -> & C)|[_ C]]).
  - rewrite (decoded_fun _ G1 G2 G3 G4 _ _ _ _ D D'). exists o. split; [exact E|]. split; [exact L|]. intros H. rewrite (C H). apply splice_0.
  - destruct (C _ D).
Qed.

(** ** C16 *)
(** With buffers larger than required, encoding writes exactly the text of RFC 4648, leaves the rest of the buffer alone,
    and decoding that text writes the original bytes back. *)
Theorem C16_base64_roundtrip : forall s out back, Forall byte s ->
  (4 * ((length s + 2) / 3) < length out)%nat -> (length s < length back)%nat ->
  exists t, padded_text s t /\ length t = (4 * ((length s + 2) / 3))%nat /\
    tmsu_base64_encode s out (length out) = Some (length t, t ++ skipn (length t) out) /\
    tmsu_base64_decode t back (length back) = Some (length s, s ++ skipn (length s) back).
Proof.
  intros s out back Hs Ho Hb. destruct good_64 as (G1 & G2 & G3 & G4). exists (text tmsu_base64_chars true s).
  split; [apply text_padded; exact Hs|]. split; [apply text_size_pad|]. split.
  - unfold tmsu_base64_encode. rewrite (encode_ok _ G1) by (try assumption; try rewrite text_size_pad; lia). reflexivity.
  - destruct (decode64_ok _ _ back (length back) (text_decoded _ G1 G2 G3 G4 true s Hs) (le_n _)) as (o & E & _ & C). rewrite E, (C Hb). reflexivity.
Qed.
Theorem C16_base64url_roundtrip : forall s out back, Forall byte s ->
  ((4 * length s + 2) / 3 < length out)%nat -> (length s < length back)%nat ->
  exists t, url_text s t /\ length t = ((4 * length s + 2) / 3)%nat /\
    tmsu_base64url_encode s out (length out) = Some (length t, t ++ skipn (length t) out) /\
    tmsu_base64url_decode t back (length back) = Some (length s, s ++ skipn (length s) back).
Proof.
  intros s out back Hs Ho Hb. destruct good_url as (G1 & G2 & G3 & G4). exists (text tmsu_base64url_chars false s).
  split; [apply text_url; exact Hs|]. split; [apply text_size_url|]. split.
  - unfold tmsu_base64url_encode. rewrite (encode_ok _ G1) by (try assumption; try rewrite text_size_url; lia). reflexivity.
  - assert (N1 : length (text tmsu_base64url_chars false s) <> 1%nat).
    { unfold text. rewrite app_nil_r, map_length, groups_length. destruct (length s mod 3)%nat as [|[|?]]; lia. }
    destruct (decodeurl_ok _ _ back (length back) (text_decoded _ G1 G2 G3 G4 false s Hs) N1 (le_n _)) as (o & E & _ & C). rewrite E, (C Hb). reflexivity.
Qed.
Example C16_case :
  tmsu_base64_encode (codes "pleasure") (repeat 0 13) 13 = Some (12%nat, codes "cGxlYXN1cmU=" ++ [0]) /\
  tmsu_base64_decode (codes "cGxlYXN1cmU=") (repeat 0 9) 9 = Some (8%nat, codes "pleasure" ++ [0]) /\
  tmsu_base64url_encode [251; 255; 254; 7] (repeat 0 7) 7 = Some (6%nat, codes "-__-Bw" ++ [0]).
Proof. repeat split; vm_compute; reflexivity. Qed.

(** ** C17 *)
(** For every buffer size the encoders run without writing outside of the buffer (the buffer is exactly [out_size]
    cells, a write outside would be undefined); the number reported is at most what is required and at least two less;
    it is exact when no partial group is left; with more room than required the text is complete. *)
Theorem C17_base64_encode_partial : forall s out, Forall byte s ->
  let needed := (4 * ((length s + 2) / 3))%nat in
  exists n out', tmsu_base64_encode s out (length out) = Some (n, out') /\ length out' = length out /\
    (n <= needed <= n + 2)%nat /\ (length s mod 3 = 0 -> n = needed)%nat /\
    ((needed < length out)%nat -> n = needed /\ exists t, padded_text s t /\ out' = t ++ skipn n out).
Proof.
  intros s out Hs needed. destruct good_64 as (G1 & _). unfold tmsu_base64_encode.
  destruct (encode_size _ G1 true s 0 out (length out) Hs (le_n _)) as (o & E & L).
  assert (Hr : (reported true (length s) (length out) 0 <= needed <= reported true (length s) (length out) 0 + 2
     /\ (length s mod 3 = 0 -> reported true (length s) (length out) 0 = needed))%nat).
  { unfold needed. rewrite <- (text_size_pad tmsu_base64_chars). unfold text, pads. rewrite app_length, map_length, groups_length, repeat_length.
    unfold reported. destruct (length s mod 3)%nat as [|[|k]] eqn:Em; [lia| |].
    - destruct (Nat.ltb_spec (0 + 4 * (length s / 3) + 2)%nat (length out)); lia.
    - pose proof (Nat.mod_upper_bound (length s) 3 ltac:(lia)). assert (k = 0)%nat by lia. subst k. destruct (Nat.ltb_spec (0 + 4 * (length s / 3) + 2)%nat (length out)); lia. }
  exists (reported true (length s) (length out) 0), o. split; [exact E|]. split; [exact L|]. destruct Hr as [Hr1 Hr2]. split; [exact Hr1|]. split; [exact Hr2|].
  intros Ho. rewrite (encode_ok _ G1) in E by (try assumption; try rewrite text_size_pad; unfold needed in Ho; lia).
  injection E as E1 E2. rewrite text_size_pad in E1. cbn [Nat.add] in E1. split; [unfold needed; lia|]. exists (text tmsu_base64_chars true s).
  split; [apply text_padded; exact Hs|]. rewrite <- E2, <- E1, splice_0, text_size_pad. reflexivity.
Qed.
Theorem C17_base64url_encode_partial : forall s out, Forall byte s ->
  let needed := ((4 * length s + 2) / 3)%nat in
  exists n out', tmsu_base64url_encode s out (length out) = Some (n, out') /\ length out' = length out /\
    (n <= needed <= n + 2)%nat /\ (length s mod 3 = 0 -> n = needed)%nat /\
    ((needed < length out)%nat -> n = needed /\ exists t, url_text s t /\ out' = t ++ skipn n out).
Proof.
  intros s out Hs needed. destruct good_url as (G1 & _). unfold tmsu_base64url_encode.
  destruct (encode_size _ G1 false s 0 out (length out) Hs (le_n _)) as (o & E & L).
  assert (Hr : (reported false (length s) (length out) 0 <= needed <= reported false (length s) (length out) 0 + 2
     /\ (length s mod 3 = 0 -> reported false (length s) (length out) 0 = needed))%nat).
  { unfold needed. rewrite <- (text_size_url tmsu_base64url_chars). unfold text, pads. rewrite app_nil_r, map_length, groups_length.
    unfold reported. destruct (length s mod 3)%nat as [|[|k]] eqn:Em; [lia| |].
    - destruct (Nat.ltb_spec (0 + 4 * (length s / 3) + 2)%nat (length out)); lia.
    - destruct (Nat.ltb_spec (0 + 4 * (length s / 3) + 2)%nat (length out)); lia. }
  exists (reported false (length s) (length out) 0), o. split; [exact E|]. split; [exact L|]. destruct Hr as [Hr1 Hr2]. split; [exact Hr1|]. split; [exact Hr2|].
  intros Ho. rewrite (encode_ok _ G1) in E by (try assumption; try rewrite text_size_url; unfold needed in Ho; lia).
  injection E as E1 E2. rewrite text_size_url in E1. cbn [Nat.add] in E1. split; [unfold needed; lia|]. exists (text tmsu_base64url_chars false s).
  split; [apply text_url; exact Hs|]. rewrite <- E2, <- E1, splice_0, text_size_url. reflexivity.
Qed.
(** Decoding never writes outside of the buffer whatever the text, and the size reported does not depend on the buffer;
    with more room than required the bytes are complete. *)
Theorem C17_base64_decode_partial : forall t, exists n bytes, length bytes = n /\ forall out,
  exists out', tmsu_base64_decode t out (length out) = Some (n, out') /\ length out' = length out /\
    ((n < length out)%nat -> firstn n out' = bytes /\ (n <> 0%nat -> skipn n out' = skipn n out)).
Proof.
  intros t. destruct good_64 as (G1 & G2 & G3 & G4). unfold tmsu_base64_decode.
  destruct (Nat.eqb_spec (length t) 0) as [Z|Z]; [exists 0%nat, []; split; [reflexivity|]; intros out; exists out; repeat split; intros; lia|].
  destruct (Nat.eqb_spec (length t mod 4) 0) as [M|M]; cbn [negb];
    [|exists 0%nat, []; split; [reflexivity|]; intros out; exists out; repeat split; intros; lia].
  assert (Ac : acceptable true t) by (intros _; exact M).
  destruct (decode_ok _ G1 G2 G3 G4 true t 0 [] 0 Ac (le_n _)) as (n & o & E & L & [(l & D & -> & C)|[-> C]]).
  - exists (length l), l. split; [reflexivity|]. intros out.
    destruct (decode_ok _ G1 G2 G3 G4 true t 0 out (length out) Ac (le_n _)) as (n' & o' & E' & L' & [(l' & D' & -> & C')|[-> C']]); [|destruct (C' _ D)].
    rewrite (decoded_fun _ G1 G2 G3 G4 _ _ _ _ D D'). exists o'. split; [exact E'|]. split; [exact L'|]. intros H. rewrite (C' H), splice_0. split; [apply firstn_here|intros _].
    rewrite skipn_app, skipn_all, Nat.sub_diag. reflexivity.
  - exists 0%nat, []. split; [reflexivity|]. intros out.
    destruct (decode_ok _ G1 G2 G3 G4 true t 0 out (length out) Ac (le_n _)) as (n' & o' & E' & L' & [(l' & D' & -> & C')|[-> C']]); [destruct (C _ D')|].
    exists o'. split; [exact E'|]. split; [exact L'|]. intros _. split; [reflexivity|lia].
Qed.
Theorem C17_base64url_decode_partial : forall t, exists n bytes, length bytes = n /\ forall out,
  exists out', tmsu_base64url_decode t out (length out) = Some (n, out') /\ length out' = length out /\
    ((n < length out)%nat -> firstn n out' = bytes /\ (n <> 0%nat -> skipn n out' = skipn n out)).
Proof.
  intros t. destruct good_url as (G1 & G2 & G3 & G4). unfold tmsu_base64url_decode.
  destruct (Nat.ltb_spec (length t) 2) as [Z|Z]; [exists 0%nat, []; split; [reflexivity|]; intros out; exists out; repeat split; intros; lia|].
  assert (Ac : acceptable false t) by (intros Q; discriminate).
  destruct (decode_ok _ G1 G2 G3 G4 false t 0 [] 0 Ac (le_n _)) as (n & o & E & L & [(l & D & -> & C)|[-> C]]).
  - exists (length l), l. split; [reflexivity|]. intros out.
    destruct (decode_ok _ G1 G2 G3 G4 false t 0 out (length out) Ac (le_n _)) as (n' & o' & E' & L' & [(l' & D' & -> & C')|[-> C']]); [|destruct (C' _ D)].
    rewrite (decoded_fun _ G1 G2 G3 G4 _ _ _ _ D D'). exists o'. split; [exact E'|]. split; [exact L'|]. intros H. rewrite (C' H), splice_0. split; [apply firstn_here|intros _].
    rewrite skipn_app, skipn_all, Nat.sub_diag. reflexivity.
  - exists 0%nat, []. split; [reflexivity|]. intros out.
    destruct (decode_ok _ G1 G2 G3 G4 false t 0 out (length out) Ac (le_n _)) as (n' & o' & E' & L' & [(l' & D' & -> & C')|[-> C']]); [destruct (C _ D')|].
    exists o'. split; [exact E'|]. split; [exact L'|]. intros _. split; [reflexivity|lia].
Qed.
(** A buffer of exactly the required size does not receive the complete result, although the size reported does not
    exceed it. *)
Theorem C17_exact_fit_refuted :
  (exists s t out', Forall byte s /\ padded_text s t /\
     tmsu_base64_encode s (repeat 0 (length t)) (length t) = Some (length t, out') /\ firstn (length t) out' <> t) /\
  (exists s t out', Forall byte s /\ padded_text s t /\
     tmsu_base64_decode t (repeat 0 (length s)) (length s) = Some (length s, out') /\ firstn (length s) out' <> s).
Proof.
  assert (B : Forall byte (codes "abc")) by (repeat constructor).
  split; exists (codes "abc"), (codes "YWJj"); eexists.
  - split; [exact B|]. split; [exact (text_padded _ B)|]. split; [vm_compute; reflexivity|]. vm_compute. discriminate.
  - split; [exact B|]. split; [exact (text_padded _ B)|]. split; [vm_compute; reflexivity|]. vm_compute. discriminate.
Qed.
(** Asking for the size with an empty buffer reports too little whenever a partial group is left: 0 for one byte
    instead of 2 (url alphabet), 2 instead of 4 (padded). *)
Theorem C17_sizing_refuted :
  (exists s t n, Forall byte s /\ url_text s t /\ tmsu_base64url_encode s [] 0 = Some (n, []) /\ (n < length t)%nat /\ n = 0%nat) /\
  (exists s t n, Forall byte s /\ padded_text s t /\ tmsu_base64_encode s [] 0 = Some (n, []) /\ (n < length t)%nat).
Proof.
  assert (B : Forall byte (codes "a")) by (repeat constructor).
  split; exists (codes "a"); [exists (codes "YQ")|exists (codes "YQ==")]; eexists.
  - split; [exact B|]. split; [exact (text_url _ B)|]. split; [vm_compute; reflexivity|]. vm_compute. auto.
  - split; [exact B|]. split; [exact (text_padded _ B)|]. split; [vm_compute; reflexivity|]. vm_compute. auto.
Qed.
Example C17_case :
  tmsu_base64_encode (codes "abcde") (repeat 0 9) 9 = Some (8%nat, codes "YWJjZGU=" ++ [0]) /\
  tmsu_base64_encode (codes "abcde") (repeat 0 5) 5 = Some (6%nat, codes "YWJj" ++ [0]) /\
  tmsu_base64_decode (codes "YWJjZGU=") (repeat 0 4) 4 = Some (5%nat, codes "abc" ++ [0]).
Proof. repeat split; vm_compute; reflexivity. Qed.

(** ** C18 *)
(** Exactly the texts of the grammar are accepted, apart from one malformed kind: a letter after the first '='. The
    bytes are the ones the groups of six bits carry. *)
Theorem C18_padded_partial : forall t out, t <> [] -> 
  exists n out', tmsu_base64_decode t out (length out) = Some (n, out') /\
    (n <> 0%nat <-> exists xs, padded_grammar t xs \/ padded_quirk t xs) /\
    ((n < length out)%nat -> forall xs, padded_grammar t xs -> carries xs (firstn n out')).
Proof.
  intros t out Ht. destruct good_64 as (G1 & G2 & G3 & G4).
  assert (Fwd : forall l, decoded tmsu_base64_chars true t l -> exists xs, padded_grammar t xs \/ padded_quirk t xs).
  { intros l D. destruct (decoded_groups _ _ _ _ D) as (M & xs & suf & F & E & S & _). specialize (M eq_refl). exists xs.
    unfold letter in E. rewrite alphabet_64 in E. destruct S as [->|[_ [->|[->|(d & I & ->)]]]].
    - left. exists 0%nat. repeat split; try assumption. lia.
    - left. exists 1%nat. repeat split; try assumption. lia.
    - left. exists 2%nat. repeat split; try assumption. lia.
    - right. exists d. rewrite alphabet_64 in I. repeat split; assumption. }
  assert (Bwd : forall xs, padded_grammar t xs \/ padded_quirk t xs -> exists l, decoded tmsu_base64_chars true t l).
  { intros xs H. assert (Q : exists suf, Forall (fun x => x < 64) xs /\ t = map (letter tmsu_base64_chars) xs ++ suf /\ suffix_ok tmsu_base64_chars true suf /\ (length t mod 4 = 0)%nat).
    { unfold letter. rewrite alphabet_64. destruct H as [(p & Hp & F & E & M)|(d & I & F & E & M)].
      - exists (repeat 61 p). split; [exact F|]. split; [exact E|]. split; [|exact M].
        destruct p as [|[|[|p]]]; [left; reflexivity|right; auto|right; auto|lia].
      - exists [61; d]. split; [exact F|]. split; [exact E|]. split; [|exact M]. right. split; [reflexivity|]. right. right. exists d. auto. }
    destruct Q as (suf & F & E & S & M). rewrite E in M |- *. apply groups_decoded; [exact F|exact S|intros _; exact M]. }
  destruct (Nat.eq_dec (length t mod 4) 0) as [M|M].
  2:{ exists 0%nat, out. unfold tmsu_base64_decode. destruct (Nat.eqb_spec (length t) 0) as [Z|Z]; [destruct t; [congruence|discriminate]|].
      destruct (Nat.eqb_spec (length t mod 4) 0) as [M'|_]; [congruence|]. cbn [negb]. split; [reflexivity|]. split.
      - split; [congruence|]. intros (xs & H). destruct (Bwd xs H) as (l & D). destruct (decoded_groups _ _ _ _ D) as [Q _]. specialize (Q eq_refl). congruence.
      - intros _ xs (p & _ & _ & _ & Q). congruence. }
  assert (Ac : acceptable true t) by (intros _; exact M).
  destruct (decode_ok _ G1 G2 G3 G4 true t 0 out (length out) Ac (le_n _)) as (n & o & E & L & D).
  exists n, o. split.
  { unfold tmsu_base64_decode. destruct (Nat.eqb_spec (length t) 0) as [Z|Z]; [destruct t; [congruence|discriminate]|]. rewrite M. exact E. }
  destruct D as [(l & D & -> & C)|[-> C]].
  - pose proof (decoded_pos _ _ _ _ D Ht) as P. split; [split; [intros _; eapply Fwd; exact D|intros _; cbn [Nat.add]; lia]|].
    cbn [Nat.add] in *. intros H xs G. rewrite (C H), splice_0, firstn_here.
    (* the groups are determined by the text *)
    destruct (decoded_groups _ _ _ _ D) as (_ & ys & suf & F & Et & S & K).
    assert (Same : xs = ys).
    { destruct G as (p & _ & Fx & Ex & _). unfold letter in Et. rewrite alphabet_64 in Et. rewrite Ex in Et.
      assert (Ns : forall y, y < 64 -> nth (N.to_nat y) rfc_alphabet 0 <> 61).
      { intros y Hy Q. rewrite <- alphabet_64 in Q. exact (letter_not_61 _ G1 G4 y Hy Q). }
      assert (Inj : forall x y, x < 64 -> y < 64 -> nth (N.to_nat x) rfc_alphabet 0 = nth (N.to_nat y) rfc_alphabet 0 -> x = y).
      { intros x y Hx Hy Q. rewrite <- alphabet_64 in Q. pose proof (char_value_letter _ G1 G2 G3 x Hx) as P1. pose proof (char_value_letter _ G1 G2 G3 y Hy) as P2.
        unfold letter in P1, P2. rewrite Q in P1. congruence. }
      assert (Hd : forall r, suf = r :: tl suf -> r = 61).
      { intros r Q. destruct S as [->|[_ [->|[->|(d & _ & ->)]]]]; cbn in Q; congruence. }
      clear K. revert ys F Et. clear - Fx Ns Inj Hd. induction Fx as [|x xs Hx Fx IH]; intros ys F Et.
      - destruct ys as [|y ys]; [reflexivity|]. inversion F; subst. cbn [map app] in Et. destruct p as [|p]; [discriminate|].
        cbn [repeat] in Et. injection Et as Q _. destruct (Ns y); [assumption|symmetry; exact Q].
      - destruct ys as [|y ys].
        + cbn [map app] in Et. destruct suf as [|r suf]; [discriminate|]. rewrite (Hd r eq_refl) in Et. injection Et as Q _.
          destruct (Ns x Hx Q).
        + inversion F; subst. cbn [map app] in Et. injection Et as Q Et. apply Inj in Q; try assumption. subst. f_equal. apply IH; try assumption. }
    subst ys. apply K. 
    (* a group of one letter is impossible: the text has a multiple of four characters and at most two '=' *)
    destruct G as (p & Hp & _ & Ex & _). rewrite Ex, app_length, map_length, repeat_length in M. intros Q.
    pose proof (Nat.div_mod (length xs) 4 ltac:(lia)) as Dv. rewrite Q in Dv. rewrite Dv in M.
    replace (4 * (length xs / 4) + 1 + p)%nat with (1 + p + (length xs / 4) * 4)%nat in M by lia. rewrite Nat.mod_add in M by lia.
    destruct p as [|[|[|p]]]; try discriminate; lia.
  - split; [split; [congruence|]|].
    + intros (xs & H). destruct (Bwd xs H) as (l & D). destruct (C l D).
    + intros _ xs H. destruct (Bwd xs (or_introl H)) as (l & D). destruct (C l D).
Qed.
Theorem C18_url_partial : forall t out, (2 <= length t)%nat ->
  exists n out', tmsu_base64url_decode t out (length out) = Some (n, out') /\
    (n <> 0%nat <-> exists xs, url_grammar t xs \/ url_quirk t xs) /\
    ((n < length out)%nat -> forall xs, url_grammar t xs -> carries xs (firstn n out')).
Proof.
  intros t out Ht. destruct good_url as (G1 & G2 & G3 & G4).
  assert (Ht' : t <> []) by (intros ->; cbn in Ht; lia).
  assert (Fwd : forall l, decoded tmsu_base64url_chars false t l -> exists xs, url_grammar t xs \/ url_quirk t xs).
  { intros l D. destruct (decoded_groups _ _ _ _ D) as (_ & xs & suf & F & E & S & _). exists xs.
    unfold letter in E. rewrite alphabet_url in E. destruct S as [->|[Q _]]; [|discriminate]. rewrite app_nil_r in E.
    destruct (Nat.eq_dec (length t mod 4) 1); [right|left]; repeat split; assumption. }
  assert (Bwd : forall xs, url_grammar t xs \/ url_quirk t xs -> exists l, decoded tmsu_base64url_chars false t l).
  { intros xs H. assert (Q : Forall (fun x => x < 64) xs /\ t = map (letter tmsu_base64url_chars) xs ++ []).
    { unfold letter. rewrite alphabet_url, app_nil_r. destruct H as [(F & E & M)|(F & E & M)]; split; assumption. }
    destruct Q as (F & E). rewrite E. apply groups_decoded; [exact F|left; reflexivity|intros Q; discriminate]. }
  assert (Ac : acceptable false t) by (intros Q; discriminate).
  destruct (decode_ok _ G1 G2 G3 G4 false t 0 out (length out) Ac (le_n _)) as (n & o & E & L & D).
  exists n, o. split.
  { unfold tmsu_base64url_decode. destruct (Nat.ltb_spec (length t) 2) as [Z|Z]; [lia|]. exact E. }
  destruct D as [(l & D & -> & C)|[-> C]].
  - pose proof (decoded_pos _ _ _ _ D Ht') as P. split; [split; [intros _; eapply Fwd; exact D|intros _; cbn [Nat.add]; lia]|].
    cbn [Nat.add] in *. intros H xs G. rewrite (C H), splice_0, firstn_here.
    destruct (decoded_groups _ _ _ _ D) as (_ & ys & suf & F & Et & S & K). destruct S as [->|[Q _]]; [|discriminate]. rewrite app_nil_r in Et.
    destruct G as (Fx & Ex & Mx).
    assert (Same : xs = ys).
    { unfold letter in Et. rewrite alphabet_url in Et. rewrite Ex in Et.
      assert (Inj : forall x y, x < 64 -> y < 64 -> nth (N.to_nat x) rfc_url_alphabet 0 = nth (N.to_nat y) rfc_url_alphabet 0 -> x = y).
      { intros x y Hx Hy Q. rewrite <- alphabet_url in Q. pose proof (char_value_letter _ G1 G2 G3 x Hx) as P1. pose proof (char_value_letter _ G1 G2 G3 y Hy) as P2.
        unfold letter in P1, P2. rewrite Q in P1. congruence. }
      clear K. revert ys F Et. clear - Fx Inj. induction Fx as [|x xs Hx Fx IH]; intros ys F Et.
      - destruct ys; [reflexivity|discriminate].
      - destruct ys as [|y ys]; [discriminate|]. inversion F; subst. cbn [map] in Et. injection Et as Q Et. apply Inj in Q; try assumption. subst. f_equal. apply IH; assumption. }
    subst ys. apply K. rewrite Ex, map_length in Mx. exact Mx.
  - split; [split; [congruence|]|].
    + intros (xs & H). destruct (Bwd xs H) as (l & D). destruct (C l D).
    + intros _ xs H. destruct (Bwd xs (or_introl H)) as (l & D). destruct (C l D).
Qed.
(** The two malformed kinds are accepted. *)
Theorem C18_rejects_malformed_refuted :
  (exists t n out', (forall xs, ~ padded_grammar t xs) /\ tmsu_base64_decode t (repeat 0 8) 8 = Some (n, out') /\ n <> 0%nat) /\
  (exists t n out', (forall xs, ~ url_grammar t xs) /\ tmsu_base64url_decode t (repeat 0 8) 8 = Some (n, out') /\ n <> 0%nat).
Proof.
  split.
  - exists (codes "AB=C"). eexists. eexists. split; [|split; [vm_compute; reflexivity|discriminate]].
    intros xs (p & Hp & F & E & _). change (codes "AB=C") with [65; 66; 61; 67] in E.
    destruct good_64 as (G1 & G2 & G3 & G4).
    assert (Ns : forall y, y < 64 -> nth (N.to_nat y) rfc_alphabet 0 <> 61).
    { intros y Hy Q. rewrite <- alphabet_64 in Q. exact (letter_not_61 _ G1 G4 y Hy Q). }
    destruct xs as [|a [|b [|c xs]]]; cbn [map app] in E.
    + destruct p; discriminate.
    + destruct p; discriminate.
    + destruct p as [|[|[|p]]]; try discriminate.
    + inversion F as [|? ? _ F1]; subst. inversion F1 as [|? ? _ F2]; subst. inversion F2 as [|? ? Hc _]; subst.
      injection E as _ _ E _. destruct (Ns c Hc). symmetry. exact E.
  - exists (codes "ABCDE"). eexists. eexists. split; [|split; [vm_compute; reflexivity|discriminate]].
    intros xs (_ & _ & M). apply M. reflexivity.
Qed.
Example C18_case :
  padded_grammar (codes "YQ==") [24; 16] /\ padded_quirk (codes "AB=C") [0; 1] /\
  tmsu_base64_decode (codes "Y=Q=") (repeat 0 8) 8 = Some (0%nat, repeat 0 8) /\
  tmsu_base64_decode (codes "YQ=") (repeat 0 8) 8 = Some (0%nat, repeat 0 8) /\
  tmsu_base64_decode (codes "YQ==YQ==") (repeat 0 8) 8 = Some (0%nat, repeat 0 8) /\
  tmsu_base64url_decode (codes "AB+D") (repeat 0 8) 8 = Some (0%nat, repeat 0 8).
Proof.
  split; [exists 2%nat; repeat split; [lia|repeat constructor]|].
  split; [exists 67; repeat split; [vm_compute; auto 10|repeat constructor]|].
  repeat split; vm_compute; reflexivity.
Qed.

(** ** C19 *)
(** For every input and buffer size: a text of unreserved characters and upper case %XX that stands for the input; the
    size returned is its length; the buffer receives as much of it as fits (all of it if it fits, also exactly) and is
    otherwise unchanged; decoding returns the input, again for every buffer size. *)
Theorem C19_url_roundtrip : forall s, Forall byte s -> exists t,
  percent_text s t /\ (forall c, In c t -> In c unreserved \/ c = 37 \/ In c hex_upper) /\
  (forall out, tmsu_url_encode s out (length out) = Some (length t, firstn (length out) t ++ skipn (length t) out)) /\
  (forall back, tmsu_url_decode t back (length back) = Some (length s, firstn (length back) s ++ skipn (length s) back)).
Proof.
  intros s Hs. exists (flat_map enc s). split; [apply percent_encoded; exact Hs|]. split; [intros c; apply enc_chars; exact Hs|].
  assert (Clip : forall out l, clip out (length out) 0 l = firstn (length out) l ++ skipn (length l) out).
  { intros out l. unfold clip. rewrite Nat.sub_0_r, splice_0, firstn_length. f_equal.
    destruct (le_lt_dec (length l) (length out)) as [Q|Q]; [rewrite Nat.min_r by lia; reflexivity|].
    rewrite Nat.min_l by lia. rewrite !skipn_all2 by lia. reflexivity. }
  split.
  - intros out. unfold tmsu_url_encode. rewrite url_encode_ok by lia. rewrite Clip. reflexivity.
  - intros back. unfold tmsu_url_decode.
    destruct (url_decode_ok _ (flat_map enc s) 0 back (length back) (le_n _) (le_n _)) as [(l & D & E)|[D _]].
    + rewrite E, Clip, (percent_fun _ _ (percent_encoded s Hs) _ D). reflexivity.
    + destruct (D _ (percent_encoded s Hs)).
Qed.
(** Decoding of arbitrary texts: exactly the texts made of unreserved characters and %HH are accepted, and the result is
    exact for every buffer size; everything else returns 0. Nothing outside of the buffer is written. *)
Theorem C19_url_decode : forall t back,
  (exists s, percent_text s t /\ tmsu_url_decode t back (length back) = Some (length s, firstn (length back) s ++ skipn (length s) back)) \/
  ((forall s, ~ percent_text s t) /\ exists back', tmsu_url_decode t back (length back) = Some (0%nat, back') /\ length back' = length back).
Proof.
  intros t back. unfold tmsu_url_decode.
  destruct (url_decode_ok _ t 0 back (length back) (le_n _) (le_n _)) as [(l & D & E)|D]; [left|right; exact D].
  exists l. split; [exact D|]. rewrite E. f_equal. f_equal. unfold clip. rewrite Nat.sub_0_r, splice_0, firstn_length. f_equal.
  destruct (le_lt_dec (length l) (length back)) as [Q|Q]; [rewrite Nat.min_r by lia; reflexivity|].
  rewrite Nat.min_l by lia. rewrite !skipn_all2 by lia. reflexivity.
Qed.
Example C19_case :
  tmsu_url_encode (codes "a b/~") (repeat 0 11) 11 = Some (11%nat, codes "a%20b%2F%7E") /\
  tmsu_url_encode (codes "a b/~") (repeat 0 4) 4 = Some (11%nat, codes "a%20") /\
  tmsu_url_decode (codes "a%20b%2f%7E") (repeat 0 5) 5 = Some (5%nat, codes "a b/~") /\
  tmsu_url_decode (codes "a%2") (repeat 0 5) 5 = Some (0%nat, [97; 0; 0; 0; 0]).
Proof. repeat split; vm_compute; reflexivity. Qed.

Print Assumptions C16_base64_roundtrip.
Print Assumptions C16_base64url_roundtrip.
Print Assumptions C17_base64_encode_partial.
Print Assumptions C17_base64url_encode_partial.
Print Assumptions C17_base64_decode_partial.
Print Assumptions C17_base64url_decode_partial.
Print Assumptions C17_exact_fit_refuted.
Print Assumptions C17_sizing_refuted.
Print Assumptions C18_padded_partial.
Print Assumptions C18_url_partial.
Print Assumptions C18_rejects_malformed_refuted.
Print Assumptions C19_url_roundtrip.
Print Assumptions C19_url_decode.
