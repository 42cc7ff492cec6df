(** Conversion of bytes: the loops and the two kinds of output stream. *)
From Coq Require Import Arith NArith ZArith List Bool Lia.
From Coq Require Import ZifyBool ZifyNat ZifyN.
From Verif Require Import Base CodecModel CodecProofs UniModel UniSpec UniProofs UniValid UniConv BytesModel BytesSpec.
Import ListNotations.
Local Open Scope N_scope.

(** ** Units and bytes *)
Lemma u16_be_value : forall a b, a < 256 -> b < 256 -> u16_be a b = a * 256 + b.
Proof. intros a b Ha Hb. unfold u16_be, w16. rewrite (N.mod_small b) by lia. rewrite N.lor_comm, (lor_add' _ a b 8 (shl a 8)) by lia. rewrite shl. change (2 ^ 8) with 256. apply N.mod_small. lia. Qed.
Lemma u16_le_value : forall a b, a < 256 -> b < 256 -> u16_le a b = b * 256 + a.
Proof. intros a b Ha Hb. apply (u16_be_value b a Hb Ha). Qed.
Lemma u32_be_value : forall a b c d, a < 256 -> b < 256 -> c < 256 -> d < 256 -> u32_be a b c d = ((a * 256 + b) * 256 + c) * 256 + d.
Proof.
  intros a b c d Ha Hb Hc Hd. unfold u32_be, w32. rewrite (N.lor_comm d), (lor_add' _ c d 8 (shl c 8)) by lia.
  rewrite (N.lor_comm _ (N.shiftl b 16)), (lor_add' _ b _ 16 (shl b 16)) by (rewrite shl; change (2 ^ 8) with 256; change (2 ^ 16) with 65536; lia).
  rewrite (N.lor_comm _ (N.shiftl a 24)), (lor_add' _ a _ 24 (shl a 24)) by (rewrite !shl; change (2 ^ 8) with 256; change (2 ^ 16) with 65536; change (2 ^ 24) with 16777216; lia).
  rewrite !shl. change (2 ^ 8) with 256. change (2 ^ 16) with 65536. change (2 ^ 24) with 16777216. rewrite N.mod_small by lia. lia.
Qed.
Lemma u32_le_value : forall a b c d, a < 256 -> b < 256 -> c < 256 -> d < 256 -> u32_le a b c d = ((d * 256 + c) * 256 + b) * 256 + a.
Proof. intros a b c d Ha Hb Hc Hd. apply (u32_be_value d c b a Hd Hc Hb Ha). Qed.
Lemma div_mod_octets : forall u, u < 65536 -> u / 256 < 256 /\ u mod 256 < 256 /\ u / 256 * 256 + u mod 256 = u.
Proof. intros u H. pose proof (N.div_mod u 256 ltac:(discriminate)) as D. pose proof (N.mod_lt u 256 ltac:(discriminate)) as M. set (q := u / 256) in *. set (r := u mod 256) in *. clearbody q r. lia. Qed.
(** The order of the bytes of a unit and the function that reads it. *)
Definition order16 (put : N -> list N) (get : N -> N -> N) : Prop := forall u, u < 65536 -> exists a b, put u = [a; b] /\ get a b = u.
Definition order32 (put : N -> list N) (get : N -> N -> N -> N -> N) : Prop := forall u, u < 4294967296 -> exists a b c d, put u = [a; b; c; d] /\ get a b c d = u.
Lemma order_be16 : order16 be16 u16_be.
Proof. intros u H. destruct (div_mod_octets u H) as (A & B & C). exists (u / 256), (u mod 256). split; [reflexivity|]. rewrite u16_be_value by assumption. exact C. Qed.
Lemma order_le16 : order16 le16 u16_le.
Proof. intros u H. destruct (div_mod_octets u H) as (A & B & C). exists (u mod 256), (u / 256). split; [reflexivity|]. rewrite u16_le_value by assumption. exact C. Qed.
Lemma octets32 : forall u, u < 4294967296 -> u / 16777216 < 256 /\ u / 65536 mod 256 < 256 /\ u / 256 mod 256 < 256 /\ u mod 256 < 256 /\ ((u / 16777216 * 256 + u / 65536 mod 256) * 256 + u / 256 mod 256) * 256 + u mod 256 = u.
Proof.
  intros u H. assert (E2 : u / 65536 = u / 256 / 256) by (rewrite N.div_div by discriminate; reflexivity). assert (E3 : u / 16777216 = u / 65536 / 256) by (rewrite N.div_div by discriminate; reflexivity).
  rewrite E3, E2. pose proof (N.div_mod u 256 ltac:(discriminate)) as D1. pose proof (N.mod_lt u 256 ltac:(discriminate)) as M1. set (q := u / 256) in *. set (r := u mod 256) in *. clearbody q r.
  pose proof (N.div_mod q 256 ltac:(discriminate)) as D2. pose proof (N.mod_lt q 256 ltac:(discriminate)) as M2. set (q2 := q / 256) in *. set (r2 := q mod 256) in *. clearbody q2 r2.
  pose proof (N.div_mod q2 256 ltac:(discriminate)) as D3. pose proof (N.mod_lt q2 256 ltac:(discriminate)) as M3. set (q3 := q2 / 256) in *. set (r3 := q2 mod 256) in *. clearbody q3 r3. lia.
Qed.
Lemma order_be32 : order32 be32 u32_be.
Proof. intros u H. destruct (octets32 u H) as (A & B & C & D & E). eexists _, _, _, _. split; [reflexivity|]. rewrite u32_be_value by assumption. exact E. Qed.
Lemma order_le32 : order32 le32 u32_le.
Proof. intros u H. destruct (octets32 u H) as (A & B & C & D & E). eexists _, _, _, _. split; [reflexivity|]. rewrite u32_le_value by assumption. exact E. Qed.

(** ** The loops as one fold *)
Section Loops.
Variable fresh : nat -> nat -> option (list N).
Fixpoint handles (v : validate) (rep cps : list N) (o : bstream) : option step :=
  match cps with
  | [] => Some (Go o)
  | cp :: cps' => s <- handle fresh v rep cp o ;; match s with Go o' => handles v rep cps' o' | Stop o' => Some (Stop o') end
  end.
(** Codepoints that are handled alike: the same one, or two that are not scalar values. *)
Lemma handle_bad : forall v rep c d o, ~ scalar c -> ~ scalar d -> handle fresh v rep c o = handle fresh v rep d o.
Proof. intros v rep c d o Hc Hd. unfold handle. destruct (tmu_is_valid_codepoint c) eqn:E; [apply valid_scalar in E; contradiction|]. destruct (tmu_is_valid_codepoint d) eqn:E2; [apply valid_scalar in E2; contradiction|]. reflexivity. Qed.
Lemma invalid_bad : ~ scalar TMU_INVALID_CODEPOINT. Proof. unfold scalar, TMU_INVALID_CODEPOINT. lia. Qed.
Lemma surrogate_bad : forall c, lead_surrogate c \/ trail_surrogate c -> ~ scalar c. Proof. unfold scalar, lead_surrogate, trail_surrogate. lia. Qed.
Lemma short2 : forall (rest : list N), (length rest < 2)%nat -> rest = [] \/ exists a, rest = [a].
Proof. intros [|a [|b r]] H; cbn in H; [auto|right; eauto|lia]. Qed.
Lemma utf16_fold : forall put get, order16 put get -> forall us cps, values16 us cps -> Forall (fun u => u < 65536) us -> forall v rep rest o, (length rest < 2)%nat ->
  exists left, utf16_loop fresh get v rep (flat_map put us ++ rest) o = match handles v rep cps o with None => None | Some (Go o') => Some (rest, Go o') | Some (Stop o') => Some (left o', Stop o') end.
Proof.
  intros put get O us cps H. induction H as [|v0 ch us vs S H IH|c us vs S H IH|c d us vs Sc Sd H IH|c S]; intros U v rep rest o L.
  - exists (fun _ => rest). cbn [flat_map app handles]. destruct (short2 rest L) as [-> | [a ->]]; reflexivity.
  - destruct S as [w Hw Sw|w Hw].
    + cbn [app] in U. apply Forall_cons_iff in U as [U1 U]. destruct (O w U1) as (a & b & E & G). cbn [app flat_map]. rewrite E. cbn [app utf16_loop handles]. rewrite G.
      destruct (is_lead w) eqn:Q; [apply is_lead_spec in Q; exfalso; unfold scalar in Sw; lia|]. destruct (handle fresh v rep w o) as [[o'|o']|].
      * destruct (IH U v rep rest o' L) as [l R]. rewrite R. exists l. reflexivity.
      * eexists (fun _ => _). reflexivity.
      * exists (fun _ => []). reflexivity.
    + cbn [app] in U. apply Forall_cons_iff in U as [U1 U]. apply Forall_cons_iff in U as [U2 U]. destruct (O _ U1) as (a & b & E & G). destruct (O _ U2) as (a2 & b2 & E2 & G2). cbn [app flat_map]. rewrite E, E2. cbn [app utf16_loop handles].
      rewrite G, G2. assert (Dv : w - 0x10000 = 1024 * ((w - 0x10000) / 1024) + (w - 0x10000) mod 1024) by (apply N.div_mod; discriminate). assert (Dm := N.mod_lt (w - 0x10000) 1024 ltac:(discriminate)). clear E E2 G G2 O.
      set (q := (w - 0x10000) / 1024) in *. set (r := (w - 0x10000) mod 1024) in *. clearbody q r.
      rewrite (proj2 (is_lead_spec (0xD800 + q))) by lia. rewrite (proj2 (is_trail_spec (0xDC00 + r))) by lia. rewrite pair_value by lia.
      replace ((0xD800 + q - 0xD800) * 1024 + (0xDC00 + r - 0xDC00) + 0x10000) with w by lia. destruct (handle fresh v rep w o) as [[o'|o']|].
      * destruct (IH U v rep rest o' L) as [l R]. rewrite R. exists l. reflexivity.
      * eexists (fun _ => _). reflexivity.
      * exists (fun _ => []). reflexivity.
  - apply Forall_cons_iff in U as [U1 U]. destruct (O c U1) as (a & b & E & G). cbn [app flat_map]. rewrite E. cbn [app utf16_loop handles]. rewrite G.
    destruct (is_lead c) eqn:Q; [apply is_lead_spec in Q; exfalso; unfold trail_surrogate in S; lia|]. destruct (handle fresh v rep c o) as [[o'|o']|].
    + destruct (IH U v rep rest o' L) as [l R]. rewrite R. exists l. reflexivity.
    + eexists (fun _ => _). reflexivity.
    + exists (fun _ => []). reflexivity.
  - apply Forall_cons_iff in U as [U1 U]. apply Forall_cons_iff in U as [U2 U]. destruct (O c U1) as (a & b & E & G). destruct (O d U2) as (a2 & b2 & E2 & G2). cbn [app flat_map]. rewrite E, E2. cbn [app utf16_loop handles]. rewrite G, G2.
    rewrite (proj2 (is_lead_spec c) Sc). destruct (is_trail d) eqn:Q; [apply is_trail_spec in Q; contradiction|]. rewrite (handle_bad v rep TMU_INVALID_CODEPOINT c o invalid_bad (surrogate_bad c (or_introl Sc))). destruct (handle fresh v rep c o) as [[o'|o']|].
    + destruct (IH U v rep rest o' L) as [l R]. rewrite R. exists l. reflexivity.
    + eexists (fun _ => _). reflexivity.
    + exists (fun _ => []). reflexivity.
  - apply Forall_cons_iff in U as [U1 U]. destruct (O c U1) as (a & b & E & G). cbn [app flat_map]. rewrite E. cbn [app utf16_loop handles]. rewrite G, (proj2 (is_lead_spec c) S).
    rewrite (handle_bad v rep TMU_INVALID_CODEPOINT c o invalid_bad (surrogate_bad c (or_introl S))).
    destruct (short2 rest L) as [-> | [e ->]]; (destruct (handle fresh v rep c o) as [[o'|o']|]; [exists (fun _ => []); reflexivity|eexists (fun _ => _); reflexivity|exists (fun _ => []); reflexivity]).
Qed.
Lemma utf32_fold : forall put get, order32 put get -> forall us, Forall (fun u => u < 4294967296) us -> forall v rep rest o, (length rest < 4)%nat ->
  exists left, utf32_loop fresh get v rep (flat_map put us ++ rest) o = match handles v rep us o with None => None | Some (Go o') => Some (rest, Go o') | Some (Stop o') => Some (left o', Stop o') end.
Proof.
  intros put get O us U. induction U as [|u us U1 U IH]; intros v rep rest o L.
  - exists (fun _ => []). cbn [flat_map app handles]. destruct rest as [|a [|b [|c [|d r]]]]; [reflexivity|reflexivity|reflexivity|reflexivity|cbn in L; lia].
  - destruct (O u U1) as (a & b & c & d & E & G). cbn [app flat_map]. rewrite E. cbn [app utf32_loop handles]. rewrite G. destruct (handle fresh v rep u o) as [[o'|o']|].
    + destruct (IH v rep rest o' L) as [l R]. rewrite R. exists l. reflexivity.
    + eexists (fun _ => _). reflexivity.
    + exists (fun _ => []). reflexivity.
Qed.
Lemma values16_exists : forall us, Forall (fun u => u < 65536) us -> exists cps, values16 us cps.
Proof.
  intros us. remember (length us) as n eqn:L. revert us L. induction n as [n IH] using lt_wf_ind. intros us -> U. destruct us as [|c us]; [exists []; constructor|].
  apply Forall_cons_iff in U as [Uc U]. destruct (is_lead c) eqn:Ql; [|destruct (is_trail c) eqn:Qt].
  - apply is_lead_spec in Ql. destruct us as [|d us]; [exists [c]; apply V16_end; exact Ql|]. apply Forall_cons_iff in U as [Ud U]. destruct (IH (length us) ltac:(cbn; lia) us eq_refl U) as [vs V].
    destruct (is_trail d) eqn:Qd; [apply is_trail_spec in Qd; eexists; apply (V16_seq _ [c; d] us vs (mk16 c d Ql Qd) V)|].
    exists (c :: vs). apply V16_lead; [exact Ql|intros Q; apply is_trail_spec in Q; congruence|exact V].
  - apply is_trail_spec in Qt. destruct (IH (length us) ltac:(cbn; lia) us eq_refl U) as [vs V]. exists (c :: vs). apply V16_trail; assumption.
  - destruct (IH (length us) ltac:(cbn; lia) us eq_refl U) as [vs V]. exists (c :: vs). apply (V16_seq c [c] us vs); [|exact V]. apply U16_1; [lia|]. unfold scalar.
    assert (~ (0xD800 <= c <= 0xDBFF)) by (rewrite <- is_lead_spec; congruence). assert (~ (0xDC00 <= c <= 0xDFFF)) by (rewrite <- is_trail_spec; congruence). lia.
Qed.
Lemma rendered_exists : forall rep cps, exists out, rendered rep cps out.
Proof.
  intros rep cps. induction cps as [|c cps [out IH]]; [exists []; constructor|]. destruct (tmu_is_valid_codepoint c) eqn:E.
  - apply valid_scalar in E. destruct (scalar_seq c E) as [ch H]. exists (ch ++ out). constructor; assumption.
  - exists (rep ++ out). apply R8_bad; [rewrite <- valid_scalar; congruence|exact IH].
Qed.

(** ** What the fold does, for any kind of stream *)
Section Kind.
Variable A : bstream -> list N -> bool -> Prop.   (* has received these octets, flag *)
Variable F : bstream -> Prop.                     (* an allocation failed *)
Hypothesis Hcp : forall o bs i v ch, A o bs i -> utf8_seq v ch -> exists ok o', tmu_output_append_codepoint fresh o v = Some (ok, o') /\ if ok then A o' (bs ++ ch) i else F o'.
Hypothesis Hstr : forall o bs i str, A o bs i -> str <> [] -> exists ok o', tmu_output_append_str fresh o str = Some (ok, o') /\ if ok then A o' (bs ++ str) i else F o'.
Hypothesis Hinv : forall o bs i, A o bs i -> A (set_inv o true) bs true.
Definition bad (c : N) : bool := negb (tmu_is_valid_codepoint c).
Lemma handles_spec : forall r rep cps out, rendered r cps out -> forall v, (v = V_skip /\ r = [] \/ v = V_replace /\ r = rep /\ rep <> [] \/ v = V_error /\ Forall scalar cps) ->
  forall o bs i, A o bs i -> exists s, handles v rep cps o = Some s /\ match s with Go o' => A o' (bs ++ out) (i || existsb bad cps) | Stop o' => F o' end.
Proof using Hcp Hstr Hinv.
  intros r rep cps out R. induction R as [|c ch vs out S R IH|c vs out S R IH]; intros v M o bs i H.
  - exists (Go o). split; [reflexivity|]. cbn [existsb]. rewrite app_nil_r, orb_false_r. exact H.
  - cbn [handles]. unfold handle at 1. pose proof (proj2 (valid_scalar c) (seq_scalar c ch S)) as E. rewrite E. destruct (Hcp o bs i c ch H S) as (ok & o' & Q & P). rewrite Q. destruct ok; [|exists (Stop o'); split; [reflexivity|exact P]].
    destruct (IH v ltac:(destruct M as [M|[M|[M1 M2]]]; [auto|auto|right; right; split; [exact M1|inversion M2; assumption]]) o' (bs ++ ch) i P) as (s & Hs & Ps). exists s. split; [exact Hs|].
    cbn [existsb]. unfold bad at 1. rewrite E. cbn [negb orb]. rewrite app_assoc. exact Ps.
  - cbn [handles]. unfold handle at 1. assert (E : tmu_is_valid_codepoint c = false) by (destruct (tmu_is_valid_codepoint c) eqn:E; [apply valid_scalar in E; contradiction|reflexivity]). rewrite E.
    cbn [existsb]. unfold bad at 1. rewrite E. cbn [negb orb]. rewrite orb_true_r. pose proof (Hinv o bs i H) as H2. destruct M as [[-> ->]|[[-> [-> Ne]]|[-> M]]].
    + destruct (IH V_skip ltac:(auto) _ bs true H2) as (s & Hs & Ps). exists s. split; [exact Hs|]. exact Ps.
    + destruct (Hstr _ bs true rep H2 Ne) as (ok & o' & Q & P). rewrite Q. destruct ok; [|exists (Stop o'); split; [reflexivity|exact P]].
      destruct (IH V_replace ltac:(auto) _ (bs ++ rep) true P) as (s & Hs & Ps). exists s. split; [exact Hs|]. rewrite app_assoc. exact Ps.
    + exfalso. apply Forall_cons_iff in M as [M _]. contradiction.
Qed.
(** The error mode on a text with something invalid. *)
Variable E : bstream -> bool -> Prop.
Hypothesis Hdes : forall o bs i, A o bs i -> E (tmu_destroy_output (set_ec o EINVAL)) i.
Lemma handles_error : forall rep cps, ~ Forall scalar cps -> forall o bs i, A o bs i -> exists o', handles V_error rep cps o = Some (Stop o') /\ (E o' true \/ F o').
Proof using Hcp Hinv Hdes.
  intros rep cps. induction cps as [|c cps IH]; intros B o bs i H; [exfalso; apply B; constructor|]. cbn [handles]. unfold handle at 1. destruct (tmu_is_valid_codepoint c) eqn:V.
  - apply valid_scalar in V. destruct (scalar_seq c V) as [ch S]. destruct (Hcp o bs i c ch H S) as (ok & o' & Q & P). rewrite Q. destruct ok; [|exists o'; auto].
    apply (IH ltac:(intros Q2; apply B; constructor; assumption) o' (bs ++ ch) i P).
  - eexists. split; [reflexivity|]. left. apply (Hdes (set_inv o true) bs true). apply (Hinv o bs i H).
Qed.
End Kind.
End Loops.

(** ** A buffer of the caller *)
Definition fixed (out : list N) (e : encoding) (o : bstream) (bs : list N) (i : bool) : Prop :=
  b_enc o = e /\ b_capacity o = length out /\ b_grow o = false /\ b_owns o = false /\ b_inv o = i /\ b_necessary o = length bs /\ b_left o = [] /\
  exists c, b_data o = Block false c /\ length c = length out /\
  if (length bs <=? length out)%nat then b_ec o = OK /\ b_size o = length bs /\ c = splice out 0 bs else b_ec o = ERANGE /\ (b_size o <= length out)%nat.
Lemma fixed_start : forall out, fixed out E_unknown (make_stream (Block false out) (length out) false) [] false.
Proof. intros out. unfold fixed, make_stream. cbn [b_enc b_capacity b_grow b_owns b_inv b_necessary b_left b_data b_ec b_size length Nat.leb]. do 7 (split; [reflexivity|]). exists out. split; [reflexivity|]. split; [reflexivity|]. rewrite splice_nil. auto. Qed.
Lemma fixed_cells : forall out e o bs i, fixed out e o bs i -> length (cells o) = length out /\ (b_size o <= length out)%nat.
Proof. intros out e o bs i (_ & _ & _ & _ & _ & _ & _ & c & Q & L & D). unfold cells. rewrite Q. split; [exact L|]. destruct (Nat.leb_spec (length bs) (length out)); lia. Qed.
Lemma fixed_cp : forall fresh out e o bs i v ch, fixed out e o bs i -> utf8_seq v ch -> exists ok o', tmu_output_append_codepoint fresh o v = Some (ok, o') /\ if ok then fixed out e o' (bs ++ ch) i else False.
Proof.
  intros fresh out e o bs i v ch H S. destruct (fixed_cells out e o bs i H) as [Lc Ls]. destruct H as (He & H1 & H2 & H3 & H4 & H5 & H6 & c & Q & L & D). unfold tmu_output_append_codepoint. rewrite H1.
  destruct (utf8_encode_spec v (cells o) (b_size o) (length out - b_size o) (seq_scalar v ch S) ltac:(lia)) as (ch' & S' & E). rewrite (seq_fun v ch' ch S' S) in E. rewrite E. pose proof (utf8_ne v ch S) as Ne.
  cbn [b_ec b_grow set_necessary set_cells set_ec set_size b_size b_capacity b_data b_necessary]. unfold cells in *. rewrite Q in *. destruct (Nat.leb_spec (length bs) (length out)) as [B|B].
  - destruct D as (D1 & D2 & ->). rewrite D1, D2. cbn [errc_eqb]. destruct (Nat.ltb_spec (length out - length bs) (length ch)) as [R|R].
    + rewrite H2. eexists true, _. split; [reflexivity|]. unfold fixed. cbn [b_enc b_capacity b_grow b_owns b_inv b_necessary b_left b_data b_ec b_size set_ec set_necessary set_cells]. rewrite Q. split; [exact He|]. split; [exact H1|]. split; [exact H2|]. split; [exact H3|]. split; [exact H4|].
      split; [rewrite app_length; lia|]. split; [exact H6|]. eexists. split; [reflexivity|]. split; [exact L|]. rewrite app_length. rewrite (proj2 (Nat.leb_gt _ _)) by lia. split; [reflexivity|lia].
    + eexists true, _. split; [reflexivity|]. unfold fixed. cbn [b_enc b_capacity b_grow b_owns b_inv b_necessary b_left b_data b_ec b_size set_ec set_size set_necessary set_cells]. rewrite Q. split; [exact He|]. split; [exact H1|]. split; [exact H2|]. split; [exact H3|]. split; [exact H4|].
      split; [rewrite app_length; lia|]. split; [exact H6|]. eexists. split; [reflexivity|]. split; [rewrite splice_length by lia; exact L|]. rewrite app_length. rewrite (proj2 (Nat.leb_le _ _)) by lia. split; [exact D1|]. split; [lia|].
      replace (length bs) with (0 + length bs)%nat at 1 by lia. apply splice_splice. lia.
  - destruct D as (D1 & D2). rewrite D1. cbn [errc_eqb]. eexists true, _. split; [reflexivity|]. unfold fixed. cbn [b_enc b_capacity b_grow b_owns b_inv b_necessary b_left b_data b_ec b_size set_necessary set_cells]. rewrite Q. split; [exact He|]. split; [exact H1|]. split; [exact H2|]. split; [exact H3|]. split; [exact H4|].
    split; [rewrite app_length; lia|]. split; [exact H6|]. eexists. split; [reflexivity|]. split; [destruct (Nat.ltb_spec (length out - b_size o) (length ch)); [exact L|rewrite splice_length by lia; exact L]|]. rewrite app_length. rewrite (proj2 (Nat.leb_gt _ _)) by lia. auto.
Qed.
Lemma fixed_str : forall fresh out e o bs i str, fixed out e o bs i -> str <> [] -> exists ok o', tmu_output_append_str fresh o str = Some (ok, o') /\ if ok then fixed out e o' (bs ++ str) i else False.
Proof.
  intros fresh out e o bs i ch H Ne. destruct (fixed_cells out e o bs i H) as [Lc Ls]. destruct H as (He & H1 & H2 & H3 & H4 & H5 & H6 & c & Q & L & D). unfold tmu_output_append_str.
  assert (Ln : (0 < length ch)%nat) by (destruct ch; [congruence|cbn; lia]). unfold assert_. rewrite (proj2 (Nat.ltb_lt _ _) Ln).
  cbn [b_ec b_grow set_necessary set_cells set_ec set_size b_size b_capacity b_data b_necessary]. rewrite H1. unfold cells in *. cbn [b_data set_necessary]. rewrite Q in *. destruct (Nat.leb_spec (length bs) (length out)) as [B|B].
  - destruct D as (D1 & D2 & ->). rewrite D1, D2. cbn [errc_eqb]. destruct (Nat.ltb_spec (length out - length bs) (length ch)) as [R|R].
    + rewrite H2. eexists true, _. split; [reflexivity|]. unfold fixed. cbn [b_enc b_capacity b_grow b_owns b_inv b_necessary b_left b_data b_ec b_size set_ec set_necessary set_cells]. rewrite Q. split; [exact He|]. split; [exact H1|]. split; [exact H2|]. split; [exact H3|]. split; [exact H4|].
      split; [rewrite app_length; lia|]. split; [exact H6|]. eexists. split; [reflexivity|]. split; [exact L|]. rewrite app_length. rewrite (proj2 (Nat.leb_gt _ _)) by lia. split; [reflexivity|lia].
    + rewrite (proj2 (Nat.leb_le (length ch) _)) by lia. rewrite write_list_splice by (rewrite L; lia). eexists true, _. split; [reflexivity|]. unfold fixed. cbn [b_enc b_capacity b_grow b_owns b_inv b_necessary b_left b_data b_ec b_size set_ec set_size set_necessary set_cells]. rewrite Q. split; [exact He|]. split; [exact H1|]. split; [exact H2|]. split; [exact H3|]. split; [exact H4|].
      split; [rewrite app_length; lia|]. split; [exact H6|]. eexists. split; [reflexivity|]. split; [rewrite splice_length by lia; exact L|]. rewrite app_length. rewrite (proj2 (Nat.leb_le _ _)) by lia. split; [exact D1|]. split; [lia|].
      replace (length bs) with (0 + length bs)%nat at 1 by lia. apply splice_splice. lia.
  - destruct D as (D1 & D2). rewrite D1. cbn [errc_eqb]. eexists true, _. split; [reflexivity|]. unfold fixed. cbn [b_enc b_capacity b_grow b_owns b_inv b_necessary b_left b_data b_ec b_size set_necessary set_cells]. rewrite Q. split; [exact He|]. split; [exact H1|]. split; [exact H2|]. split; [exact H3|]. split; [exact H4|].
    split; [rewrite app_length; lia|]. split; [exact H6|]. eexists. split; [reflexivity|]. split; [exact L|]. rewrite app_length. rewrite (proj2 (Nat.leb_gt _ _)) by lia. auto.
Qed.
Lemma fixed_inv : forall out e o bs i, fixed out e o bs i -> fixed out e (set_inv o true) bs true.
Proof. intros out e o bs i H. unfold fixed in *. cbn [b_enc b_capacity b_grow b_owns b_inv b_necessary b_left b_data b_ec b_size set_inv]. tauto. Qed.
Lemma fixed_enc : forall out e o bs i e', fixed out e o bs i -> fixed out e' (set_enc o e') bs i.
Proof. intros out e o bs i e' H. unfold fixed in *. cbn [b_enc b_capacity b_grow b_owns b_inv b_necessary b_left b_data b_ec b_size set_enc]. tauto. Qed.
Definition fixed_error (out : list N) (e : encoding) (o : bstream) (i : bool) : Prop :=
  b_enc o = e /\ b_ec o = EINVAL /\ b_size o = 0%nat /\ b_inv o = i /\ b_data o = Null /\ length (b_left o) = length out.
Lemma fixed_destroy : forall out e o bs i, fixed out e o bs i -> fixed_error out e (tmu_destroy_output (set_ec o EINVAL)) i.
Proof.
  intros out e o bs i (He & H1 & H2 & H3 & H4 & H5 & H6 & c & Q & L & D). unfold fixed_error, tmu_destroy_output. cbn [b_enc b_ec b_size b_inv b_data b_left b_owns set_ec]. rewrite H3, Q. tauto.
Qed.

Lemma fixed_error_enc : forall out e o i e', fixed_error out e o i -> fixed_error out e' (set_enc o e') i.
Proof. intros out e o i e' H. unfold fixed_error in *. cbn [b_enc b_ec b_size b_inv b_data b_left set_enc]. tauto. Qed.

(** What the caller is told. *)
Definition size_of (o : bstream) : nat := match b_ec o with ERANGE => b_necessary o | _ => b_size o end.
Definition buf_of (o : bstream) : list N := match b_data o with Block _ c => c | Null => b_left o end.
Definition told (out : list N) (e : encoding) (nt : bool) (o : bstream) (bs : list N) (i : bool) : Prop :=
  b_enc o = e /\ b_inv o = i /\ delivered bs nt out (size_of o) (b_ec o) (buf_of o).
Lemma told_enc : forall out e nt o bs i e', told out e nt o bs i -> told out e' nt (set_enc o e') bs i.
Proof. intros out e nt o bs i e' H. unfold told, size_of, buf_of in *. cbn [b_enc b_ec b_size b_inv b_data b_left b_necessary set_enc]. tauto. Qed.
Lemma fixed_told : forall out e o bs i, fixed out e o bs i -> told out e false o bs i.
Proof.
  intros out e o bs i (He & H1 & H2 & H3 & H4 & H5 & H6 & c & Q & L & D). unfold told, delivered, size_of, buf_of. rewrite app_nil_r, Q. split; [exact He|]. split; [exact H4|].
  destruct (Nat.leb_spec (length bs) (length out)); [destruct D as (-> & -> & ->); auto|destruct D as (-> & _); auto].
Qed.
Lemma fixed_ec : forall out e o bs i, fixed out e o bs i -> b_ec o = if (length bs <=? length out)%nat then OK else ERANGE.
Proof. intros out e o bs i (He & H1 & H2 & H3 & H4 & H5 & H6 & c & Q & L & D). destruct (Nat.leb (length bs) (length out)); tauto. Qed.
Lemma seq_zero : utf8_seq 0 [0]. Proof. constructor. reflexivity. Qed.
Lemma fixed_terminate : forall fresh out e o bs i, fixed out e o bs i -> exists o', terminate fresh o = Some (true, o') /\ told out e true o' bs i.
Proof.
  intros fresh out e o bs i H. unfold terminate. destruct (fixed_cp fresh out e o bs i 0 [0] H seq_zero) as (ok & o' & E & P). rewrite E. destruct ok; [|contradiction]. eexists. split; [reflexivity|].
  destruct P as (He & H1 & H2 & H3 & H4 & H5 & H6 & c & Q & L & D). unfold told, delivered, size_of, buf_of. cbn [b_enc b_ec b_size b_inv b_data b_left b_necessary set_size]. rewrite Q. split; [exact He|]. split; [exact H4|].
  destruct (Nat.leb_spec (length (bs ++ [0])) (length out)); [destruct D as (-> & -> & ->); split; [reflexivity|]; split; [rewrite app_length; cbn [length]; lia|reflexivity]|destruct D as (-> & _); auto].
Qed.
Definition replacement (v : validate) (rep : list N) : list N := match v with V_replace => rep | _ => [] end.
Lemma loop_end_fixed : forall fresh out e nt rest o bs i, fixed out e o bs i -> exists o', loop_end fresh nt (rest, Go o) = Some o' /\
  if match rest with [] => false | _ => true end && (length bs <=? length out)%nat then fixed_error out e o' i else told out e nt o' bs i.
Proof.
  intros fresh out e nt rest o bs i H. unfold loop_end. pose proof (fixed_ec _ _ _ _ _ H) as Ec. rewrite Ec.
  assert (Fin : exists o', (if nt && ok_or_range (if (length bs <=? length out)%nat then OK else ERANGE) then match terminate fresh o with Some (_, o0) => Some o0 | None => None end else Some o) = Some o' /\ told out e nt o' bs i).
  { replace (ok_or_range _) with true by (destruct (length bs <=? length out)%nat; reflexivity). rewrite andb_true_r. destruct nt.
    - destruct (fixed_terminate fresh out e o bs i H) as (o' & E & P). rewrite E. eauto.
    - exists o. split; [reflexivity|]. apply fixed_told. exact H. }
  destruct rest as [|x rest]; cbn [negb andb].
  - exact Fin.
  - destruct (length bs <=? length out)%nat; cbn [errc_eqb andb] in *; [|exact Fin]. eexists. split; [reflexivity|]. apply (fixed_destroy out e o bs i H).
Qed.
(** The conversion of code values into a buffer. *)
Definition converted (out : list N) (e : encoding) (v : validate) (rep : list N) (nt : bool) (cps rest : list N) (o : bstream) : Prop :=
  (v = V_error /\ ~ Forall scalar cps /\ fixed_error out e o true) \/
  ((v = V_error -> Forall scalar cps) /\ exists bs, rendered (replacement v rep) cps bs /\
    if match rest with [] => false | _ => true end && (length bs <=? length out)%nat then fixed_error out e o (existsb bad cps) else told out e nt o bs (existsb bad cps)).
Lemma scalars_dec : forall cps, Forall scalar cps \/ ~ Forall scalar cps.
Proof. intros cps. destruct (forallb tmu_is_valid_codepoint cps) eqn:E; [left; apply Forall_forall; intros x I; apply valid_scalar; rewrite forallb_forall in E; auto|right]. intros F. apply Bool.not_true_iff_false in E. apply E. apply forallb_forall. intros x I. rewrite Forall_forall in F. apply valid_scalar. auto. Qed.
Lemma convert_fixed : forall fresh loop cps rest bytes,
  (forall v rep o, exists left, loop v rep bytes o = match handles fresh v rep cps o with None => None | Some (Go o') => Some (rest, Go o') | Some (Stop o') => Some (left o', Stop o') end) ->
  forall v rep nt out e o, (v = V_replace -> rep <> []) -> fixed out e o [] false ->
  exists o', convert_bytes fresh loop v rep nt bytes o = Some o' /\ converted out e v rep nt cps rest o'.
Proof.
  intros fresh loop cps rest bytes HL v rep nt out e o Hr H. unfold convert_bytes, assert_. replace (match v, rep with V_replace, [] => false | _, _ => true end) with true by (destruct v, rep; try reflexivity; exfalso; apply Hr; reflexivity).
  unfold tmu_alloc_output_stream. assert (Hg : b_grow o = false) by apply H. rewrite Hg. cbn [andb]. destruct (HL v rep o) as [left EL]. rewrite EL. clear EL HL.
  destruct (scalars_dec cps) as [Sc|Sc].
  - destruct (rendered_exists (replacement v rep) cps) as [bs R].
    destruct (handles_spec fresh (fixed out e) (fun _ => False) (fixed_cp fresh out e) (fixed_str fresh out e) (fixed_inv out e) (replacement v rep) rep cps bs R v ltac:(destruct v; cbn; [left; auto|right; left; auto|right; right; auto]) o [] false H) as (s & Es & P).
    rewrite Es. destruct s as [o'|o']; [|contradiction]. destruct (loop_end_fixed fresh out e nt rest o' _ _ P) as (o2 & E2 & P2). rewrite E2. exists o2. split; [reflexivity|]. right. split; [auto|]. exists bs. split; [exact R|exact P2].
  - destruct v.
    + destruct (rendered_exists [] cps) as [bs R].
      destruct (handles_spec fresh (fixed out e) (fun _ => False) (fixed_cp fresh out e) (fixed_str fresh out e) (fixed_inv out e) [] rep cps bs R V_skip ltac:(auto) o [] false H) as (s & Es & P).
      rewrite Es. destruct s as [o'|o']; [|contradiction]. destruct (loop_end_fixed fresh out e nt rest o' _ _ P) as (o2 & E2 & P2). rewrite E2. exists o2. split; [reflexivity|]. right. split; [discriminate|]. exists bs. split; [exact R|exact P2].
    + destruct (rendered_exists rep cps) as [bs R].
      destruct (handles_spec fresh (fixed out e) (fun _ => False) (fixed_cp fresh out e) (fixed_str fresh out e) (fixed_inv out e) rep rep cps bs R V_replace (or_intror (or_introl (conj eq_refl (conj eq_refl (Hr eq_refl))))) o [] false H) as (s & Es & P).
      rewrite Es. destruct s as [o'|o']; [|contradiction]. destruct (loop_end_fixed fresh out e nt rest o' _ _ P) as (o2 & E2 & P2). rewrite E2. exists o2. split; [reflexivity|]. right. split; [discriminate|]. exists bs. split; [exact R|exact P2].
    + destruct (handles_error fresh (fixed out e) (fun _ => False) (fixed_cp fresh out e) (fixed_inv out e) (fixed_error out e) (fixed_destroy out e) rep cps Sc o [] false H) as (o' & Es & [P|[]]). rewrite Es. exists o'. split; [reflexivity|]. left. auto.
Qed.
