(** Conversion loops, skipping, truncation and counting. *)
From Coq Require Import Arith NArith ZArith List Bool Lia.
From Coq Require Import ZifyBool ZifyNat ZifyN.
From Verif Require Import Base CodecModel CodecProofs UniModel UniSpec UniProofs UniValid.
Import ListNotations.
Local Open Scope N_scope.

Definition encode_ok (seq : N -> list N -> Prop) (encode : N -> list N -> nat -> nat -> option (nat * list N)) : Prop :=
  forall v buf pos room, scalar v -> (pos + room <= length buf)%nat ->
  exists ch, seq v ch /\ encode v buf pos room = Some (length ch, if (room <? length ch)%nat then buf else splice buf pos ch).
Definition seq_functional (seq : N -> list N -> Prop) : Prop := forall v ch ch', seq v ch -> seq v ch' -> ch = ch'.
Definition seq_nonempty (seq : N -> list N -> Prop) : Prop := forall v ch, seq v ch -> (0 < length ch)%nat.
Definition seq_scalars (seq : N -> list N -> Prop) : Prop := forall v ch, seq v ch -> scalar v.

Lemma utf8_ne : seq_nonempty utf8_seq. Proof. intros v ch H. apply (seq_ne v ch H). Qed.
Lemma utf16_ne' : seq_nonempty utf16_seq. Proof. intros v ch H. apply (utf16_ne v ch H). Qed.

Lemma splice_at_end : forall buf cs, length cs = length buf -> splice buf 0 cs = cs.
Proof. intros buf cs H. unfold splice. cbn [firstn app Nat.add]. rewrite skipn_all2 by lia. apply app_nil_r. Qed.

(** ** Output streams *)
Fixpoint append_all (app : N -> ostream -> option (bool * ostream)) (vs : list N) (o : ostream) : option (bool * ostream) :=
  match vs with
  | [] => Some (errc_eqb (o_ec o) OK, o)
  | v :: vs' => ' (_, o') <- app v o ;; append_all app vs' o'
  end.
Section Append.
Variable seq : N -> list N -> Prop.
Variable encode : N -> list N -> nat -> nat -> option (nat * list N).
Hypothesis enc : encode_ok seq encode.
Hypothesis fn : seq_functional seq.
Hypothesis ne : seq_nonempty seq.
Hypothesis sc : seq_scalars seq.
Lemma append_all_spec : forall vs us o, encodes seq vs us -> (o_size o <= length (o_data o))%nat ->
  exists o', append_all (append encode) vs o = Some (errc_eqb (o_ec o') OK, o') /\ o_necessary o' = (o_necessary o + length us)%nat /\ length (o_data o') = length (o_data o) /\
    if (o_size o + length us <=? length (o_data o))%nat then o_ec o' = o_ec o /\ o_size o' = (o_size o + length us)%nat /\ o_data o' = splice (o_data o) (o_size o) us
    else o_ec o' = ERANGE /\ o_size o' = length (o_data o).
Proof using All.
  intros vs us o H. revert o. induction H as [|v vs ch us S H IH]; intros o Ho.
  - exists o. cbn [append_all length]. rewrite !Nat.add_0_r. rewrite (proj2 (Nat.leb_le _ _) Ho). rewrite splice_nil. repeat split; reflexivity.
  - cbn [append_all]. unfold append at 1. unfold assert_. rewrite (proj2 (Nat.leb_le _ _) Ho).
    destruct (enc v (o_data o) (o_size o) (length (o_data o) - o_size o)%nat (sc v ch S) ltac:(lia)) as (ch' & S' & E). rewrite (fn v ch' ch S' S) in E. rewrite E.
    pose proof (ne v ch S) as Ln. rewrite app_length. destruct (Nat.ltb_spec (length (o_data o) - o_size o) (length ch)) as [L|L].
    + destruct (IH (OStream (o_data o) (length (o_data o)) (o_necessary o + length ch) ERANGE) ltac:(cbn; lia)) as (o' & E' & N' & D' & R'). cbn [o_data o_size o_necessary o_ec] in *.
      exists o'. split; [exact E'|]. split; [lia|]. split; [exact D'|]. destruct (Nat.leb_spec (o_size o + (length ch + length us)) (length (o_data o))) as [Q|Q]; [lia|].
      destruct (Nat.leb_spec (length (o_data o) + length us) (length (o_data o))) as [Q'|Q']; [|exact R']. destruct R' as (R1 & R2 & R3). split; [exact R1|]. lia.
    + destruct (IH (OStream (splice (o_data o) (o_size o) ch) (o_size o + length ch) (o_necessary o + length ch) (o_ec o)) ltac:(cbn; rewrite splice_length by lia; lia)) as (o' & E' & N' & D' & R').
      cbn [o_data o_size o_necessary o_ec] in *. rewrite splice_length in * by lia. exists o'. split; [exact E'|]. split; [lia|]. split; [exact D'|].
      rewrite Nat.add_assoc. destruct (Nat.leb_spec (o_size o + length ch + length us) (length (o_data o))) as [Q|Q]; [|exact R'].
      destruct R' as (R1 & R2 & R3). split; [exact R1|]. split; [lia|]. rewrite R3. apply splice_splice. lia.
Qed.
End Append.

(** ** The conversion loop *)
Section Conv.
Variables seqi seqo : N -> list N -> Prop.
Variable extract : list N -> option (bool * N * list N).
Variable encode : N -> list N -> nat -> nat -> option (nat * list N).
Hypothesis ext : forall v ch rest, seqi v ch -> extract (ch ++ rest) = Some (true, v, rest).
Hypothesis enc : encode_ok seqo encode.
Hypothesis fn : seq_functional seqo.
Hypothesis nei : seq_nonempty seqi.
Hypothesis neo : seq_nonempty seqo.
Hypothesis sco : seq_scalars seqo.
Definition st_ok (st : cstate) : Prop := (c_pos st + c_room st <= length (c_buf st))%nat.
(** The state after writing [bs] from state [st]. *)
Definition wrote (st st' : cstate) (bs : list N) : Prop :=
  c_size st' = (c_size st + length bs)%nat /\ length (c_buf st') = length (c_buf st) /\ st_ok st' /\
  if (length bs <=? c_room st)%nat
  then c_ec st' = c_ec st /\ c_buf st' = splice (c_buf st) (c_pos st) bs /\ c_pos st' = (c_pos st + length bs)%nat /\ c_room st' = (c_room st - length bs)%nat
  else c_ec st' = ERANGE /\ c_room st' = 0%nat.
Lemma wrote_nil : forall st, st_ok st -> wrote st st [].
Proof using.
  clear. intros st H. unfold wrote. cbn [length]. split; [lia|]. split; [reflexivity|]. split; [exact H|]. change (0 <=? c_room st)%nat with true. cbv iota. rewrite splice_nil. repeat split; lia.
Qed.
Lemma wrote_app : forall st st1 st2 a b, st_ok st -> (0 < length b \/ b = [])%nat -> wrote st st1 a -> wrote st1 st2 b -> wrote st st2 (a ++ b).
Proof using.
  clear. intros st st1 st2 a b Ok Hb (A1 & A2 & A3 & A4) (B1 & B2 & B3 & B4). unfold st_ok in Ok. unfold wrote. rewrite app_length. split; [lia|]. split; [lia|]. split; [exact B3|].
  destruct (Nat.leb_spec (length a) (c_room st)) as [La|La].
  - destruct A4 as (A5 & A6 & A7 & A8). rewrite A8 in B4. destruct (Nat.leb_spec (length b) (c_room st - length a)) as [Lb|Lb].
    + destruct (Nat.leb_spec (length a + length b) (c_room st)) as [_|Q]; [|lia]. destruct B4 as (B5 & B6 & B7 & B8). split; [congruence|]. split; [|split; lia].
      rewrite B6, A6, A7. apply splice_splice. lia.
    + destruct (Nat.leb_spec (length a + length b) (c_room st)) as [Q|_]; [lia|]. exact B4.
  - destruct A4 as (A5 & A6). destruct (Nat.leb_spec (length a + length b) (c_room st)) as [Q|_]; [lia|]. rewrite A6 in B4. destruct Hb as [Hb|Hb].
    + destruct (Nat.leb_spec (length b) 0) as [Q|_]; [lia|]. exact B4.
    + subst b. cbn [length] in B4. change (0 <=? 0)%nat with true in B4. cbv iota in B4. destruct B4 as (B5 & _ & _ & B8). rewrite B5, B8, A5. auto.
Qed.
Lemma put_wrote : forall v ch st, seqo v ch -> st_ok st -> exists st', conv_put encode v st = Some st' /\ wrote st st' ch /\ c_invalid st' = c_invalid st.
Proof using enc fn sco.
  clear ext nei neo extract seqi. intros v ch st S Ok. unfold conv_put. destruct (enc v (c_buf st) (c_pos st) (c_room st) (sco v ch S) Ok) as (ch' & S' & E). rewrite (fn v ch' ch S' S) in E. rewrite E.
  eexists. split; [reflexivity|]. unfold wrote, st_ok in *. destruct (Nat.ltb_spec (c_room st) (length ch)) as [L|L]; cbn [c_size c_ec c_buf c_pos c_room c_invalid]; (split; [|reflexivity]).
  - split; [reflexivity|]. split; [reflexivity|]. split; [lia|]. destruct (Nat.leb_spec (length ch) (c_room st)) as [Q|_]; [lia|]. auto.
  - rewrite splice_length by lia. split; [reflexivity|]. split; [reflexivity|]. split; [lia|]. rewrite (proj2 (Nat.leb_le _ _) L). auto.
Qed.
Lemma replace_wrote : forall rep st, st_ok st -> exists st', conv_replace rep st = Some st' /\ wrote st st' rep /\ c_invalid st' = true.
Proof using.
  clear. intros rep st Ok. unfold conv_replace, wrote, st_ok in *. destruct (Nat.ltb_spec (c_room st) (length rep)) as [L|L].
  - eexists. split; [reflexivity|]. cbn [c_size c_ec c_buf c_pos c_room c_invalid]. split; [|reflexivity]. split; [reflexivity|]. split; [reflexivity|]. split; [lia|].
    destruct (Nat.leb_spec (length rep) (c_room st)) as [Q|_]; [lia|]. auto.
  - rewrite write_list_splice by lia. eexists. split; [reflexivity|]. cbn [c_size c_ec c_buf c_pos c_room c_invalid]. split; [|reflexivity]. rewrite splice_length by lia.
    split; [reflexivity|]. split; [reflexivity|]. split; [lia|]. rewrite (proj2 (Nat.leb_le _ _) L). auto.
Qed.
Lemma wrote_ok : forall st st' bs, wrote st st' bs -> st_ok st'.
Proof using. clear. intros st st' bs H. apply H. Qed.
(** A well-formed prefix is converted, whatever follows and whatever the mode. *)
Lemma conv_prefix : forall vs us bs, encodes seqi vs us -> encodes seqo vs bs -> forall rest v rep st fuel, st_ok st ->
  exists st', wrote st st' bs /\ c_invalid st' = c_invalid st /\
    conv_loop extract encode (length vs + fuel) v rep (us ++ rest) st = conv_loop extract encode fuel v rep rest st'.
Proof using All.
  intros vs us bs H. revert bs. induction H as [|w vs ch us S H IH]; intros bs B rest v rep st fuel Ok.
  - inversion B; subst. exists st. split; [apply wrote_nil; exact Ok|]. split; reflexivity.
  - inversion B as [|w' vs' cho bs' So B' E1 E2]; subst. destruct (put_wrote w cho st So Ok) as (st1 & P1 & W1 & I1).
    destruct (IH bs' B' rest v rep st1 fuel (wrote_ok _ _ _ W1)) as (st2 & W2 & I2 & E). exists st2. split; [|split; [congruence|]].
    + eapply wrote_app; [exact Ok| |exact W1|exact W2]. destruct bs'; [right; reflexivity|left; cbn; lia].
    + rewrite <- E. cbn [length Nat.add conv_loop]. rewrite <- app_assoc. pose proof (ext w ch (us ++ rest) S) as X. pose proof (nei w ch S). destruct ch as [|c ch]; [cbn in *; lia|].
      cbn [app] in *. rewrite X, P1. reflexivity.
Qed.
Lemma conv_valid : forall vs us bs v rep st fuel, encodes seqi vs us -> encodes seqo vs bs -> st_ok st -> (length us <= fuel)%nat ->
  exists st', wrote st st' bs /\ c_invalid st' = c_invalid st /\ conv_loop extract encode fuel v rep us st = Done st'.
Proof using All.
  intros vs us bs v rep st fuel H B Ok Hf.
  assert (L : (length vs <= length us)%nat) by (clear - H nei; induction H as [|w vs ch us S H IH]; [reflexivity|]; rewrite app_length; pose proof (nei w ch S); cbn [length]; lia).
  destruct (conv_prefix vs us bs H B [] v rep st (fuel - length vs) Ok) as (st' & W & I & E). exists st'. split; [exact W|]. split; [exact I|].
  rewrite app_nil_r in E. replace (length vs + (fuel - length vs))%nat with fuel in E by lia. rewrite E. destruct (fuel - length vs)%nat; reflexivity.
Qed.
Variable U : list N -> Prop.
Hypothesis Utail : forall a b, U (a ++ b) -> U b.
Hypothesis bad : forall s, U s -> s <> [] -> ill_formed_at seqi s -> (exists cp, extract s = Some (false, cp, s)).
Lemma conv_error : forall vs us bs rest rep st fuel, U rest -> encodes seqi vs us -> encodes seqo vs bs -> rest <> [] -> ill_formed_at seqi rest -> st_ok st -> (length us < fuel)%nat ->
  exists st', c_ec st' = EINVAL /\ c_invalid st' = true /\ length (c_buf st') = length (c_buf st) /\ st_ok st' /\ conv_loop extract encode fuel V_error rep (us ++ rest) st = Done st'.
Proof using All.
  intros vs us bs rest rep st fuel Hu H B Hn Hi Ok Hf.
  assert (L : (length vs <= length us)%nat) by (clear - H nei; induction H as [|w vs ch us S H IH]; [reflexivity|]; rewrite app_length; pose proof (nei w ch S); cbn [length]; lia).
  destruct (conv_prefix vs us bs H B rest V_error rep st (fuel - length vs) Ok) as (st' & W & I & E). replace (length vs + (fuel - length vs))%nat with fuel in E by lia. rewrite E.
  destruct (bad rest Hu Hn Hi) as (cp & X). destruct (fuel - length vs)%nat as [|fl] eqn:F; [lia|]. destruct rest as [|c rest]; [congruence|]. cbn [conv_loop]. rewrite X.
  eexists. split; [|split; [|split; [|split; [|reflexivity]]]]; [reflexivity|reflexivity|apply W|apply W].
Qed.
Lemma conv_skip : forall us vs bs rep st fuel, U us -> kept seqi us vs -> encodes seqo vs bs -> st_ok st -> (length us <= fuel)%nat ->
  exists st', wrote st st' bs /\ (c_invalid st' = true <-> c_invalid st = true \/ ~ encodes seqi vs us) /\ conv_loop extract encode fuel V_skip rep us st = Done st'.
Proof using All.
  intros us vs bs rep st fuel Hu H. revert bs st fuel. induction H as [|w vs ch us S H IH|c us vs I H IH]; intros bs st fuel B Ok Hf.
  - inversion B; subst. exists st. split; [apply wrote_nil; exact Ok|]. split; [|destruct fuel; reflexivity]. split; [auto|]. intros [Q|Q]; [exact Q|]. exfalso. apply Q. constructor.
  - inversion B as [|w' vs' cho bs' So B' E1 E2]; subst. destruct (put_wrote w cho st So Ok) as (st1 & P1 & W1 & I1). pose proof (nei w ch S) as Ln. rewrite app_length in Hf.
    destruct fuel as [|fuel]; [lia|]. destruct (IH (Utail _ _ Hu) bs' st1 fuel B' (wrote_ok _ _ _ W1) ltac:(lia)) as (st2 & W2 & I2 & E). exists st2. split; [|split].
    + eapply wrote_app; [exact Ok| |exact W1|exact W2]. destruct bs'; [right; reflexivity|left; cbn; lia].
    + rewrite I2, I1. split; (intros [Q|Q]; [left; exact Q|right; intros Q2; apply Q]).
      * inversion Q2 as [|a b c d S2 H2 F1 F2]; subst. pose proof (ext w ch us S) as X1. rewrite <- F2, (ext w c d S2) in X1. injection X1 as ->. exact H2.
      * constructor; assumption.
    + cbn [conv_loop]. pose proof (ext w ch us S) as X. destruct ch as [|c ch]; [cbn in *; lia|]. cbn [app] in *. rewrite X, P1. exact E.
  - destruct fuel as [|fuel]; [cbn in Hf; lia|]. destruct (IH (Utail [c] us Hu) bs (CState (c_size st) (c_ec st) true (c_buf st) (c_pos st) (c_room st)) fuel B Ok ltac:(cbn in Hf; lia)) as (st2 & W2 & I2 & E).
    exists st2. split; [exact W2|]. split.
    + rewrite I2. cbn [c_invalid]. split; [intros _; right|left; reflexivity]. intros Q. inversion Q as [|a b ch d S2 H2 F1 F2]; subst. apply I. exists a, ch, d. auto.
    + cbn [conv_loop]. destruct (bad (c :: us) Hu ltac:(discriminate) I) as (cp & X). rewrite X. exact E.
Qed.
Lemma conv_replace_diverges : forall fuel rest rep st, U rest -> rest <> [] -> ill_formed_at seqi rest -> st_ok st ->
  conv_loop extract encode fuel V_replace rep rest st = Running.
Proof using bad encode.
  clear ext enc fn nei neo sco seqo Utail. induction fuel as [|fuel IH]; intros rest rep st Hu Hn Hi Ok; (destruct rest as [|c rest]; [congruence|]); [reflexivity|]. cbn [conv_loop].
  destruct (bad (c :: rest) Hu Hn Hi) as (cp & X). rewrite X. destruct (replace_wrote rep st Ok) as (st' & E & W & _). rewrite E. apply IH; [exact Hu|exact Hn|exact Hi|]. apply W.
Qed.
End Conv.


(** ** Splitting off the longest well-formed prefix *)
Section Split.
Variable seq : N -> list N -> Prop.
Hypothesis ne : seq_nonempty seq.
Lemma split_longest : forall s r, longest_prefix (well_formed seq) s r ->
  exists vs us rest, encodes seq vs us /\ s = us ++ rest /\ length us = r /\ ill_formed_at seq rest.
Proof using All.
  intros s r (L & (vs & W) & M). exists vs, (firstn r s), (skipn r s). split; [exact W|]. split; [rewrite firstn_skipn; reflexivity|]. split; [rewrite firstn_length; lia|].
  intros (v & ch & rest & S & E). pose proof (ne v ch S) as Ln.
  assert (Ls : length s = (r + (length ch + length rest))%nat) by (rewrite <- app_length, <- E, skipn_length; lia).
  enough (Q : (r + length ch <= r)%nat) by lia. apply M; [lia|]. exists (vs ++ [v]).
  replace (firstn (r + length ch) s) with (firstn r s ++ (ch ++ [])).
  - clear - W S. induction W as [|w ws c u S1 W1 IH]; cbn [app]; [constructor; [exact S|constructor]|]. rewrite <- app_assoc. constructor; assumption.
  - rewrite app_nil_r. rewrite <- (firstn_skipn r s) at 2. rewrite firstn_app, firstn_firstn, firstn_length, E. replace (Nat.min (r + length ch) r) with r by lia.
    replace (r + length ch - Nat.min r (length s))%nat with (length ch) by lia. rewrite firstn_app, firstn_all, Nat.sub_diag. cbn [firstn]. rewrite app_nil_r. reflexivity.
Qed.
Lemma ill_formed_firstn : forall s n, ill_formed_at seq s -> ill_formed_at seq (firstn n s).
Proof using.
  clear. intros s n H (v & ch & rest & S & E). apply H. exists v, ch, (rest ++ skipn n s). split; [exact S|]. rewrite app_assoc, <- E, firstn_skipn. reflexivity.
Qed.
Lemma ill_formed_range : forall s r, ill_formed_at seq s -> longest_prefix (well_formed seq) s r -> r = 0%nat.
Proof using All.
  intros s r H (L & (vs & W) & _). inversion W as [E1 E2|v vs' ch us S W' E1 E2]; subst.
  - symmetry in E2. apply (f_equal (@length N)) in E2. rewrite firstn_length in E2. cbn in E2. lia.
  - exfalso. apply H. exists v, ch, (us ++ skipn r s). split; [exact S|]. rewrite app_assoc, E2, firstn_skipn. reflexivity.
Qed.
(** skip_invalid returns the longest well-formed prefix and leaves the buffer alone. *)
Variable range_of : list N -> option nat.
Variable units : list N -> Prop.
Hypothesis units_sub : forall s n, units s -> units (skipn n s) /\ units (firstn n s).
Hypothesis range_ok : forall s, units s -> exists r, range_of s = Some r /\ longest_prefix (well_formed seq) s r.
Lemma skip_rest : forall fuel str r remaining, units str -> (r <= length str)%nat -> ill_formed_at seq (skipn r str) -> (remaining + r < length str)%nat -> (remaining <= fuel)%nat ->
  skip_loop range_of fuel str (length str) r remaining = Some (r, str).
Proof using All.
  induction fuel as [|fuel IH]; intros str r remaining U Lr I Lm Hf; (destruct remaining as [|m]; [reflexivity|]); [lia|]. cbn [skip_loop].
  destruct (range_ok (firstn (S m) (skipn r str)) (proj2 (units_sub _ _ (proj1 (units_sub _ _ U))))) as (q & E & P). rewrite E.
  rewrite (ill_formed_range _ _ (ill_formed_firstn _ _ I) P). unfold assert_. destruct (Nat.eqb_spec r (length str - S m)) as [Q|_]; [lia|].
  rewrite (proj2 (Nat.leb_le _ _)) by lia. cbn [firstn]. rewrite write_list_splice by (cbn; lia). rewrite splice_nil. change (0 =? S m)%nat with false. change (0 + 1 <=? S m)%nat with (0 <=? m)%nat. cbv iota.
  rewrite (proj2 (Nat.leb_le 0 m)) by lia. rewrite Nat.add_0_r. replace (S m - (0 + 1))%nat with m by lia. apply IH; try assumption; lia.
Qed.
Lemma skip_spec : forall str, units str -> exists r, skip_loop range_of (length str) str (length str) 0 (length str) = Some (r, str) /\ longest_prefix (well_formed seq) str r.
Proof using All.
  intros str U. destruct (range_ok str U) as (r & E & P). exists r. split; [|exact P]. destruct (split_longest str r P) as (vs & us & rest & W & Es & Lu & I).
  pose proof (proj1 P) as L. destruct str as [|c str]; [cbn [length skip_loop] in *; assert (Q0 : r = 0%nat) by lia; rewrite Q0; reflexivity|]. remember (c :: str) as s eqn:Hs. assert (Ls : length s = S (length str)) by (subst; reflexivity).
  rewrite Ls. cbn [skip_loop]. rewrite Nat.sub_diag. change (0 =? 0)%nat with true. cbv iota. cbn [skipn]. rewrite <- Ls, firstn_all, E. destruct (Nat.eqb_spec r (length s)) as [Q|Q]; [rewrite Nat.add_0_l; reflexivity|].
  unfold assert_. rewrite (proj2 (Nat.leb_le _ _)) by lia. rewrite Nat.add_0_l. apply skip_rest; try assumption; try lia. rewrite Es, skipn_app, Lu, Nat.sub_diag, skipn_all2 by lia. exact I.
Qed.
End Split.
