(** Comparison at addresses, case folding of texts, dynamic conversion. *)
From Coq Require Import Arith NArith ZArith List Bool Lia.
From Coq Require Import ZifyBool ZifyNat ZifyN.
From Verif Require Import Base CodecModel CodecProofs StrSpec StrMore UniModel UniSpec UniProofs UniValid UniConv UniTop UniText UniCompare UniFold.
Import ListNotations.
Local Open Scope N_scope.

Section Addr.
Variable St : Type.
Variable next : St -> option (option (N * St)).
Variable at_end : St -> bool.
Variable init : list N -> St.
Variable T : list N -> list N.
Hypothesis Ty : forall vs s, encodes utf8_seq vs s -> yields next at_end (init s) (T vs).
Hypothesis Tapp : forall vs us, T (vs ++ us) = T vs ++ T us.
Hypothesis Tne : forall vs, Forall scalar vs -> T vs = [] -> vs = [].
Hypothesis Tsmall : forall vs, Forall scalar vs -> Forall (fun c => c < 0x80000000) (T vs).
Lemma T_nil : T [] = [].
Proof using Tapp. clear Ty Tne Tsmall init next at_end St. pose proof (Tapp [] []) as H. cbn [app] in H. apply (f_equal (@length N)) in H. rewrite app_length in H. destruct (T []); [reflexivity|cbn in H; lia]. Qed.
Lemma scalars8 : forall vs s, encodes utf8_seq vs s -> Forall scalar vs.
Proof using. clear. intros vs s E. apply (encodes_scalars utf8_seq vs s seq_scalar E). Qed.
Lemma equals_addr : forall m a al b bl x y vs ws fuel, text m a al = Some x -> text m b bl = Some y -> encodes utf8_seq vs x -> encodes utf8_seq ws y -> (length (T vs) < fuel)%nat ->
  exists r, equals_at (fun x y => token_equals next at_end fuel (init x) (init y)) m a al b bl = Some r /\ (r = true <-> T vs = T ws \/ (a <> b /\ exists c, T vs = T ws ++ [c])).
Proof using All.
  intros m a al b bl x y vs ws fuel Ex Ey Vx Vy Hf. destruct (text_some _ _ _ _ Ex) as (Lx & _). destruct (text_some _ _ _ _ Ey) as (Ly & _). unfold equals_at. rewrite Ex, Ey. destruct (Nat.eqb_spec a b) as [<- |D].
  - eexists. split; [reflexivity|]. rewrite Nat.eqb_eq. split.
    + intros E. left. assert (x = y) by congruence. subst y. rewrite (encodes_unique utf8_seq utf8_prefix utf8_ne vs ws x Vx Vy). reflexivity.
    + intros [E|[Q _]]; [|congruence]. destruct (same_start m a al bl x y Ex Ey) as (l & [[L ->]|[L [Nl ->]]]).
      * destruct (prefix_tokens vs ws x l Vx Vy) as (us & -> & El). rewrite Tapp in E. pose proof (f_equal (@length N) E) as E2. rewrite app_length in E2.
        assert (us = []) by (apply Tne; [apply (scalars8 us l El)|apply length_zero_iff_nil; lia]). subst us. inversion El; subst. rewrite app_length. cbn [length]. lia.
      * destruct (prefix_tokens ws vs y l Vy Vx) as (us & -> & El). rewrite Tapp in E. pose proof (f_equal (@length N) E) as E2. rewrite app_length in E2.
        assert (us = []) by (apply Tne; [apply (scalars8 us l El)|apply length_zero_iff_nil; lia]). subst us. inversion El; subst. contradiction.
  - destruct (token_equals_spec St next at_end (T vs) (init x) (T ws) (init y) fuel (Ty vs x Vx) (Ty ws y Vy) Hf) as (r & E & R). exists r. split; [exact E|]. rewrite R. tauto.
Qed.
Lemma compare_addr : forall m a al b bl x y vs ws fuel, text m a al = Some x -> text m b bl = Some y -> encodes utf8_seq vs x -> encodes utf8_seq ws y -> (length (T vs) < fuel)%nat ->
  exists r, compare_at (fun x y => token_compare next at_end fuel (init x) (init y)) m a al b bl = Some r /\
    ((a <> b /\ bl <> 0%nat /\ exists c, T vs = T ws ++ [c]) /\ r = 0%Z \/ ~ (a <> b /\ bl <> 0%nat /\ exists c, T vs = T ws ++ [c]) /\ orders lex_lt (T vs) (T ws) r).
Proof using All.
  intros m a al b bl x y vs ws fuel Ex Ey Vx Vy Hf. destruct (text_some _ _ _ _ Ex) as (Lx & _). destruct (text_some _ _ _ _ Ey) as (Ly & _). unfold compare_at. rewrite Ex, Ey.
  pose proof T_nil as Tn. destruct (is_zero al || is_zero bl) eqn:Z.
  - eexists. split; [reflexivity|]. right. split.
    + intros (_ & B & c & Q). destruct bl; [congruence|]. destruct al; [|discriminate]. apply length_zero_iff_nil in Lx. subst x. rewrite (empty_tokens vs Vx), Tn in Q. symmetry in Q. apply app_eq_nil in Q. destruct Q; discriminate.
    + destruct al as [|al], bl as [|bl]; try discriminate; cbn [is_zero b2z].
      * apply length_zero_iff_nil in Lx, Ly. subst. rewrite (empty_tokens vs Vx), (empty_tokens ws Vy). apply orders_intro. right. left. auto.
      * apply length_zero_iff_nil in Lx. subst x. rewrite (empty_tokens vs Vx), Tn. apply orders_intro. left. split; [lia|]. destruct (T ws) eqn:E; [|constructor]. apply Tne in E; [|apply (scalars8 _ _ Vy)]. subst ws. inversion Vy; subst. discriminate.
      * apply length_zero_iff_nil in Ly. subst y. rewrite (empty_tokens ws Vy), Tn. apply orders_intro. right. right. split; [lia|]. destruct (T vs) eqn:E; [|constructor]. apply Tne in E; [|apply (scalars8 _ _ Vx)]. subst vs. inversion Vx; subst. discriminate.
  - destruct (Nat.eqb_spec a b) as [<- |D].
    + eexists. split; [reflexivity|]. right. split; [intros [Q _]; congruence|].
      assert (pre : forall n k p q l, encodes utf8_seq p q -> forall us, encodes utf8_seq us l -> n = length q -> k = length (q ++ l) -> orders lex_lt (T p) (T (p ++ us)) (by_length n k) /\ orders lex_lt (T (p ++ us)) (T p) (by_length k n)).
      { intros n k p q l Ep us El -> ->. rewrite Tapp. destruct l as [|c l].
        - rewrite (empty_tokens us El), Tn, !app_nil_r. unfold by_length. rewrite Nat.ltb_irrefl. split; apply orders_intro; right; left; auto.
        - destruct (T us) as [|t tl] eqn:Et; [apply Tne in Et; [|apply (scalars8 _ _ El)]; subst us; inversion El|]. unfold by_length. rewrite app_length. cbn [length].
          rewrite (proj2 (Nat.ltb_lt (length q) (length q + S (length l)))) by lia. rewrite (proj2 (Nat.ltb_ge (length q + S (length l)) (length q))) by lia. cbv iota.
          split; apply orders_intro; [left|right; right]; (split; [lia|apply lex_prefix]). }
      destruct (same_start m a al bl x y Ex Ey) as (l & [[L ->]|[L [Nl ->]]]).
      * destruct (prefix_tokens vs ws x l Vx Vy) as (us & -> & El). apply (pre al bl vs x l Vx us El); congruence.
      * destruct (prefix_tokens ws vs y l Vy Vx) as (us & -> & El). apply (pre bl al ws y l Vy us El); congruence.
    + destruct (token_compare_spec St next at_end (T vs) (init x) (T ws) (init y) fuel (Ty vs x Vx) (Ty ws y Vy) Hf (Tsmall vs (scalars8 _ _ Vx)) (Tsmall ws (scalars8 _ _ Vy))) as (r & E & _ & R).
      exists r. split; [exact E|]. assert (bl <> 0%nat) by (destruct bl; [rewrite orb_true_r in Z; discriminate|congruence]). destruct R as [[R1 R2]|[R1 R2]]; [left|right]; tauto.
Qed.
End Addr.

(** ** Case folding a text *)
Definition t_ok (o : tstream) : Prop := (t_used o <= t_cap o /\ t_cap o <= length (t_buf o))%nat.
Definition t_wrote (o o' : tstream) (bs : list N) : Prop :=
  t_size o' = (t_size o + length bs)%nat /\ length (t_buf o') = length (t_buf o) /\ t_ok o' /\
  if (t_used o + length bs <=? t_cap o)%nat
  then t_ec o' = t_ec o /\ t_buf o' = splice (t_buf o) (t_used o) bs /\ t_used o' = (t_used o + length bs)%nat /\ t_cap o' = t_cap o
  else t_ec o' = ERANGE /\ t_used o' = 0%nat /\ t_cap o' = 0%nat.
Lemma t_nil : forall o, t_ok o -> t_wrote o o [].
Proof. intros o H. unfold t_wrote, t_ok in *. cbn [length]. split; [lia|]. split; [reflexivity|]. split; [exact H|]. rewrite Nat.add_0_r. rewrite (proj2 (Nat.leb_le _ _)) by apply H. rewrite splice_nil. auto. Qed.
Lemma t_app : forall o o1 o2 a b, t_ok o -> t_wrote o o1 a -> t_wrote o1 o2 b -> t_wrote o o2 (a ++ b).
Proof.
  intros o o1 o2 a b Ok (A1 & A2 & A3 & A4) (B1 & B2 & B3 & B4). unfold t_ok in Ok. unfold t_wrote. rewrite app_length. split; [lia|]. split; [lia|]. split; [exact B3|].
  destruct (Nat.leb_spec (t_used o + length a) (t_cap o)) as [La|La].
  - destruct A4 as (A5 & A6 & A7 & A8). rewrite A7, A8 in B4. rewrite Nat.add_assoc. destruct (Nat.leb_spec (t_used o + length a + length b) (t_cap o)) as [Lb|Lb]; [|exact B4].
    destruct B4 as (B5 & B6 & B7 & B8). split; [congruence|]. split; [|split; [lia|congruence]]. rewrite B6, A6. apply splice_splice. lia.
  - destruct A4 as (A5 & A6 & A7). rewrite A6, A7 in B4. destruct (Nat.leb_spec (t_used o + (length a + length b)) (t_cap o)) as [Q|_]; [lia|].
    destruct (Nat.leb_spec (0 + length b) 0) as [Q|Q]; [|exact B4]. destruct B4 as (B5 & _ & B7 & B8). split; [congruence|]. split; [lia|exact B8].
Qed.
Lemma put_t : forall v ch o, utf8_seq v ch -> t_ok o -> exists o', transform_put v o = Some o' /\ t_wrote o o' ch.
Proof.
  intros v ch o S Ok. unfold t_ok in Ok. unfold transform_put. destruct (utf8_encode_spec v (t_buf o) (t_used o) (t_cap o - t_used o) (seq_scalar v ch S) ltac:(lia)) as (ch' & S' & E). rewrite (seq_fun v ch' ch S' S) in E. rewrite E. pose proof (utf8_ne v ch S) as Ne.
  eexists. split; [reflexivity|]. unfold t_wrote, t_ok. destruct (Nat.ltb_spec (t_cap o - t_used o) (length ch)) as [L|L]; cbn [t_size t_buf t_used t_cap t_ec].
  - split; [reflexivity|]. split; [reflexivity|]. split; [lia|]. destruct (Nat.leb_spec (t_used o + length ch) (t_cap o)) as [Q|_]; [lia|]. auto.
  - rewrite splice_length by lia. split; [reflexivity|]. split; [reflexivity|]. split; [lia|]. rewrite (proj2 (Nat.leb_le _ _)) by lia. auto.
Qed.
Lemma puts_t : forall vs bs o, encodes utf8_seq vs bs -> t_ok o -> exists o', transform_puts vs o = Some o' /\ t_wrote o o' bs.
Proof.
  intros vs bs o E. revert o. induction E as [|v vs ch us S E IH]; intros o Ok; [exists o; split; [reflexivity|apply t_nil; exact Ok]|]. cbn [transform_puts]. destruct (put_t v ch o S Ok) as (o1 & -> & W1).
  destruct (IH o1 ltac:(apply W1)) as (o2 & E2 & W2). exists o2. split; [exact E2|]. eapply t_app; eassumption.
Qed.
Section Transform.
Variable f : N -> option (list N).
Variable g : N -> list N.
Hypothesis f_ok : forall v, scalar v -> f v = Some (g v).
Lemma transform_loop_spec : forall vs us rest cp bs o fuel, encodes lenient vs us -> tmu_utf8_extract rest = Some (false, cp, rest) -> encodes utf8_seq (flat_map g vs) bs -> t_ok o -> (length us < fuel)%nat ->
  exists o', transform_loop f fuel (us ++ rest) o = Some (rest, o') /\ t_wrote o o' bs.
Proof using f_ok.
  intros vs us rest cp bs o fuel E X. revert bs o fuel. induction E as [|v vs ch us S E IH]; intros bs o fuel B Ok Hf; (destruct fuel as [|fuel]; [cbn in Hf; lia|]); cbn [transform_loop flat_map] in *.
  - inversion B; subst. cbn [app]. rewrite X. exists o. split; [reflexivity|apply t_nil; exact Ok].
  - rewrite <- app_assoc, (extract_lenient v ch _ S), (f_ok v (lenient_scalar v ch S)). cbn [app] in *.
    assert (sp : exists b1 b2, bs = b1 ++ b2 /\ encodes utf8_seq (g v) b1 /\ encodes utf8_seq (flat_map g vs) b2).
    { clear - B. revert bs B. induction (g v) as [|w ws IH]; intros bs B; cbn [app] in B; [exists [], bs; repeat split; [constructor|exact B]|]. inversion B as [|w' ws' c bs' S B' Q1 Q2]; subst. destruct (IH bs' B') as (b1 & b2 & -> & E1 & E2). exists (c ++ b1), b2. split; [apply app_assoc|]. split; [constructor; assumption|exact E2]. }
    destruct sp as (b1 & b2 & -> & E1 & E2). destruct (puts_t (g v) b1 o E1 Ok) as (o1 & -> & W1). rewrite app_length in Hf. pose proof (lenient_ne v ch S). destruct (IH b2 o1 fuel E2 ltac:(apply W1) ltac:(lia)) as (o2 & F & W2). exists o2. split; [exact F|]. eapply t_app; eassumption.
Qed.
Lemma transform_spec : forall vs us rest cp bs out, encodes lenient vs us -> tmu_utf8_extract rest = Some (false, cp, rest) -> encodes utf8_seq (flat_map g vs) bs ->
  exists ec buf, transform f (us ++ rest) out = Some (length bs, ec, buf) /\ length buf = length out /\
   if (length bs <=? length out)%nat then ec = (if is_nil rest then OK else EINVAL) /\ buf = bs ++ skipn (length bs) out else ec = ERANGE.
Proof using f_ok.
  intros vs us rest cp bs out E X B. unfold transform. destruct (transform_loop_spec vs us rest cp bs (TStream out 0 (length out) 0 OK) (S (length (us ++ rest))) E X B) as (o & L & W); [unfold t_ok; cbn; lia|rewrite app_length; lia|].
  rewrite L. destruct W as (W1 & W2 & W3 & W4). cbn [t_size t_buf t_used t_cap t_ec Nat.add] in *. rewrite W1. eexists _, _. split; [reflexivity|]. split; [exact W2|]. destruct (Nat.leb_spec (length bs) (length out)) as [Q|Q].
  - destruct W4 as (W5 & W6 & _). rewrite W5. split; [destruct rest; reflexivity|]. rewrite W6. unfold splice. reflexivity.
  - destruct W4 as (W5 & _). rewrite W5. reflexivity.
Qed.
End Transform.

(** ** Dynamic conversion *)
Lemma delivered_ec : forall bs nt out size ec buf, delivered bs nt out size ec buf -> ec = OK \/ ec = ERANGE.
Proof. intros bs nt out size ec buf D. unfold delivered in D. destruct (_ <=? _)%nat; [left|right]; apply D. Qed.
Section Dyn.
Variables (fuel : nat) (us : list N) (v : validate) (rep : list N) (nt : bool) (bs : list N) (inv : bool).
Hypothesis conv : forall out, exists size ec buf, tmu_utf8_from_utf16_ex fuel us v rep nt out = Done (Result size ec inv, buf) /\ delivered bs nt out size ec buf.
Let t := bs ++ (if nt then [0] else []).
Lemma dynamic_spec : forall fresh out, (forall n block, fresh n = Some block -> length block = n) ->
  exists r k, tmu_utf8_from_utf16_dynamic_ex fuel fresh us v rep nt out = Done (r, k) /\ r_invalid r = inv /\
   if (length t <=? length (k_data out))%nat then r_ec r = OK /\ r_size r = length bs /\ k = Contents (t ++ skipn (length t) (k_data out)) (length bs)
   else match fresh (length t) with
        | None => r_ec r = ENOMEM /\ r_size r = length t /\ k_size k = k_size out /\ length (k_data k) = length (k_data out)
        | Some _ => r_ec r = OK /\ r_size r = length bs /\ k = Contents t (length bs)
        end.
Proof using conv.
  intros fresh out Hfresh. unfold tmu_utf8_from_utf16_dynamic_ex. destruct (conv (k_data out)) as (size & ec & buf & E & D). rewrite E. unfold delivered in D. fold t in D. cbn [r_ec r_size r_invalid]. destruct (Nat.leb_spec (length t) (length (k_data out))) as [L|L].
  - destruct D as (-> & -> & ->). eexists _, _. split; [reflexivity|]. cbn. auto.
  - destruct D as (-> & -> & Lb). destruct (fresh (length t)) as [block|] eqn:F.
    + apply Hfresh in F. destruct (conv block) as (size2 & ec2 & buf2 & E2 & D2). rewrite E2. unfold delivered in D2. fold t in D2. rewrite F, Nat.leb_refl in D2. destruct D2 as (-> & -> & ->). rewrite <- F, skipn_all, app_nil_r. eexists _, _. split; [reflexivity|]. cbn. auto.
    + eexists _, _. split; [reflexivity|]. cbn. auto.
Qed.
End Dyn.
