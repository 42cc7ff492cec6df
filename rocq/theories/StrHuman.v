(** Natural order comparison and bounded case-insensitive comparison. *)
From Coq Require Import Arith NArith ZArith List Bool Lia.
From Coq Require Import ZifyBool ZifyNat ZifyN.
From Verif Require Import Base CTypeModel CodecModel DigitsSpec DigitsProofs StrModel StrSpec StrProofs StrMore.
Import ListNotations.
Local Open Scope N_scope.

Definition dig (c : N) : N := c - 48.
Lemma human_digits_spec : forall m ds s p last acc, sub m p last = ds ++ s -> (p <= last <= length m)%nat -> Forall (fun c => is_digit c = true) ds ->
  match s with [] => True | c :: _ => is_digit c = false end -> fold_left (fun a d => a * 10 + d) (map dig ds) acc < 2^31 ->
  human_digits m (last - p) p acc = Some (fold_left (fun a d => a * 10 + d) (map dig ds) acc, (p + length ds)%nat).
Proof.
  intros m ds. induction ds as [|c ds IH]; intros s p last acc E H Hd Hs B.
  - cbn [app map fold_left length] in *. rewrite Nat.add_0_r. destruct (Nat.eq_dec p last) as [->|Q]; [rewrite Nat.sub_diag; reflexivity|].
    destruct (nth_ex m p ltac:(lia)) as (x & Ex). rewrite (sub_cons m p last x) in E by (try exact Ex; lia). subst s. cbn beta iota in Hs.
    replace (last - p)%nat with (S (last - S p)) by lia. cbn [human_digits]. rewrite Ex, Hs. reflexivity.
  - assert (Q : (p < last)%nat).
    { destruct (le_lt_dec last p) as [L|L]; [|exact L]. rewrite sub_nil in E by exact L. discriminate. }
    destruct (nth_ex m p ltac:(lia)) as (x & Ex). rewrite (sub_cons m p last x) in E by (try exact Ex; lia). cbn [app] in E. injection E as -> E.
    inversion Hd as [|? ? Hc Hd']; subst. cbn [map fold_left] in *.
    replace (last - p)%nat with (S (last - S p)) by lia. cbn [human_digits]. rewrite Ex, Hc. unfold dig at 2 in B. unfold dig at 2.
    assert (L : acc * 10 + (c - 48) <= fold_left (fun a d => a * 10 + d) (map dig ds) (acc * 10 + (c - 48))).
    { rewrite number_acc. clear. assert (1 <= 10 ^ N.of_nat (length (map dig ds))) by (apply N.lt_pred_le; apply N.neq_0_lt_0; apply N.pow_nonzero; lia).
      nia. }
    destruct (N.ltb_spec (acc * 10 + (c - 48)) (2^31)); [|lia]. rewrite (IH s (S p) last _ E ltac:(lia) Hd' Hs B). cbn [length]. rewrite Nat.add_succ_r. reflexivity.
Qed.
Lemma sub_tail : forall m ds s a al, sub m a al = ds ++ s -> (a <= al <= length m)%nat -> sub m (a + length ds) al = s.
Proof.
  intros m ds. induction ds as [|c ds IH]; intros s a al E H; cbn [app length] in *; [rewrite Nat.add_0_r; exact E|].
  assert (Q : (a < al)%nat).
  { destruct (le_lt_dec al a) as [L|L]; [|exact L]. rewrite sub_nil in E by exact L. discriminate. }
  destruct (nth_ex m a ltac:(lia)) as (x & Ex). rewrite (sub_cons m a al x) in E by (try exact Ex; lia). injection E as -> E.
  rewrite Nat.add_succ_r. apply (IH s (S a) al E). lia.
Qed.
Definition tok (len : nat) (v : N) : Prop := len = 1%nat /\ v < 256 \/ 256 <= v /\ exists ds, canonical 10 (v - 256) ds /\ len = length ds.
Lemma tok_len : forall a b v, tok a v -> tok b v -> a = b.
Proof.
  intros a b v [[H1 H2]|[H1 (ds & H2 & H3)]] [[K1 K2]|[K1 (es & K2 & K3)]]; try lia. rewrite (canonical_unique 10 _ ds es ltac:(lia) H2 K2) in H3. lia.
Qed.
Lemma upper_lt : forall c, c < 256 -> to_upper c < 256.
Proof. intros c H. unfold to_upper. destruct (is_lower c); lia. Qed.
Lemma parse_spec : forall m a al ka, Forall (fun c => c < 256) m -> human_keys (sub m a al) ka -> (a < al <= length m)%nat ->
  exists v a' ka', tmsu_human_parse_and_advance m a al = Some (v, a') /\ ka = v :: ka' /\ (a < a' <= al)%nat /\ human_keys (sub m a' al) ka' /\ tok (a' - a) v.
Proof.
  intros m a al ka Hm H L. unfold tmsu_human_parse_and_advance. destruct (Nat.eqb_spec a al); [lia|].
  destruct (nth_ex m a ltac:(lia)) as (x & Ex). rewrite Ex. pose proof (sub_cons m a al x ltac:(lia) Ex) as E.
  inversion H as [E1 E2|c s ks Hc Hk E1 E2|ds v s ks Hd Hv Hb Hs Hk E1 E2].
  - rewrite E in E1. discriminate.
  - rewrite E in E1. injection E1 as -> ->. rewrite Hc. cbn [negb]. exists (to_upper x), (S a), ks. repeat split; try assumption; try lia.
    left. split; [lia|]. apply upper_lt. rewrite Forall_forall in Hm. apply Hm. eapply nth_error_In. exact Ex.
  - assert (Hx : is_digit x = true).
    { destruct ds as [|d ds]; [destruct Hv as (_ & _ & K & _); cbn in K; congruence|]. rewrite E in E1. cbn [app] in E1. injection E1 as -> _. inversion Hd; assumption. }
    rewrite Hx. cbn [negb]. assert (Nv : fold_left (fun a0 d => a0 * 10 + d) (map dig ds) 0 = v) by (destruct Hv as [K _]; exact K).
    rewrite (human_digits_spec m ds s a al 0 (eq_sym E1) ltac:(lia) Hd Hs ltac:(rewrite Nv; lia)). rewrite Nv. destruct (N.ltb_spec (v + 256) (2^31)); [|lia].
    assert (Ll : (length ds + length s = al - a)%nat) by (rewrite <- app_length, E1; apply sub_length; split; lia).
    assert (Lp : (1 <= length ds)%nat) by (rewrite <- (map_length dig); eapply canonical_length_pos; exact Hv).
    exists (v + 256), (a + length ds)%nat, ks. split; [reflexivity|]. split; [reflexivity|]. split; [lia|]. split.
    + rewrite (sub_tail m ds s a al (eq_sym E1)) by lia. exact Hk.
    + right. split; [lia|]. exists (map dig ds). rewrite N.add_sub, map_length. split; [exact Hv|lia].
Qed.
Lemma keys_nil : forall ks, human_keys [] ks -> ks = [].
Proof.
  intros ks H. remember (@nil N) as s eqn:E. destruct H as [|c s ks Hc H|ds v s ks Hd Hv Hb Hs H]; [reflexivity|discriminate|].
  apply app_eq_nil in E. destruct E as [-> _]. destruct Hv as (_ & _ & Q & _). cbn in Q. congruence.
Qed.
Lemma by_length_add : forall n a b, by_length (n + a) (n + b) = by_length a b.
Proof. intros n a b. unfold by_length. destruct (Nat.ltb_spec (n + b) (n + a)); destruct (Nat.ltb_spec b a); try lia. destruct (Nat.ltb_spec (n + a) (n + b)); destruct (Nat.ltb_spec a b); lia. Qed.
Lemma orders_cons : forall x a b r, orders lex_lt a b r -> orders lex_lt (x :: a) (x :: b) r.
Proof.
  intros x a b r (H1 & H2 & H3). apply orders_intro. destruct (Z.lt_trichotomy r 0) as [L | [L | L]].
  - left. split; [exact L|]. apply Lex_tail. tauto.
  - right. left. split; [exact L|]. f_equal. tauto.
  - right. right. split; [exact L|]. apply Lex_tail. tauto.
Qed.
Lemma human_loop_spec : forall m fuel a al b bl ka kb, Forall (fun c => c < 256) m -> human_keys (sub m a al) ka -> human_keys (sub m b bl) kb ->
  (a <= al <= length m)%nat -> (b <= bl <= length m)%nat -> (al - a < fuel)%nat ->
  exists r, human_loop m fuel a al b bl = Some r /\ orders lex_lt ka kb (if (r =? 0)%Z then by_length (al - a) (bl - b) else r).
Proof.
  intros m fuel. induction fuel as [|fuel IH]; intros a al b bl ka kb Hm Ha Hb La Lb F; [lia|]. cbn [human_loop].
  destruct (Nat.eqb_spec a al) as [->|Qa].
  { cbn [orb]. exists 0%Z. split; [reflexivity|]. cbn [Z.eqb]. rewrite sub_nil in Ha by lia. inversion Ha as [|? ? ? ? ? E1|ds v s ks Hd Hv _ _ _ E1]; subst.
    - destruct (Nat.eq_dec b bl) as [->|Q].
      + rewrite sub_nil in Hb by lia. inversion Hb as [|? ? ? ? ? E1|ds v s ks Hd Hv _ _ _ E1]; subst; [|apply app_eq_nil in E1; destruct E1 as [-> _]; destruct Hv as (_ & _ & K & _); cbn in K; congruence].
        rewrite !Nat.sub_diag. apply orders_intro. right. left. auto.
      + destruct (parse_spec m b bl kb Hm Hb ltac:(lia)) as (v & b' & kb' & _ & -> & _). apply orders_intro. left. split; [|constructor].
        unfold by_length. destruct (Nat.ltb_spec (bl - b) (al - al)); [lia|]. destruct (Nat.ltb_spec (al - al) (bl - b)); lia.
    - apply app_eq_nil in E1. destruct E1 as [-> _]. destruct Hv as (_ & _ & K & _). cbn in K. congruence. }
  destruct (parse_spec m a al ka Hm Ha ltac:(lia)) as (va & a' & ka' & Ea & -> & A1 & A2 & A3).
  destruct (Nat.eqb_spec b bl) as [->|Qb].
  { cbn [orb]. exists 0%Z. split; [reflexivity|]. cbn [Z.eqb]. rewrite sub_nil in Hb by lia. inversion Hb as [|? ? ? ? ? E1|ds v s ks Hd Hv _ _ _ E1]; subst.
    - apply orders_intro. right. right. split; [|constructor]. unfold by_length. destruct (Nat.ltb_spec (bl - bl) (al - a)); lia.
    - apply app_eq_nil in E1. destruct E1 as [-> _]. destruct Hv as (_ & _ & K & _). cbn in K. congruence. }
  destruct (parse_spec m b bl kb Hm Hb ltac:(lia)) as (vb & b' & kb' & Eb & -> & B1 & B2 & B3). cbn [orb]. rewrite Ea, Eb.
  destruct (Z.eqb_spec (Z.of_N va - Z.of_N vb) 0) as [Z0|Z0].
  - assert (va = vb) by lia. subst vb. destruct (IH a' al b' bl ka' kb' Hm A2 B2 ltac:(lia) ltac:(lia) ltac:(lia)) as (r & Er & D). exists r. split; [exact Er|].
    apply orders_cons. pose proof (tok_len _ _ _ A3 B3) as T. replace (al - a)%nat with ((a' - a) + (al - a'))%nat by lia. replace (bl - b)%nat with ((a' - a) + (bl - b'))%nat by lia.
    rewrite by_length_add. exact D.
  - eexists. split; [reflexivity|]. destruct (Z.eqb_spec (Z.of_N va - Z.of_N vb) 0); [lia|]. apply (orders_diff []). lia.
Qed.

(** ** Keys of prefixes *)
Lemma run_split : forall ds s es t, Forall (fun c => is_digit c = true) ds -> Forall (fun c => is_digit c = true) es ->
  match s with [] => True | c :: _ => is_digit c = false end -> match t with [] => True | c :: _ => is_digit c = false end ->
  ds ++ s = es ++ t -> ds = es /\ s = t.
Proof.
  induction ds as [|d ds IH]; intros s [|e es] t Hd He Hs Ht E; cbn [app] in E.
  - auto.
  - subst s. inversion He; congruence.
  - subst t. inversion Hd; congruence.
  - injection E as -> E. inversion Hd; inversion He; subst. destruct (IH s es t ltac:(assumption) ltac:(assumption) Hs Ht E) as [-> ->]. auto.
Qed.
Lemma canonical_longer : forall v w ds es, canonical 10 v ds -> canonical 10 w (ds ++ es) -> es <> [] -> v < w.
Proof.
  intros v w ds es H K Q. pose proof (canonical_count 10 v ds ltac:(lia) H) as (A1 & A2 & A3). pose proof (canonical_count 10 w _ ltac:(lia) K) as (B1 & B2 & B3).
  rewrite app_length in *. destruct es as [|e es]; [congruence|]. cbn [length] in *. specialize (B3 ltac:(lia)).
  eapply N.lt_le_trans; [exact A2|]. eapply N.le_trans; [|exact B3]. apply N.pow_le_mono_r; lia.
Qed.
Lemma keys_run_inv : forall d r ks, is_digit d = true -> human_keys (d :: r) ks -> exists ds v s k, d :: r = ds ++ s /\ ks = v + 256 :: k /\
  Forall (fun c => is_digit c = true) ds /\ canonical 10 v (map dig ds) /\ match s with [] => True | c :: _ => is_digit c = false end /\ human_keys s k.
Proof.
  intros d r ks H K. inversion K as [|c s0 k Hc Hk E1 E2|ds v s k Hd Hv Hb Hs Hk E1 E2]; subst; [congruence|].
  exists ds, v, s, k. split; [congruence|]. split; [reflexivity|]. split; [exact Hd|]. split; [exact Hv|]. split; [exact Hs|exact Hk].
Qed.
Lemma keys_prefix : forall s ka, human_keys s ka -> forall t kb, human_keys (s ++ t) kb -> orders lex_lt ka kb (by_length (length s) (length (s ++ t))).
Proof.
  intros s ka H. induction H as [|c s ks Hc H IH|ds v s ks Hd Hv Hb Hs H IH]; intros t kb K.
  - cbn [app length] in *. destruct t as [|x t].
    + rewrite (keys_nil kb K). apply orders_intro. right. left. auto.
    + assert (exists k kb', kb = k :: kb') as (k & kb' & ->) by (inversion K; subst; eauto). apply orders_intro. left. cbn [length by_length]. split; [reflexivity|constructor].
  - cbn [app length] in *. change (S (length s)) with (1 + length s)%nat. change (S (length (s ++ t))) with (1 + length (s ++ t))%nat. rewrite by_length_add.
    inversion K as [|? ? ? ? ? E1|es w s0 ks0 Hd Hv Hb Hs Hk E1]; subst.
    + apply orders_cons. apply IH. assumption.
    + destruct es as [|e es]; [destruct Hv as (_ & _ & Q & _); cbn in Q; congruence|]. cbn [app] in E1. injection E1 as -> _. inversion Hd; congruence.
  - destruct ds as [|d ds]; [destruct Hv as (_ & _ & Q & _); cbn in Q; congruence|].
    assert (Hd1 : is_digit d = true) by (inversion Hd; assumption).
    rewrite <- app_assoc in K |- *. cbn [app] in K. destruct (keys_run_inv d _ kb Hd1 K) as (es & w & s0 & k & E1 & -> & He & Hw & Hs0 & Hk).
    change (d :: ds ++ s ++ t) with ((d :: ds) ++ s ++ t) in E1. rewrite !(app_length (d :: ds)), by_length_add. destruct s as [|x s].
    + cbn [app] in *. destruct (app_eq_app (d :: ds) t es s0 E1) as (l & [[F1 F2]|[F1 F2]]).
      * destruct l as [|y l].
        -- rewrite app_nil_r in F1. cbn [app] in F2. subst s0 es. destruct Hv as [Hv1 Hv2]. destruct Hw as [Hw1 _]. change (fun c => c - 48) with dig in Hv1. rewrite Hv1 in Hw1. subst w. apply orders_cons. apply (IH t k). exact Hk.
        -- exfalso. subst s0. cbn beta iota in Hs0. rewrite F1, Forall_app in Hd. destruct Hd as [_ Hd]. inversion Hd; congruence.
      * destruct l as [|y l].
        -- rewrite app_nil_r in F1. cbn [app] in F2. subst t es. destruct Hv as [Hv1 Hv2]. destruct Hw as [Hw1 _]. change (fun c => c - 48) with dig in Hv1. rewrite Hv1 in Hw1. subst w. apply orders_cons. apply (IH s0 k). exact Hk.
        -- subst es. rewrite map_app in Hw. pose proof (canonical_longer _ _ _ _ Hv Hw ltac:(discriminate)) as L. apply orders_intro. left. split; [|apply Lex_head; lia].
           subst t. cbn [length]. unfold by_length. cbn. lia.
    + destruct (run_split (d :: ds) ((x :: s) ++ t) es s0 Hd He Hs Hs0 E1) as [<- <-]. destruct Hv as [Hv1 Hv2]. destruct Hw as [Hw1 _]. change (fun c => c - 48) with dig in Hv1. rewrite Hv1 in Hw1. subst w. apply orders_cons. apply IH. exact Hk.
Qed.
Lemma orders_opp : forall a b r, orders lex_lt a b r -> orders lex_lt b a (- r).
Proof. intros a b r (H1 & H2 & H3). unfold orders. rewrite <- H1, <- H3. split; [lia|]. split; [|lia]. split; intros K; [symmetry; apply H2; lia|symmetry in K; apply H2 in K; lia]. Qed.
Lemma by_length_opp : forall n k, by_length k n = (- by_length n k)%Z.
Proof. intros n k. unfold by_length. destruct (Nat.ltb_spec n k); destruct (Nat.ltb_spec k n); lia. Qed.
Lemma human_compare_spec : forall m a al b bl ka kb, Forall (fun c => c < 256) m -> valid m a al -> valid m b bl ->
  human_keys (sub m a al) ka -> human_keys (sub m b bl) kb ->
  exists r, tmsu_human_compare_ansi_n m a al b bl = Some r /\ orders lex_lt ka kb r.
Proof.
  intros m a al b bl ka kb Hm Va Vb Ha Hb. unfold tmsu_human_compare_ansi_n. rewrite !distance_ok by (apply Va || apply Vb).
  destruct (early a b (al - a) (bl - b)) as [r|] eqn:E.
  - exists r. split; [reflexivity|]. unfold early in E. destruct ((al - a =? 0)%nat || (bl - b =? 0)%nat) eqn:Z.
    + injection E as <-. assert (K : orders lex_lt ka kb (by_length (al - a) (bl - b))).
      { apply orb_true_iff in Z. rewrite !Nat.eqb_eq in Z. destruct Z as [Z|Z].
        - rewrite (sub_nil m a al) in Ha by lia. replace (al - a)%nat with (length (@nil N)) by (cbn; lia). rewrite <- (sub_length m b bl Vb). apply (keys_prefix [] ka Ha _ kb). exact Hb.
        - rewrite (sub_nil m b bl) in Hb by lia. replace (bl - b)%nat with (length (@nil N)) by (cbn; lia). rewrite <- (sub_length m a al Va).
          rewrite by_length_opp. apply orders_opp. apply (keys_prefix [] kb Hb _ ka). exact Ha. }
      replace (zero_len (bl - b) - zero_len (al - a))%Z with (by_length (al - a) (bl - b)); [exact K|].
      unfold by_length, zero_len. destruct (Nat.ltb_spec (bl - b) (al - a)); destruct (Nat.ltb_spec (al - a) (bl - b)); destruct (Nat.eqb_spec (al - a) 0); destruct (Nat.eqb_spec (bl - b) 0); lia.
    + destruct (Nat.eqb_spec a b) as [->|Q]; [|discriminate]. injection E as <-. rewrite <- (sub_length m b bl Vb), <- (sub_length m b al Va).
      destruct Va as [V1 V2], Vb as [V3 V4]. destruct (le_lt_dec al bl) as [L|L].
      * rewrite (sub_app m b al bl) in * by lia. apply keys_prefix; assumption.
      * rewrite (sub_app m b bl al) in * by lia. rewrite by_length_opp. apply orders_opp. apply keys_prefix; assumption.
  - destruct (human_loop_spec m (S (al - a)) a al b bl ka kb Hm Ha Hb Va Vb ltac:(lia)) as (r & Er & D). rewrite Er. destruct (r =? 0)%Z; eexists; (split; [reflexivity|exact D]).
Qed.

(** ** Antisymmetry of the natural order, without any condition *)
Lemma human_digits_adv : forall m n p acc v p', human_digits m n p acc = Some (v, p') -> (p <= p' <= p + n)%nat.
Proof.
  intros m n. induction n as [|n IH]; intros p acc v p' H; cbn [human_digits] in H; [injection H as <- <-; lia|].
  destruct (nth_error m p) as [x|]; [|discriminate]. destruct (is_digit x); [|injection H as <- <-; lia].
  destruct (acc * 10 + (x - 48) <? 2^31); [|discriminate]. apply IH in H. lia.
Qed.
Lemma parse_adv : forall m p last v p', (p <= last)%nat -> tmsu_human_parse_and_advance m p last = Some (v, p') -> (p < p' <= last)%nat.
Proof.
  intros m p last v p' L H. unfold tmsu_human_parse_and_advance in H. destruct (Nat.eqb_spec p last); [discriminate|].
  destruct (nth_error m p) as [x|] eqn:Ex; [|discriminate]. destruct (is_digit x) eqn:D; cbn [negb] in H; [|injection H as <- <-; lia].
  replace (last - p)%nat with (S (last - S p)) in H by lia. cbn [human_digits] in H. rewrite Ex, D in H.
  destruct (0 * 10 + (x - 48) <? 2^31); [|discriminate]. destruct (human_digits m (last - S p) (S p) _) as [[w q]|] eqn:E; [|discriminate].
  destruct (w + 256 <? 2^31); [|discriminate]. injection H as <- <-. apply human_digits_adv in E. lia.
Qed.
Lemma human_loop_swap : forall m f1 f2 a al b bl, (a <= al)%nat -> (b <= bl)%nat -> (al - a < f1)%nat -> (bl - b < f2)%nat ->
  human_loop m f2 b bl a al = option_map Z.opp (human_loop m f1 a al b bl).
Proof.
  intros m f1. induction f1 as [|f1 IH]; intros f2 a al b bl La Lb F1 F2; [lia|]. destruct f2 as [|f2]; [lia|]. cbn [human_loop].
  rewrite orb_comm. destruct ((a =? al)%nat || (b =? bl)%nat); [reflexivity|].
  destruct (tmsu_human_parse_and_advance m a al) as [[va a']|] eqn:Ea; [|destruct (tmsu_human_parse_and_advance m b bl) as [[vb b']|]; reflexivity].
  destruct (tmsu_human_parse_and_advance m b bl) as [[vb b']|] eqn:Eb; [|reflexivity].
  apply parse_adv in Ea; [|exact La]. apply parse_adv in Eb; [|exact Lb].
  destruct (Z.eqb_spec (Z.of_N va - Z.of_N vb) 0); destruct (Z.eqb_spec (Z.of_N vb - Z.of_N va) 0); try lia; [apply IH; lia|]. cbn [option_map]. f_equal. lia.
Qed.
Lemma early_swap : forall a b n k, early b a k n = option_map Z.opp (early a b n k).
Proof.
  intros a b n k. unfold early. rewrite orb_comm. destruct ((n =? 0)%nat || (k =? 0)%nat); [cbn; f_equal; lia|]. rewrite Nat.eqb_sym.
  destruct (a =? b)%nat; [|reflexivity]. cbn [option_map]. f_equal. apply by_length_opp.
Qed.
Lemma human_compare_swap : forall m a al b bl, (a <= al)%nat -> (b <= bl)%nat ->
  tmsu_human_compare_ansi_n m b bl a al = option_map Z.opp (tmsu_human_compare_ansi_n m a al b bl).
Proof.
  intros m a al b bl La Lb. unfold tmsu_human_compare_ansi_n. rewrite !distance_ok by assumption. rewrite early_swap.
  destruct (early a b (al - a) (bl - b)) as [r|]; [reflexivity|]. cbn [option_map].
  rewrite (human_loop_swap m (S (al - a)) (S (bl - b)) a al b bl) by lia. destruct (human_loop m (S (al - a)) a al b bl) as [r|]; [|reflexivity]. cbn [option_map].
  destruct (Z.eqb_spec r 0); destruct (Z.eqb_spec (- r) 0); try lia; cbn [option_map]; [f_equal; apply by_length_opp|reflexivity].
Qed.
