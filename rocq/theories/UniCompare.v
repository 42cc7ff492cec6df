(** Comparison, transformation and dynamic conversion of texts. *)
From Coq Require Import Arith NArith ZArith List Bool Lia.
From Coq Require Import ZifyBool ZifyNat ZifyN.
From Verif Require Import Base CodecModel CodecProofs StrSpec StrMore UniModel UniSpec UniProofs UniValid UniConv UniTop UniText.
Import ListNotations.
Local Open Scope N_scope.

(** ** Token streams *)
Section Tok.
Variable St : Type.
Variable next : St -> option (option (N * St)).
Variable at_end : St -> bool.
(** The stream yields exactly these tokens. *)
Inductive yields : St -> list N -> Prop :=
| Y_nil st : next st = Some None -> at_end st = true -> yields st []
| Y_cons st c st' l : next st = Some (Some (c, st')) -> at_end st = false -> yields st' l -> yields st (c :: l).
Lemma yields_end : forall st l, yields st l -> at_end st = is_nil l.
Proof using. intros st l H. destruct H; assumption. Qed.
Lemma token_loop_spec : forall X x Y y fuel, yields x X -> yields y Y -> (length X < fuel)%nat ->
  (exists p a b ra rb, X = p ++ a :: ra /\ Y = p ++ b :: rb /\ a <> b /\ token_loop next fuel x y = Some (inl (a, b))) \/
  (exists l x' y', Y = X ++ l /\ yields x' [] /\ yields y' l /\ token_loop next fuel x y = Some (inr (x', y'))) \/
  (exists c l x' y', X = Y ++ c :: l /\ yields x' l /\ yields y' [] /\ token_loop next fuel x y = Some (inr (x', y'))).
Proof using.
  intros X x Y y fuel HX. revert Y y fuel. induction HX as [x N1 E1|x a x' X N1 E1 HX IH]; intros Y y fuel HY Hf; (destruct fuel as [|fuel]; [cbn in Hf; lia|]); cbn [token_loop].
  - rewrite N1. right. left. exists Y, x, y. split; [reflexivity|]. split; [constructor; assumption|]. split; [exact HY|reflexivity].
  - rewrite N1. destruct HY as [y N2 E2|y b y' Y N2 E2 HY].
    + rewrite N2. right. right. exists a, X, x', y. split; [reflexivity|]. split; [exact HX|]. split; [constructor; assumption|reflexivity].
    + rewrite N2. destruct (N.eqb_spec a b) as [<- |D].
      * destruct (IH Y y' fuel HY ltac:(cbn in Hf; lia)) as [(p & u & v & ru & rv & -> & -> & D & E)|[(l & x2 & y2 & -> & A & B & E)|(c & l & x2 & y2 & -> & A & B & E)]].
        -- left. exists (a :: p), u, v, ru, rv. auto.
        -- right. left. exists l, x2, y2. auto.
        -- right. right. exists c, l, x2, y2. auto.
      * left. exists [], a, b, X, Y. auto.
Qed.
Lemma app_self : forall (X : list N) c l, X <> X ++ c :: l.
Proof using. clear. intros X c l E. apply (f_equal (@length N)) in E. rewrite app_length in E. cbn in E. lia. Qed.
Lemma token_equals_spec : forall X x Y y fuel, yields x X -> yields y Y -> (length X < fuel)%nat ->
  exists r, token_equals next at_end fuel x y = Some r /\ (r = true <-> X = Y \/ exists c, X = Y ++ [c]).
Proof using.
  intros X x Y y fuel HX HY Hf. unfold token_equals. destruct (token_loop_spec X x Y y fuel HX HY Hf) as [(p & a & b & ra & rb & -> & -> & D & E)|[(l & x' & y' & -> & A & B & E)|(c & l & x' & y' & -> & A & B & E)]]; rewrite E; eexists; (split; [reflexivity|]).
  - split; [discriminate|]. intros [Q|(c & Q)]; exfalso.
    + apply app_inv_head in Q. congruence.
    + rewrite <- app_assoc in Q. apply app_inv_head in Q. cbn in Q. congruence.
  - rewrite (yields_end _ _ A), (yields_end _ _ B). destruct l as [|c l]; cbn [is_nil andb].
    + rewrite app_nil_r. split; auto.
    + split; [discriminate|]. intros [Q|(d & Q)]; exfalso; [exact (app_self _ _ _ Q)|]. rewrite <- app_assoc in Q. exact (app_self _ _ _ Q).
  - rewrite (yields_end _ _ A), (yields_end _ _ B). rewrite andb_true_r. destruct l as [|d l]; cbn [is_nil].
    + split; [|reflexivity]. intros _. right. exists c. reflexivity.
    + split; [discriminate|]. intros [Q|(e & Q)]; exfalso; [symmetry in Q; exact (app_self _ _ _ Q)|]. apply app_inv_head in Q. discriminate.
Qed.
Lemma int_of_small : forall a, a < 0x80000000 -> int_of a = Z.of_N a.
Proof using. clear. intros a H. unfold int_of. rewrite (proj2 (N.ltb_lt _ _) H). reflexivity. Qed.
Lemma int_diff_small : forall a b, a < 0x80000000 -> b < 0x80000000 -> int_diff a b = Some (Z.of_N a - Z.of_N b)%Z.
Proof using. clear. intros a b Ha Hb. unfold int_diff. rewrite !int_of_small by assumption. destruct ((-0x80000000 <=? Z.of_N a - Z.of_N b) && (Z.of_N a - Z.of_N b <=? 0x7FFFFFFF))%Z eqn:E; [reflexivity|lia]. Qed.
Lemma lex_prefix : forall X c l, lex_lt X (X ++ c :: l).
Proof using. clear. intros X c l. rewrite <- (app_nil_r X) at 1. apply lex_app. constructor. Qed.
Lemma token_compare_spec : forall X x Y y fuel, yields x X -> yields y Y -> (length X < fuel)%nat -> Forall (fun c => c < 0x80000000) X -> Forall (fun c => c < 0x80000000) Y ->
  exists r, token_compare next at_end fuel x y = Some r /\ (r = -1 \/ r = 0 \/ r = 1)%Z /\ ((exists c, X = Y ++ [c]) /\ r = 0%Z \/ ~ (exists c, X = Y ++ [c]) /\ orders lex_lt X Y r).
Proof using.
  intros X x Y y fuel HX HY Hf SX SY. unfold token_compare. destruct (token_loop_spec X x Y y fuel HX HY Hf) as [(p & a & b & ra & rb & -> & -> & D & E)|[(l & x' & y' & -> & A & B & E)|(c & l & x' & y' & -> & A & B & E)]]; rewrite E.
  - apply Forall_app in SX, SY. destruct SX as [_ SX], SY as [_ SY]. inversion SX as [|? ? Sa _]; subst. inversion SY as [|? ? Sb _]; subst. rewrite int_diff_small by assumption. eexists. split; [reflexivity|].
    assert (O : orders lex_lt (p ++ a :: ra) (p ++ b :: rb) (if (Z.of_N a - Z.of_N b <? 0)%Z then (-1)%Z else 1%Z)).
    { apply orders_intro. destruct (Z.ltb_spec (Z.of_N a - Z.of_N b) 0) as [L|L]; [left; split; [lia|]|right; right; split; [lia|]]; apply lex_app; apply Lex_head; lia. }
    split; [destruct (Z.of_N a - Z.of_N b <? 0)%Z; auto|]. right. split; [|exact O]. intros (c & Q). rewrite <- app_assoc in Q. apply app_inv_head in Q. cbn in Q. congruence.
  - rewrite (yields_end _ _ A), (yields_end _ _ B). eexists. split; [reflexivity|]. destruct l as [|c l]; cbn [is_nil b2z].
    + rewrite app_nil_r. split; [auto|]. right. split; [intros (c & Q); exact (app_self _ _ _ Q)|]. apply orders_intro. right. left. auto.
    + split; [auto|]. right. split; [intros (d & Q); rewrite <- app_assoc in Q; exact (app_self _ _ _ Q)|]. apply orders_intro. left. split; [lia|apply lex_prefix].
  - rewrite (yields_end _ _ A), (yields_end _ _ B). eexists. split; [reflexivity|]. destruct l as [|d l]; cbn [is_nil b2z].
    + split; [auto|]. left. split; [exists c; reflexivity|reflexivity].
    + split; [auto|]. right. split; [intros (e & Q); apply app_inv_head in Q; discriminate|]. apply orders_intro. right. right. split; [lia|apply lex_prefix].
Qed.
End Tok.
Arguments yields {St}.

(** ** Octet-wise comparison *)
Lemma memcmp_spec : forall x y, length x = length y -> orders lex_lt x y (memcmp_units x y).
Proof.
  induction x as [|c x IH]; intros [|d y] L; cbn in L; try lia; [apply orders_intro; right; left; auto|]. cbn [memcmp_units]. destruct (N.eqb_spec c d) as [<- |D].
  - specialize (IH y ltac:(lia)). destruct IH as (A & B & C). split; [|split].
    + rewrite A. split; [apply Lex_tail|]. intros Q. inversion Q; subst; [lia|assumption].
    + rewrite B. split; [congruence|]. intros Q. injection Q as ->. reflexivity.
    + rewrite C. split; [apply Lex_tail|]. intros Q. inversion Q; subst; [lia|assumption].
  - apply (orders_diff [] c d x y). exact D.
Qed.
Lemma text_some : forall m a al x, text m a al = Some x -> length x = al /\ x = firstn al (skipn a m) /\ (a + al <= length m)%nat.
Proof. intros m a al x E. unfold text in E. destruct (Nat.leb_spec (a + al) (length m)) as [L|L]; [|discriminate]. injection E as <-. split; [rewrite firstn_length, skipn_length; lia|auto]. Qed.
Lemma uni_equals_spec : forall m a al b bl x y, text m a al = Some x -> text m b bl = Some y -> exists r, tmu_utf8_equals m a al b bl = Some r /\ (r = true <-> x = y).
Proof.
  intros m a al b bl x y Ex Ey. destruct (text_some _ _ _ _ Ex) as (Lx & Qx & _). destruct (text_some _ _ _ _ Ey) as (Ly & Qy & _). unfold tmu_utf8_equals. rewrite Ex, Ey. destruct (Nat.eqb_spec al bl) as [E|E]; cbn [negb].
  - destruct (Nat.eqb_spec a b) as [E2|E2]; eexists; (split; [reflexivity|]); [split; [intros _; congruence|reflexivity]|]. rewrite Z.eqb_eq. apply memcmp_spec. lia.
  - eexists. split; [reflexivity|]. split; [discriminate|]. intros ->. lia.
Qed.
Lemma same_start : forall m a al bl x y, text m a al = Some x -> text m a bl = Some y -> exists l, (al <= bl /\ y = x ++ l \/ bl < al /\ l <> [] /\ x = y ++ l)%nat.
Proof.
  intros m a al bl x y Ex Ey. destruct (text_some _ _ _ _ Ex) as (Lx & Qx & B1). destruct (text_some _ _ _ _ Ey) as (Ly & Qy & B2). destruct (Nat.le_gt_cases al bl) as [L|L].
  - exists (skipn al y). left. split; [exact L|]. rewrite <- (firstn_skipn al y) at 1. f_equal. rewrite Qy, firstn_firstn, Nat.min_l by exact L. symmetry. exact Qx.
  - exists (skipn bl x). right. split; [exact L|]. split; [intros Q; apply (f_equal (@length N)) in Q; rewrite skipn_length in Q; cbn [length] in Q; lia|]. rewrite <- (firstn_skipn bl x) at 1. f_equal. rewrite Qx, firstn_firstn, Nat.min_l by lia. symmetry. exact Qy.
Qed.
Lemma orders_prefix : forall p l n k, n = length p -> k = length (p ++ l) -> orders lex_lt p (p ++ l) (by_length n k) /\ orders lex_lt (p ++ l) p (by_length k n).
Proof.
  intros p l n k -> ->. unfold by_length. rewrite app_length. destruct l as [|c l]; cbn [length].
  - rewrite Nat.add_0_r, Nat.ltb_irrefl, app_nil_r. split; apply orders_intro; right; left; auto.
  - rewrite (proj2 (Nat.ltb_lt (length p) (length p + S (length l)))) by lia. rewrite (proj2 (Nat.ltb_ge (length p + S (length l)) (length p))) by lia. cbv iota. split; apply orders_intro; [left|right; right]; (split; [lia|apply lex_prefix]).
Qed.
Lemma early_orders : forall x y al bl, length x = al -> length y = bl -> is_zero al || is_zero bl = true -> orders lex_lt x y (b2z (is_zero bl) - b2z (is_zero al)).
Proof.
  intros x y al bl <- <- H. apply orders_intro. destruct x as [|c x], y as [|d y]; cbn in *; try discriminate; [right; left; auto|left; split; [lia|constructor]|right; right; split; [lia|constructor]].
Qed.
Lemma uni_compare_spec : forall m a al b bl x y, text m a al = Some x -> text m b bl = Some y -> exists r, tmu_utf8_compare m a al b bl = Some r /\ orders lex_lt x y r.
Proof.
  intros m a al b bl x y Ex Ey. destruct (text_some _ _ _ _ Ex) as (Lx & _). destruct (text_some _ _ _ _ Ey) as (Ly & _). unfold tmu_utf8_compare. rewrite Ex, Ey.
  destruct (is_zero al || is_zero bl) eqn:Z; [eexists; split; [reflexivity|]; apply early_orders; assumption|]. destruct (Nat.eqb_spec a b) as [<- |D]; eexists; (split; [reflexivity|]).
  - destruct (same_start m a al bl x y Ex Ey) as (l & [[_ ->]|[_ [_ ->]]]); [apply orders_prefix|apply orders_prefix]; congruence.
  - set (n := Nat.min al bl). pose proof (memcmp_spec (firstn n x) (firstn n y) ltac:(rewrite !firstn_length; lia)) as (A & B & C).
    enough (G : orders lex_lt (firstn n x ++ skipn n x) (firstn n y ++ skipn n y) (if (memcmp_units (firstn n x) (firstn n y) =? 0)%Z then by_length al bl else memcmp_units (firstn n x) (firstn n y))) by (rewrite !firstn_skipn in G; exact G). assert (Hs : skipn n x = [] \/ skipn n y = []) by (destruct (Nat.le_gt_cases al bl); [left|right]; apply skipn_all2; lia).
    destruct (Z.eqb_spec (memcmp_units (firstn n x) (firstn n y)) 0) as [E|E].
    + apply B in E. rewrite <- E. assert (Lp : length (firstn n x) = n) by (rewrite firstn_length; lia).
      assert (Lx2 : al = length (firstn n x ++ skipn n x)) by (rewrite firstn_skipn; auto). assert (Ly2 : bl = length (firstn n x ++ skipn n y)) by (rewrite app_length, Lp, skipn_length; lia).
      destruct Hs as [Hs|Hs]; rewrite Hs in *; rewrite app_nil_r in *; apply orders_prefix; assumption.
    + apply orders_intro. assert (len : length (firstn n x) = length (firstn n y)) by (rewrite !firstn_length; lia).
      assert (ext : forall u v u' v', length u = length v -> lex_lt u v -> lex_lt (u ++ u') (v ++ v')).
      { clear. intros u v u' v' L H. revert L. induction H as [y b|x y a b H|x a b H IH]; intros L; cbn in *; [lia|apply Lex_head; exact H|apply Lex_tail; apply IH; lia]. }
      destruct (Z.lt_total (memcmp_units (firstn n x) (firstn n y)) 0) as [Q|[Q|Q]]; [left; split; [exact Q|]; apply ext; [exact len|apply A; exact Q]|contradiction|right; right; split; [exact Q|]; apply ext; [symmetry; exact len|apply C; exact Q]].
Qed.
