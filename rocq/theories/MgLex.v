(** Tokens of a text that ends with a 0. *)
From Coq Require Import Arith NArith List Bool Lia.
From Verif Require Import Base MgModel MgSpec MgWord MgText.
Import ListNotations.
Local Open Scope N_scope.

Lemma skipn_plus {A} (l : list A) a : forall b, skipn (a + b) l = skipn b (skipn a l).
Proof. revert l. induction a as [|a IH]; intros l b; [reflexivity|]. destruct l as [|x l]; [cbn; destruct b; reflexivity|]. cbn [plus skipn]. apply IH. Qed.
Lemma skipn_exact {A} (a b : list A) : skipn (length a) (a ++ b) = b.
Proof. rewrite skipn_app, skipn_all, Nat.sub_diag. reflexivity. Qed.
Lemma nth_skipn {A} (l : list A) p : nth_error l p = match skipn p l with [] => None | x :: _ => Some x end.
Proof. revert p. induction l as [|x l IH]; intros [|p]; try reflexivity. cbn. apply IH. Qed.
Lemma blank_spec c : is_blank c = true <-> blank c.
Proof. unfold is_blank, blank. rewrite orb_true_iff, andb_true_iff, N.eqb_eq, !N.leb_le. tauto. Qed.
Lemma blank_no_word c : blank c -> word c = false.
Proof. unfold blank, word. intros [->|H]; [reflexivity|]. assert (E : c < 14) by lia. destruct (N.leb_spec 48 c); [lia|]. destruct (N.leb_spec 65 c); [lia|]. destruct (N.leb_spec 97 c); [lia|]. destruct (N.eqb_spec c 95); [lia|reflexivity]. Qed.
Lemma comments_end k : comments k -> k = [] \/ exists k' c, k = k' ++ [c] /\ word c = false.
Proof.
  induction 1 as [|body t C IH|body t B C IH|t C IH]; [left; reflexivity|right|right|right].
  - destruct IH as [->|(k' & c & -> & W)]; [exists (47 :: 42 :: body ++ [42]), 47; cbn [app]; rewrite <- app_assoc; split; reflexivity|exists (47 :: 42 :: body ++ 42 :: 47 :: k'), c; cbn [app]; rewrite <- app_assoc; split; [reflexivity|exact W]].
  - destruct IH as [->|(k' & c & -> & W)]; [exists (47 :: 47 :: body), 10; split; reflexivity|exists (47 :: 47 :: body ++ 10 :: k'), c; cbn [app]; rewrite <- app_assoc; split; [reflexivity|exact W]].
  - destruct IH as [->|(k' & c & -> & W)]; [exists [], 47; split; reflexivity|exists (47 :: k'), c; split; [reflexivity|exact W]].
Qed.
Lemma gap_end g : gap g -> g = [] \/ exists g' c, g = g' ++ [c] /\ word c = false.
Proof.
  intros (b & k & -> & B & K). destruct (comments_end k K) as [->|(k' & c & -> & W)]; [|right; exists (b ++ k'), c; rewrite app_assoc; split; [reflexivity|exact W]].
  rewrite app_nil_r. destruct (rev_case b) as [->|(b' & c & ->)]; [left; reflexivity|right]. exists b', c. split; [reflexivity|]. apply Forall_app in B as [_ B]. apply Forall_inv in B. apply blank_no_word, B.
Qed.
Lemma skip_whitespace_spec : forall l, exists n, skip_whitespace (l ++ [0]) = Some n /\ (n <= length l)%nat /\ Forall blank (firstn n l) /\ forall c r, skipn n l = c :: r -> ~ blank c.
Proof.
  induction l as [|c t IH]; [exists 0%nat; cbn; repeat split; auto; discriminate|]. cbn [app skip_whitespace]. destruct (negb (c =? 0) && is_blank c) eqn:E.
  - destruct IH as (n & -> & L & F & K). exists (S n). cbn [option_map length firstn skipn]. repeat split; [lia| |exact K]. constructor; [apply blank_spec; apply andb_true_iff in E; apply E|exact F].
  - exists 0%nat. cbn [length firstn skipn]. repeat split; [lia|constructor|]. intros x r X. injection X as <- _. intros B. apply blank_spec in B as B2. rewrite B2, andb_true_r in E. apply negb_false_iff, N.eqb_eq in E. subst c. destruct B; lia.
Qed.
Lemma comment_end_spec : forall l, exists r, comment_end (l ++ [0]) = Some r /\ forall n, r = Some n -> exists body t, l = body ++ 42 :: 47 :: t /\ n = (length body + 2)%nat.
Proof.
  induction l as [|x l IH]; [exists None; split; [reflexivity|discriminate]|]. cbn [app comment_end]. destruct IH as (r & E & F).
  assert (K : exists r', (r <- comment_end (l ++ [0]) ;; Some (option_map S r)) = Some r' /\ forall n, r' = Some n -> exists body t, x :: l = body ++ 42 :: 47 :: t /\ n = (length body + 2)%nat).
  { rewrite E. exists (option_map S r). split; [reflexivity|]. intros n X. destruct r as [m|]; [|discriminate]. injection X as <-. destruct (F m eq_refl) as (body & t & -> & ->). exists (x :: body), t. split; reflexivity. }
  destruct (N.eqb_spec x 42) as [->|_]; [|exact K]. destruct (l ++ [0]) as [|y t] eqn:El; [destruct l; discriminate El|]. destruct (N.eqb_spec y 47) as [->|_]; [|exact K].
  exists (Some 2%nat). split; [reflexivity|]. intros n X. injection X as <-. destruct l as [|z l]; [discriminate El|]. injection El as -> _. exists [], l. split; reflexivity.
Qed.
Lemma index_spec c : forall l n, index c l = Some n -> exists a b, l = a ++ c :: b /\ length a = n /\ ~ In c a.
Proof.
  induction l as [|x l IH]; intros n H; [discriminate|]. cbn [index] in H. destruct (N.eqb_spec x c) as [->|X]; [injection H as <-; exists [], l; repeat split; auto|].
  destruct (index c l) as [m|]; [|discriminate]. injection H as <-. destruct (IH m eq_refl) as (a & b & -> & <- & I). exists (x :: a), b. repeat split. intros [Y|Y]; [congruence|exact (I Y)].
Qed.
Lemma string_end_spec : forall l prev n, string_end prev l = Some n -> exists body r, l = body ++ 34 :: r /\ length body = n /\ forall a b, body = a ++ 34 :: b -> (a = [] /\ prev = 92) \/ exists a', a = a' ++ [92].
Proof.
  induction l as [|x l IH]; intros prev n H; [discriminate|]. cbn [string_end] in H. destruct ((x =? 34) && negb (prev =? 92)) eqn:E.
  - injection H as <-. apply andb_true_iff in E as [E _]. apply N.eqb_eq in E as ->. exists [], l. repeat split. intros a b X. destruct a; discriminate X.
  - destruct (string_end x l) as [m|] eqn:F; [|discriminate]. injection H as <-. destruct (IH _ _ F) as (body & r & -> & <- & Q). exists (x :: body), r. repeat split. intros a b X.
    destruct a as [|y a]; injection X as Y Z; [subst x; rewrite N.eqb_refl in E; cbn in E; apply negb_false_iff, N.eqb_eq in E; left; split; [reflexivity|exact E]|].
    right. destruct (Q _ _ Z) as [[-> ->]|[a' ->]]; [exists []; subst y; reflexivity|exists (y :: a'); reflexivity].
Qed.
Lemma word_end_spec : forall l, exists n w r, word_end (l ++ [0]) = Some n /\ l = w ++ r /\ length w = n /\ Forall (fun c => word c = true) w /\ begins_word r = false.
Proof.
  induction l as [|x l IH]; [exists 0%nat, [], []; repeat split; constructor|]. cbn [app word_end]. rewrite <- word_alnum. destruct (word x) eqn:W; [|exists 0%nat, [], (x :: l); repeat split; [constructor|exact W]].
  destruct IH as (n & w & r & -> & -> & <- & F & B). exists (S (length w)), (x :: w), r. repeat split; [constructor; assumption|exact B].
Qed.

(** The result of reading one token at [p]. *)
Inductive lexed (d : text) (p : nat) : token -> nat -> Prop :=
| L_hash g r : gap g -> skipn p d = g ++ 35 :: r -> lexed d p (Token tok_hash 1 (p + length g)) (p + length g + 1)
| L_word g w r : gap g -> skipn p d = g ++ w ++ r -> ident w -> begins_word r = false -> lexed d p (Token tok_identifier (length w) (p + length g)) (p + length g + length w)
| L_char g c r : gap g -> skipn p d = g ++ c :: r -> word c = false -> c <> 0 -> lexed d p (Token tok_identifier 1 (p + length g)) (p + length g + 1)
| L_string g body r : gap g -> skipn p d = g ++ 34 :: body ++ 34 :: r -> quoted body -> lexed d p (Token tok_string (length body) (p + length g + 1)) (p + length g + 1 + length body + 1)
| L_eof q : (p <= q < length d)%nat -> lexed d p (Token tok_eof (length d - q) (length d)) q.

Section Lex.
Variable t0 : text.
Let d := t0 ++ [0].
Hypothesis Len : N.of_nat (length d) < INT32_MAX.
Lemma dist_ok a b : (a <= b <= length d)%nat -> distance a b = Some (b - a)%nat.
Proof using Len. intros H. unfold distance, assert_. destruct (Nat.leb_spec a b); [|lia]. destruct (N.ltb_spec (N.of_nat (b - a)) INT32_MAX); [reflexivity|lia]. Qed.
Lemma suffix p : (p < length d)%nat -> skipn p d = skipn p t0 ++ [0].
Proof using. clear Len. intros H. unfold d in *. rewrite app_length in H. cbn in H. rewrite skipn_app. replace (p - length t0)%nat with 0%nat by lia. reflexivity. Qed.
Lemma suffix_length p r : (p < length d)%nat -> skipn p t0 = r -> length r = (length d - 1 - p)%nat.
Proof using. clear Len. intros H <-. rewrite skipn_length. unfold d. rewrite app_length. cbn. lia. Qed.
Lemma read_at p c r : skipn p d = c :: r -> nth_error d p = Some c.
Proof using. clear Len. intros E. rewrite nth_skipn, E. reflexivity. Qed.
Lemma skip_at p a r : skipn p d = a ++ r -> skipn (p + length a) d = r.
Proof using. clear Len. intros E. rewrite skipn_plus, E. apply skipn_exact. Qed.
Lemma token_loop_spec : forall fuel sp p b k, (length d - p < fuel)%nat -> (sp + length k = p)%nat -> (p < length d)%nat -> skipn sp d = k ++ skipn p d -> comments k -> Forall blank b -> (length b <= sp)%nat -> skipn (sp - length b) d = b ++ skipn sp d ->
  exists t q, token_loop fuel d sp p = Some (t, q) /\ lexed d (sp - length b) t q /\ (q < length d)%nat.
Proof using Len.
  induction fuel as [|fuel IH]; intros sp p b k L P Lp E K B Lb Eb; [lia|]. cbn [token_loop]. rewrite dist_ok by lia.
  set (st := (sp - length b)%nat) in *. assert (Gp : forall k, comments k -> gap (b ++ k)) by (intros k0 K0; exists b, k0; repeat split; assumption).
  assert (At : forall s, skipn p d = s -> skipn st d = (b ++ k) ++ s) by (intros s X; rewrite Eb, E, X, app_assoc; reflexivity).
  assert (Pos : (p = st + length (b ++ k))%nat) by (rewrite app_length; unfold st; lia).
  pose proof (suffix p Lp) as Sp. assert (Eof : exists t q, Some (Token tok_eof (length d - sp) (length d), sp) = Some (t, q) /\ lexed d st t q /\ (q < length d)%nat) by (eexists _, _; split; [reflexivity|]; split; [apply L_eof; lia|lia]).
  destruct (skipn p t0) as [|c r] eqn:Et; cbn [app] in Sp.
  { rewrite (read_at _ _ _ Sp). change (0 =? 47) with false. change (0 =? 35) with false. change (0 =? 0) with true. cbv beta iota. exact Eof. }
  rewrite (read_at _ _ _ Sp). pose proof (suffix_length p _ Lp Et) as Lr. cbn [length] in Lr. cbv beta iota.
  assert (Sp1 : skipn (p + 1) d = r ++ [0]) by (apply (skip_at p [c]); exact Sp).
  destruct (N.eqb_spec c 47) as [->|N47].
  { destruct r as [|c1 r]; cbn [app] in Sp1.
    - rewrite (read_at _ _ _ Sp1). change (0 =? 42) with false. change (0 =? 47) with false. cbv beta iota. refine (IH sp (p + 1)%nat b (k ++ [47]) _ _ _ _ _ B Lb Eb); [lia|rewrite app_length; cbn; lia|cbn in Lr; lia|rewrite E, Sp, Sp1, <- app_assoc; reflexivity|].
      clear - K. induction K; cbn [app]; try (rewrite <- app_assoc; cbn [app]); constructor; try assumption; constructor.
    - rewrite (read_at _ _ _ Sp1). cbv beta iota. cbn [length] in Lr.
      assert (Go : forall x, comments x -> (0 < length x)%nat -> (p + length x < length d)%nat -> skipn p d = x ++ skipn (p + length x) d -> exists t q, token_loop fuel d sp (p + length x) = Some (t, q) /\ lexed d st t q /\ (q < length d)%nat).
      { intros x Kx Px Lx Ex. refine (IH sp (p + length x)%nat b (k ++ x) _ _ Lx _ _ B Lb Eb); [lia|rewrite app_length; lia|rewrite E, Ex, <- app_assoc; f_equal; f_equal; rewrite <- Ex; reflexivity|].
        clear - K Kx. induction K; cbn [app]; try (rewrite <- app_assoc; cbn [app]); [exact Kx|constructor; assumption|constructor; assumption|constructor; assumption]. }
      assert (Sp2 : skipn (p + 2) d = r ++ [0]) by (apply (skip_at p [47; c1]); exact Sp).
      destruct (N.eqb_spec c1 42) as [->|N42].
      + rewrite Sp2. destruct (comment_end_spec r) as (res & -> & R). destruct res as [n|]; [|exact Eof]. destruct (R n eq_refl) as (body & t & -> & ->). rewrite app_length in Lr. cbn [length] in Lr.
        replace (p + 2 + (length body + 2))%nat with (p + length (47 :: 42 :: body ++ [42; 47])%N)%nat by (cbn [length]; rewrite app_length; cbn; lia). apply Go.
        * apply (K_block body []). constructor.
        * cbn. lia.
        * cbn [length]. rewrite app_length. cbn [length]. lia.
        * assert (X : skipn p d = (47 :: 42 :: body ++ [42; 47]) ++ t ++ [0]) by (rewrite Sp; cbn [app]; rewrite <- !app_assoc; reflexivity). rewrite (skip_at _ _ _ X). exact X.
      + destruct (N.eqb_spec c1 47) as [->|N472].
        * rewrite Sp1. destruct (index 10 (47 :: r ++ [0])) as [n|] eqn:I; [|exact Eof]. cbn [index] in I. change (47 =? 10) with false in I. cbv beta iota in I. destruct (index 10 (r ++ [0])) as [m|] eqn:J; [|discriminate]. injection I as <-.
          destruct (index_spec _ _ _ J) as (a & b2 & Ja & <- & Jn). assert (exists t, b2 = t ++ [0] /\ r = a ++ 10 :: t) as (t & -> & ->).
          { destruct (rev_case b2) as [->|(t & z & ->)]; [apply app_inj_tail in Ja as [_ Ja]; discriminate|]. rewrite app_comm_cons, app_assoc in Ja. apply app_inj_tail in Ja as [Ja <-]. exists t. split; [reflexivity|exact Ja]. }
          rewrite app_length in Lr. cbn [length] in Lr. replace (p + 1 + S (length a) + 1)%nat with (p + length (47 :: 47 :: a ++ [10])%N)%nat by (cbn [length]; rewrite app_length; cbn; lia). apply Go.
          -- apply (K_line a []); [exact Jn|constructor].
          -- cbn. lia.
          -- cbn [length]. rewrite app_length. cbn [length]. lia.
          -- assert (X : skipn p d = (47 :: 47 :: a ++ [10]) ++ t ++ [0]) by (rewrite Sp; cbn [app]; rewrite <- !app_assoc; reflexivity). rewrite (skip_at _ _ _ X). exact X.
        * apply (Go [47]); [apply K_slash; constructor|cbn; lia|cbn [length]; lia|]. cbn [length]. rewrite Sp1, Sp. reflexivity. }
  specialize (Gp k K). specialize (At _ Sp). rewrite Pos in Lr, Lp |- *. set (g := b ++ k) in *.
  destruct (N.eqb_spec c 35) as [->|N35]. { eexists _, _. split; [reflexivity|]. split; [exact (L_hash _ _ g _ Gp At)|lia]. }
  destruct (N.eqb_spec c 0) as [->|N0]; [exact Eof|].
  destruct (N.eqb_spec c 34) as [->|N34].
  { rewrite <- Pos, Sp1, Pos. destruct (string_end 34 (r ++ [0])) as [n|] eqn:F; [|exact Eof]. destruct (string_end_spec _ _ _ F) as (body & r2 & Eq & <- & Q).
    assert (exists r3, r2 = r3 ++ [0] /\ r = body ++ 34 :: r3) as (r3 & -> & ->).
    { destruct (rev_case r2) as [->|(t & z & ->)]; [apply app_inj_tail in Eq as [_ Eq]; discriminate|]. rewrite app_comm_cons, app_assoc in Eq. apply app_inj_tail in Eq as [Eq <-]. exists t. split; [reflexivity|exact Eq]. }
    rewrite app_length in Lr. cbn [length] in Lr. rewrite dist_ok by lia. replace (st + length g + 1 + length body - (st + length g + 1))%nat with (length body) by lia. eexists _, _. split; [reflexivity|]. split; [|lia].
    apply (L_string _ _ g body (r3 ++ [0]) Gp); [rewrite At; cbn [app]; rewrite <- app_assoc; reflexivity|]. intros x y X. destruct (Q _ _ X) as [[_ Y]|Y]; [discriminate Y|exact Y]. }
  rewrite <- Pos, Sp, Pos. change (c :: r ++ [0]) with ((c :: r) ++ [0]). destruct (word_end_spec (c :: r)) as (n & w & r2 & -> & Ew & <- & F & Bw). destruct w as [|x w].
  - cbn [length]. change (0 =? 0)%nat with true. cbv beta iota. rewrite dist_ok by lia. replace (st + length g + 1 - (st + length g))%nat with 1%nat by lia. eexists _, _. split; [reflexivity|]. split; [|lia].
    apply (L_char _ _ g c (r ++ [0]) Gp At); [cbn [app] in Ew; subst r2; exact Bw|exact N0].
  - assert (Lw : (S (length r) = length (x :: w) + length r2)%nat) by (rewrite <- app_length, <- Ew; reflexivity). destruct (Nat.eqb_spec (length (x :: w)) 0) as [Y|_]; [discriminate Y|]. rewrite dist_ok by lia. replace (st + length g + length (x :: w) - (st + length g))%nat with (length (x :: w)) by lia.
    eexists _, _. split; [reflexivity|]. split; [|lia]. apply (L_word _ _ g (x :: w) (r2 ++ [0]) Gp); [rewrite At; change (c :: r ++ [0]) with ((c :: r) ++ [0]); rewrite Ew, <- app_assoc; reflexivity|split; [discriminate|exact F]|]. destruct r2; [reflexivity|exact Bw].
Qed.
Theorem next_token_spec : forall p, (p < length d)%nat -> exists t q, next_token d p = Some (t, q) /\ lexed d p t q /\ (q < length d)%nat.
Proof using Len.
  intros p Lp. unfold next_token. rewrite (suffix p Lp). destruct (skip_whitespace_spec (skipn p t0)) as (n & -> & Ln & F & _). rewrite skipn_length in Ln. assert (Ld : length d = S (length t0)) by (unfold d; rewrite app_length; cbn; lia).
  assert (Lb : length (firstn n (skipn p t0)) = n) by (rewrite firstn_length, skipn_length; lia).
  destruct (token_loop_spec (S (length d)) (p + n) (p + n) (firstn n (skipn p t0)) []) as (t & q & E & X & Y); try (rewrite ?Lb; cbn [length]; lia); try reflexivity; [constructor|exact F| |].
  - rewrite Lb. replace (p + n - n)%nat with p by lia. rewrite (suffix p Lp). rewrite skipn_plus, (suffix p Lp). rewrite <- (firstn_skipn n (skipn p t0)) at 1. rewrite <- app_assoc. f_equal. rewrite skipn_app, skipn_length. replace (n - (length t0 - p))%nat with 0%nat by lia. reflexivity.
  - rewrite Lb in X. replace (p + n - n)%nat with p in X by lia. exists t, q. auto.
Qed.
End Lex.
