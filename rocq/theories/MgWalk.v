(** Passes over ordinary text: each file that is included is merged, and nothing else is changed. *)
From Coq Require Import Arith NArith List Bool Lia.
From Verif Require Import Base MgModel MgSpec MgWord MgText MgLex MgMerge.
Import ListNotations.
Local Open Scope N_scope.

Lemma comment_end_at : forall body r, absent [42; 47] (body ++ [42]) -> comment_end (body ++ 42 :: 47 :: r) = Some (Some (length body + 2)%nat).
Proof.
  induction body as [|x body IH]; intros r A; [reflexivity|].
  assert (A' : absent [42; 47] (body ++ [42])) by (intros a b E; apply (A (x :: a) b); cbn [app]; rewrite E; reflexivity). specialize (IH r A').
  cbn [app comment_end length]. destruct (N.eqb_spec x 42) as [->|_]; [|rewrite IH; reflexivity].
  destruct body as [|y body]; cbn [app] in *; [rewrite IH; reflexivity|]. destruct (N.eqb_spec y 47) as [->|_]; [|rewrite IH; reflexivity]. exfalso. apply (A [] (body ++ [42])). reflexivity.
Qed.
Lemma string_end_from : forall body prev r, (forall a b, body = a ++ 34 :: b -> (a = [] /\ prev = 92) \/ exists a', a = a' ++ [92]) -> (body = [] -> prev <> 92) -> (forall b, body <> b ++ [92]) -> string_end prev (body ++ 34 :: r) = Some (length body).
Proof.
  induction body as [|x body IH]; intros prev r Q E L.
  - cbn [app string_end length]. rewrite N.eqb_refl. destruct (N.eqb_spec prev 92) as [Y|_]; [exfalso; exact (E eq_refl Y)|reflexivity].
  - cbn [app string_end length]. assert ((x =? 34) && negb (prev =? 92) = false) as ->.
    { destruct (N.eqb_spec x 34) as [->|_]; [|reflexivity]. destruct (Q [] body eq_refl) as [[_ ->]|[a' Y]]; [reflexivity|]. destruct a'; discriminate Y. }
    rewrite IH; [reflexivity| | |].
    + intros a b Y. destruct (Q (x :: a) b) as [[Z _]|[a' Z]]; [rewrite Y; reflexivity|discriminate Z|]. destruct a' as [|y a']; injection Z as -> ->; [left; split; reflexivity|right; exists a'; reflexivity].
    + intros -> ->. exact (L [] eq_refl).
    + intros b ->. exact (L (x :: b) eq_refl).
Qed.
Lemma string_end_at body r : string_body body -> string_end 34 (body ++ 34 :: r) = Some (length body).
Proof. intros [Q L]. apply string_end_from; [intros a b E; right; exact (Q a b E)|discriminate|exact L]. Qed.
Lemma word_spec c : isalnum c || (c =? 95) = word c. Proof. reflexivity. Qed.
Lemma word_end_at : forall w c r, Forall (fun c => word c = true) w -> word c = false -> word_end (w ++ c :: r) = Some (length w).
Proof. induction w as [|x w IH]; intros c r F W; cbn [app word_end length]; rewrite word_spec; [rewrite W; reflexivity|]. inversion F; subst. rewrite H1, (IH c r H2 W). reflexivity. Qed.
Lemma blank_true c : blank c -> is_blank c = true /\ c <> 0.
Proof. intros B. split; [apply blank_spec; exact B|]. destruct B; lia. Qed.
Lemma skip_blanks : forall b c r, Forall blank b -> ~ blank c -> skip_whitespace (b ++ c :: r) = Some (length b).
Proof.
  induction b as [|x b IH]; intros c r F B; cbn [app skip_whitespace length].
  - destruct (is_blank c) eqn:E; [exfalso; apply B; apply blank_spec; exact E|]. rewrite andb_false_r. reflexivity.
  - inversion F; subst. destruct (blank_true x H1) as [-> Z]. destruct (N.eqb_spec x 0); [congruence|]. cbn [negb andb]. rewrite (IH c r H2 B). reflexivity.
Qed.
Lemma word_no_blank c : word c = true -> ~ blank c.
Proof. intros W [->|B]; [discriminate W|]. unfold word in W. assert (c = 9 \/ c = 10 \/ c = 11 \/ c = 12 \/ c = 13) as D by lia. destruct D as [->|[->|[->|[->| ->]]]]; discriminate W. Qed.
Lemma ordinary_word : forall a, ordinary a -> exists w a2, a = w ++ a2 /\ Forall (fun c => word c = true) w /\ begins_word a2 = false /\ ordinary a2.
Proof.
  induction 1 as [|c t N O IH|body t A O IH|body t A O IH|t A1 A2 O IH|body t A O IH|t A O IH]; try (exists [], []; repeat split; constructor).
  - destruct (word c) eqn:W; [|exists [], (c :: t); split; [reflexivity|]; split; [constructor|]; split; [exact W|constructor; assumption]]. destruct IH as (w & a2 & -> & F & B & O2). exists (c :: w), a2. split; [reflexivity|]. split; [constructor; assumption|]. split; assumption.
  - eexists [], _. split; [reflexivity|]. split; [constructor|]. split; [reflexivity|apply O_block; assumption].
  - eexists [], _. split; [reflexivity|]. split; [constructor|]. split; [reflexivity|apply O_line; assumption].
  - eexists [], _. split; [reflexivity|]. split; [constructor|]. split; [reflexivity|apply O_slash; assumption].
  - eexists [], _. split; [reflexivity|]. split; [constructor|]. split; [reflexivity|apply O_string; assumption].
  - eexists [], _. split; [reflexivity|]. split; [constructor|]. split; [reflexivity|apply O_hash; assumption].
Qed.
Lemma blank_dec c : blank c \/ ~ blank c.
Proof. destruct (is_blank c) eqn:E; [left|right; intros B]; apply blank_spec in E || apply blank_spec in B; [exact E|congruence]. Qed.
Lemma ordinary_blanks : forall a, ordinary a -> exists b a2, a = b ++ a2 /\ Forall blank b /\ (forall c r, a2 = c :: r -> ~ blank c) /\ ordinary a2.
Proof.
  assert (K : forall c t, In c [47; 34; 35] -> ordinary (c :: t) -> exists b a2, c :: t = b ++ a2 /\ Forall blank b /\ (forall x r, a2 = x :: r -> ~ blank x) /\ ordinary a2).
  { intros c t I O. exists [], (c :: t). split; [reflexivity|]. split; [constructor|]. split; [|exact O]. intros x r E. injection E as <- _. destruct I as [<-|[<-|[<-|[]]]]; intros [B|B]; lia. }
  induction 1 as [|c t N O IH|body t A O IH|body t A O IH|t A1 A2 O IH|body t A O IH|t A O IH].
  - exists [], []. split; [reflexivity|]. split; [constructor|]. split; [discriminate|constructor].
  - destruct (blank_dec c) as [B|B]; [|exists [], (c :: t); split; [reflexivity|]; split; [constructor|]; split; [intros x r E; injection E as <- _; exact B|constructor; assumption]].
    destruct IH as (b & a2 & -> & F & Nb & O2). exists (c :: b), a2. split; [reflexivity|]. split; [constructor; assumption|]. split; assumption.
  - apply K; [left; reflexivity|apply O_block; assumption].
  - apply K; [left; reflexivity|apply O_line; assumption].
  - apply K; [left; reflexivity|apply O_slash; assumption].
  - apply K; [right; left; reflexivity|apply O_string; assumption].
  - apply K; [right; right; left; reflexivity|apply O_hash; assumption].
Qed.

Section Walk.
Variable t0 : text.
Let d := t0 ++ [0].
Hypothesis Len : N.of_nat (length d) < INT32_MAX.
Lemma dist_w a b : (a <= b <= length d)%nat -> distance a b = Some (b - a)%nat. Proof using Len. apply dist_ok. exact Len. Qed.
Lemma read_w p c r : skipn p d = c :: r -> nth_error d p = Some c. Proof using. clear Len. apply read_at. Qed.
Lemma skip_w p a r : skipn p d = a ++ r -> skipn (p + length a) d = r. Proof using. clear Len. apply skip_at. Qed.
Lemma len_w p a : skipn p d = a -> (length a <= length d - p)%nat. Proof using. clear Len. intros <-. rewrite skipn_length. lia. Qed.
Lemma in_w p c r : skipn p d = c :: r -> (p < length d)%nat.
Proof using. clear Len. intros E. destruct (Nat.lt_ge_cases p (length d)) as [L|L]; [exact L|]. rewrite skipn_all2 in E by exact L. discriminate E. Qed.
Definition consumed (fuel sp p : nat) (a : text) (c : N) (res : option (token * nat)) : Prop :=
  (exists a1 x a2 ty ln, a = a1 ++ x ++ a2 /\ x <> [] /\ ordinary a2 /\ res = Some (Token ty ln (p + length a1), (p + length a1 + length x)%nat) /\ (ty = tok_identifier \/ ty = tok_string)) \/
  (exists a1 a2, a = a1 ++ 35 :: a2 /\ ordinary a2 /\ other_directive a2 /\ res = Some (Token tok_hash 1 (p + length a1), (p + length a1 + 1)%nat)) \/
  (res = if c =? 35 then Some (Token tok_hash 1 (p + length a), (p + length a + 1)%nat) else Some (Token tok_eof (length d - sp) (length d), sp)).
Lemma consumed_shift fuel fuel' sp p x a c res : consumed fuel sp (p + length x) a c res -> consumed fuel' sp p (x ++ a) c res.
Proof using.
  clear Len. intros [(a1 & y & a2 & ty & ln & -> & Ny & O & E & T)|[(a1 & a2 & -> & O & D & E)|E]].
  - left. exists (x ++ a1), y, a2, ty, ln. rewrite app_length, !app_assoc in *. repeat split; try assumption. rewrite E. rewrite !Nat.add_assoc. reflexivity.
  - right; left. exists (x ++ a1), a2. rewrite app_length, <- app_assoc in *. repeat split; try assumption. rewrite E, !Nat.add_assoc. reflexivity.
  - right; right. rewrite app_length. rewrite E, !Nat.add_assoc. reflexivity.
Qed.
Lemma token_loop_ordinary : forall a, ordinary a -> forall fuel sp p c r, skipn p d = a ++ c :: r -> c = 35 \/ c = 0 -> (sp <= p)%nat -> (length d - p < fuel)%nat -> consumed fuel sp p a c (token_loop fuel d sp p).
Proof using Len.
  induction 1 as [|x t N O IH|body t A O IH|body t A O IH|t A1 A2 O IH|body t A O IH|t A O IH]; intros fuel sp p c r E Ec Ls Lf; (destruct fuel as [|fuel]; [lia|]); cbn [token_loop].
  - right; right. pose proof (in_w _ _ _ E) as Lp. rewrite dist_w by lia. rewrite (read_w _ _ _ E). cbn [length]. rewrite Nat.add_0_r. cbv beta iota. destruct Ec as [->| ->]; reflexivity.
  - pose proof (in_w _ _ _ E) as Lp. rewrite dist_w by lia. rewrite (read_w _ _ _ E). cbv beta iota.
    destruct (N.eqb_spec x 47) as [->|_]; [exfalso; apply N; cbn; tauto|]. destruct (N.eqb_spec x 35) as [->|_]; [exfalso; apply N; cbn; tauto|]. destruct (N.eqb_spec x 0) as [->|_]; [exfalso; apply N; cbn; tauto|]. destruct (N.eqb_spec x 34) as [->|_]; [exfalso; apply N; cbn; tauto|].
    rewrite E. destruct (ordinary_word (x :: t) (O_char x t N O)) as (w & a2 & Ew & F & B & O2). change ((x :: t) ++ c :: r) with ((x :: t) ++ c :: r) in E |- *. rewrite Ew in E |- *. rewrite <- app_assoc in E |- *.
    assert (We : word_end (w ++ a2 ++ c :: r) = Some (length w)). { destruct a2 as [|y a2]; cbn [app]; apply word_end_at; try exact F; [destruct Ec as [->| ->]; reflexivity|exact B]. } rewrite We. cbv beta iota.
    destruct (Nat.eqb_spec (length w) 0) as [Z|Z].
    + destruct w; [|discriminate Z]. cbn [app] in Ew. rewrite dist_w by (rewrite <- (skipn_length p d), E in *; lia || lia). left. exists [], [x], t, tok_identifier, 1%nat. cbn [app length]. rewrite Nat.add_0_r. repeat split; [congruence|discriminate|exact O| |left; reflexivity]. replace (p + 1 - p)%nat with 1%nat by lia. reflexivity.
    + pose proof (len_w _ _ E) as Ll. rewrite app_length in Ll. rewrite dist_w by lia. left. exists [], w, a2, tok_identifier, (length w). cbn [app length]. rewrite Nat.add_0_r. repeat split; [intros ->; apply Z; reflexivity|exact O2| |left; reflexivity]. replace (p + length w - p)%nat with (length w) by lia. reflexivity.
  - pose proof (in_w _ _ _ E) as Lp. rewrite dist_w by lia. rewrite (read_w _ _ _ E). cbv beta iota. change (47 =? 47) with true. cbv beta iota.
    assert (E1 : skipn (p + 1) d = (42 :: body ++ 42 :: 47 :: t) ++ c :: r) by exact (skip_w p [47] _ E). rewrite (read_w _ _ _ E1). cbv beta iota. change (42 =? 42) with true. cbv beta iota.
    assert (E2 : skipn (p + 2) d = (body ++ 42 :: 47 :: t) ++ c :: r) by exact (skip_w p [47; 42] _ E). rewrite E2. rewrite <- app_assoc. cbn [app]. rewrite (comment_end_at body _ A).
    change (47 :: 42 :: body ++ 42 :: 47 :: t) with ([47; 42] ++ body ++ [42; 47] ++ t) in *. replace ([47; 42] ++ body ++ [42; 47] ++ t) with (([47; 42] ++ body ++ [42; 47]) ++ t) in * by (rewrite <- !app_assoc; reflexivity).
    assert (Lb : (p + 2 + (length body + 2) = p + length ([47; 42] ++ body ++ [42; 47])%N)%nat) by (rewrite !app_length; cbn; lia). rewrite Lb. rewrite <- app_assoc in E. pose proof (skip_w _ _ _ E) as E3.
    apply (consumed_shift fuel). apply (IH _ _ _ _ r E3 Ec); [lia|]. rewrite !app_length. cbn [length]. lia.
  - pose proof (in_w _ _ _ E) as Lp. rewrite dist_w by lia. rewrite (read_w _ _ _ E). cbv beta iota. change (47 =? 47) with true. cbv beta iota.
    assert (E1 : skipn (p + 1) d = (47 :: body ++ 10 :: t) ++ c :: r) by exact (skip_w p [47] _ E). rewrite (read_w _ _ _ E1). cbv beta iota. change (47 =? 42) with false. cbv beta iota. change (47 =? 47) with true. cbv beta iota.
    assert (Ix : index 10 (skipn (p + 1) d) = Some (S (length body))). { rewrite E1. replace ((47 :: body ++ 10 :: t) ++ c :: r) with ((47 :: body) ++ 10 :: t ++ c :: r) by (cbn [app]; rewrite <- app_assoc; reflexivity). apply (index_app 10 (47 :: body)). intros [Y|Y]; [discriminate Y|exact (A Y)]. } rewrite Ix. cbv beta iota.
    change (47 :: 47 :: body ++ 10 :: t) with ([47; 47] ++ body ++ [10] ++ t) in *. replace ([47; 47] ++ body ++ [10] ++ t) with (([47; 47] ++ body ++ [10]) ++ t) in * by (rewrite <- !app_assoc; reflexivity).
    assert (Lb : (p + 1 + S (length body) + 1 = p + length ([47; 47] ++ body ++ [10])%N)%nat) by (rewrite !app_length; cbn; lia). rewrite Lb. rewrite <- app_assoc in E. pose proof (skip_w _ _ _ E) as E3.
    apply (consumed_shift fuel). apply (IH _ _ _ _ r E3 Ec); [lia|]. rewrite !app_length. cbn [length]. lia.
  - pose proof (in_w _ _ _ E) as Lp. rewrite dist_w by lia. rewrite (read_w _ _ _ E). cbv beta iota. change (47 =? 47) with true. cbv beta iota.
    assert (E1 : skipn (p + 1) d = t ++ c :: r) by exact (skip_w p [47] _ E).
    assert (exists c1 r1, t ++ c :: r = c1 :: r1 /\ c1 <> 42 /\ c1 <> 47) as (c1 & r1 & Y & N1 & N2). { destruct t as [|y t]; [exists c, r; split; [reflexivity|]; destruct Ec as [->| ->]; split; discriminate|]. exists y, (t ++ c :: r). split; [reflexivity|]. split; intros ->; [exact (A1 t eq_refl)|exact (A2 t eq_refl)]. }
    rewrite Y in E1. rewrite (read_w _ _ _ E1). cbv beta iota. destruct (N.eqb_spec c1 42); [congruence|]. destruct (N.eqb_spec c1 47); [congruence|]. rewrite <- Y in E1. apply (consumed_shift fuel _ _ _ [47]). apply (IH _ _ _ _ r E1 Ec); cbn [length]; lia.
  - pose proof (in_w _ _ _ E) as Lp. rewrite dist_w by lia. rewrite (read_w _ _ _ E). cbv beta iota. change (34 =? 47) with false. change (34 =? 35) with false. change (34 =? 0) with false. change (34 =? 34) with true. cbv beta iota.
    assert (E1 : skipn (p + 1) d = body ++ 34 :: t ++ c :: r). { pose proof (skip_w p [34] ((body ++ 34 :: t) ++ c :: r) E) as Y. rewrite <- app_assoc in Y. exact Y. } rewrite E1, (string_end_at body _ A). cbv beta iota. pose proof (len_w _ _ E1) as Ll. rewrite app_length in Ll. cbn [length] in Ll. rewrite dist_w by lia.
    left. exists [34], (body ++ [34]), t, tok_string, (p + 1 + length body - (p + 1))%nat. cbn [app length]. rewrite app_length, <- app_assoc. cbn [length app]. repeat split; [destruct body; discriminate|exact O| |right; reflexivity]. rewrite !Nat.add_assoc. reflexivity.
  - pose proof (in_w _ _ _ E) as Lp. rewrite dist_w by lia. rewrite (read_w _ _ _ E). cbv beta iota. right; left. exists [], t. cbn [app length]. rewrite Nat.add_0_r. repeat split; assumption.
Qed.
(** ** One token *)
Lemma next_blanks p b c r : skipn p d = b ++ c :: r -> Forall blank b -> ~ blank c -> next_token d p = token_loop (S (length d)) d (p + length b) (p + length b).
Proof using. clear Len. intros E F B. unfold next_token. rewrite E, (skip_blanks b c r F B). reflexivity. Qed.
Lemma next_ordinary a p c r : ordinary a -> skipn p d = a ++ c :: r -> c = 35 \/ c = 0 -> exists sp, consumed 0 sp p a c (next_token d p).
Proof using Len.
  intros O E Ec. destruct (ordinary_blanks a O) as (b & a2 & -> & F & Nb & O2). rewrite <- app_assoc in E. exists (p + length b)%nat.
  assert (exists y z, a2 ++ c :: r = y :: z /\ ~ blank y) as (y & z & Y & By). { destruct a2 as [|y a2]; [exists c, r; split; [reflexivity|]; destruct Ec as [->| ->]; intros [B|B]; lia|]. exists y, (a2 ++ c :: r). split; [reflexivity|exact (Nb _ _ eq_refl)]. }
  rewrite Y in E. rewrite (next_blanks _ _ _ _ E F By). rewrite <- Y in E. pose proof (skip_w _ _ _ E) as E2. apply (consumed_shift (S (length d))). apply (token_loop_ordinary a2 O2 _ _ _ _ _ E2 Ec); lia.
Qed.
Lemma next_word p b w c r : skipn p d = b ++ w ++ c :: r -> Forall blank b -> ident w -> word c = false -> next_token d p = Some (Token tok_identifier (length w) (p + length b), (p + length b + length w)%nat).
Proof using Len.
  intros E F [Nw Fw] W. destruct w as [|x w]; [congruence|]. pose proof (Forall_inv Fw) as Wx. cbn beta in Wx. cbn [app] in E. rewrite (next_blanks _ _ _ _ E F (word_no_blank _ Wx)). pose proof (skip_w _ _ _ E) as E1. pose proof (len_w _ _ E1) as Ll. cbn [length] in Ll. rewrite app_length in Ll. cbn [length] in Ll.
  pose proof (in_w _ _ _ E1) as Li. cbn [token_loop]. rewrite dist_w by lia. rewrite (read_w _ _ _ E1). cbv beta iota.
  destruct (N.eqb_spec x 47) as [->|_]; [discriminate Wx|]. destruct (N.eqb_spec x 35) as [->|_]; [discriminate Wx|]. destruct (N.eqb_spec x 0) as [->|_]; [discriminate Wx|]. destruct (N.eqb_spec x 34) as [->|_]; [discriminate Wx|].
  rewrite E1. change (x :: w ++ c :: r) with ((x :: w) ++ c :: r). rewrite (word_end_at (x :: w) c r Fw W). cbv beta iota. cbn [length]. change (S (length w) =? 0)%nat with false. cbv beta iota. rewrite dist_w by lia. replace (p + length b + S (length w) - (p + length b))%nat with (S (length w)) by lia. reflexivity.
Qed.
Lemma next_char p b c r : skipn p d = b ++ c :: r -> Forall blank b -> ~ blank c -> word c = false -> ~ In c [0; 34; 35; 47] -> next_token d p = Some (Token tok_identifier 1 (p + length b), (p + length b + 1)%nat).
Proof using Len.
  intros E F B W N. rewrite (next_blanks _ _ _ _ E F B). pose proof (skip_w _ _ _ E) as E1. pose proof (in_w _ _ _ E1) as Li. cbn [token_loop]. rewrite dist_w by lia. rewrite (read_w _ _ _ E1). cbv beta iota.
  destruct (N.eqb_spec c 47) as [->|_]; [exfalso; apply N; cbn; tauto|]. destruct (N.eqb_spec c 35) as [->|_]; [exfalso; apply N; cbn; tauto|]. destruct (N.eqb_spec c 0) as [->|_]; [exfalso; apply N; cbn; tauto|]. destruct (N.eqb_spec c 34) as [->|_]; [exfalso; apply N; cbn; tauto|].
  rewrite E1. pose proof (word_end_at [] c r (Forall_nil _) W) as We. cbn [app length] in We. rewrite We. cbv beta iota. change (0 =? 0)%nat with true. cbv beta iota. rewrite dist_w by lia. replace (p + length b + 1 - (p + length b))%nat with 1%nat by lia. reflexivity.
Qed.
Lemma next_string p b body r : skipn p d = b ++ 34 :: body ++ 34 :: r -> Forall blank b -> string_body body -> next_token d p = Some (Token tok_string (length body) (p + length b + 1), (p + length b + 1 + length body + 1)%nat).
Proof using Len.
  intros E F A. rewrite (next_blanks _ _ _ _ E F) by (intros [B|B]; lia). pose proof (skip_w _ _ _ E) as E1. pose proof (in_w _ _ _ E1) as Li. cbn [token_loop]. rewrite dist_w by lia. rewrite (read_w _ _ _ E1). cbv beta iota.
  change (34 =? 47) with false. change (34 =? 35) with false. change (34 =? 0) with false. change (34 =? 34) with true. cbv beta iota.
  assert (E2 : skipn (p + length b + 1) d = body ++ 34 :: r) by exact (skip_w (p + length b) [34] _ E1). pose proof (len_w _ _ E2) as Ll. rewrite app_length in Ll. cbn [length] in Ll. rewrite E2, (string_end_at body r A). rewrite dist_w by lia. replace (p + length b + 1 + length body - (p + length b + 1))%nat with (length body) by lia. reflexivity.
Qed.
Lemma compare_total lit p c r n : skipn p d = c :: r -> exists b, strncmp_eq n (skipn p d) (lit ++ [0]) = Some b.
Proof using. clear Len. intros E. unfold d. rewrite (suffix t0 p (in_w _ _ _ E)). apply strncmp_total. Qed.
Lemma compare_self : forall lit r m, Forall (fun c => c <> 0) lit -> strncmp_eq (length lit) (lit ++ r) (lit ++ m) = Some true.
Proof using. clear Len. induction lit as [|c lit IH]; intros r m F; [reflexivity|]. inversion F; subst. cbn [length strncmp_eq app]. rewrite N.eqb_refl. destruct (N.eqb_spec c 0); [congruence|apply IH; assumption]. Qed.
Lemma compare_not w lit p r : ident w -> skipn p d = w ++ r -> ~ prefix_of w lit -> strncmp_eq (length w) (skipn p d) (lit ++ [0]) = Some false.
Proof using.
  clear Len. intros I E N. assert (exists c z, skipn p d = c :: z) as (c & z & Ez) by (rewrite E; destruct I as [I _]; destruct w; [congruence|eexists _, _; reflexivity]). destruct (compare_total lit p c z (length w) Ez) as [[] Eb]; [|exact Eb].
  rewrite E in Eb. apply strncmp_prefix in Eb; [|apply ident_not_zero; exact I]. exfalso. apply N. split; [apply I|exact Eb].
Qed.
Lemma include_ident : ident the_include. Proof using. clear Len. split; [discriminate|repeat constructor]. Qed.
Lemma define_ident : ident the_define. Proof using. clear Len. split; [discriminate|repeat constructor]. Qed.
Lemma blanks_no_word b c r : Forall blank b -> word c = false -> begins_word (b ++ c :: r) = false.
Proof using. clear Len. intros F W. destruct b as [|x b]; [exact W|]. apply Forall_inv in F. cbn. destruct (word x) eqn:X; [exfalso; exact (word_no_blank _ X F)|reflexivity]. Qed.
Lemma uncons (x : text) : x <> [] -> begins_word x = false -> exists c r, x = c :: r /\ word c = false.
Proof using. clear Len. intros N B. destruct x as [|c r]; [congruence|]. exists c, r. split; [reflexivity|exact B]. Qed.
(** ** Directives that do not matter *)
Section Skip.
Variable files : text -> option text.
Variable dir : text.
Variable already : list text.
Lemma skip_statements p a c r defs out : other_directive a -> skipn p d = a ++ c :: r -> c = 35 \/ c = 0 -> merge_include_statement files dir d p defs already out = Some Merge_skip /\ parse_define_statement d p = Some Merge_skip.
Proof using Len.
  intros O E Ec. assert (Wc : word c = false) by (destruct Ec as [->| ->]; reflexivity). unfold merge_include_statement, parse_define_statement. change word_include with (the_include ++ [0]). change word_define with (the_define ++ [0]). change word_merge with the_merge.
  destruct O as [b w t Fb I B N1 N2|b1 b2 t F1 F2|b1 b2 w t F1 Nb F2 I B Nm].
  - rewrite <- !app_assoc in E. destruct (uncons (t ++ c :: r)) as (x & z & Ez & Wx); [destruct t; discriminate|destruct t; [exact Wc|exact B]|]. rewrite Ez in E. rewrite (next_word _ _ _ _ _ E Fb I Wx). cbv beta iota. cbn [is_identifier t_type t_len t_str]. pose proof (skip_w _ _ _ E) as E1.
    rewrite (compare_not _ the_include _ _ I E1 N1), (compare_not _ the_define _ _ I E1 N2). split; reflexivity.
  - rewrite <- !app_assoc in E. cbn [app] in E. destruct (uncons (b2 ++ 60 :: t ++ c :: r)) as (x & z & Ez & Wx); [destruct b2; discriminate|apply blanks_no_word; [exact F2|reflexivity]|]. pose proof E as E0. rewrite Ez in E0. rewrite (next_word _ _ _ _ _ E0 F1 include_ident Wx). cbv beta iota. cbn [is_identifier t_type t_len t_str]. pose proof (skip_w _ _ _ E0) as E1.
    rewrite (compare_not _ the_define _ _ include_ident E1) by (intros [_ [more Y]]; discriminate Y). assert (Ct : strncmp_eq (length the_include) (skipn (p + length b1) d) (the_include ++ [0]) = Some true) by (rewrite E1; apply compare_self; repeat constructor; discriminate). rewrite Ct. cbv beta iota. cbn [negb].
    pose proof (skip_w _ _ _ E1) as E2. rewrite <- Ez in E2. rewrite (next_char _ _ _ _ E2 F2); [split; reflexivity|intros [Y|Y]; lia|reflexivity|cbn; intuition discriminate].
  - rewrite <- !app_assoc in E. destruct (uncons (t ++ c :: r)) as (x & z & Ez & Wx); [destruct t; discriminate|destruct t; [exact Wc|exact B]|]. rewrite Ez in E.
    destruct (uncons (b2 ++ w ++ x :: z)) as (x2 & z2 & Ez2 & Wx2); [destruct b2; [congruence|discriminate]|destruct b2 as [|y b2]; [congruence|]; apply Forall_inv in F2; cbn; destruct (word y) eqn:Y; [exfalso; exact (word_no_blank _ Y F2)|reflexivity]|].
    pose proof E as E0. rewrite Ez2 in E0. rewrite (next_word _ _ _ _ _ E0 F1 define_ident Wx2). cbv beta iota. cbn [is_identifier t_type t_len t_str]. pose proof (skip_w _ _ _ E0) as E1.
    rewrite (compare_not _ the_include _ _ define_ident E1) by (intros [_ [more Y]]; discriminate Y). split; [reflexivity|]. assert (Ct : strncmp_eq (length the_define) (skipn (p + length b1) d) (the_define ++ [0]) = Some true) by (rewrite E1; apply compare_self; repeat constructor; discriminate). rewrite Ct. cbv beta iota. cbn [negb].
    pose proof (skip_w _ _ _ E1) as E2. rewrite <- Ez2 in E2. rewrite (next_word _ _ _ _ _ E2 F2 I Wx). cbv beta iota. cbn [is_identifier t_type t_len t_str]. pose proof (skip_w _ _ _ E2) as E3.
    assert (exists y z', skipn (p + length b1 + length the_define + length b2) d = y :: z') as (y & z' & Ey) by (rewrite E3; destruct I as [I _]; destruct w; [congruence|eexists _, _; reflexivity]). destruct (compare_total the_merge _ _ _ 6 Ey) as [[] Eb]; rewrite Eb; [|reflexivity].
    exfalso. apply (strncmp_lit the_merge) in Eb as [more Eb]; [|repeat constructor; discriminate]. rewrite E3 in Eb. destruct (app_eq_app _ _ _ _ Eb) as (q & [[Y1 Y2]|[Y1 Y2]]); [exact (Nm q Y1)|]. destruct q as [|v q]; [rewrite app_nil_r in Y1; apply (Nm []); rewrite app_nil_r; symmetry; exact Y1|]. cbn [app] in Y2. injection Y2 as -> _.
    assert (In v the_merge) as Iv by (rewrite Y1; apply in_or_app; right; left; reflexivity). assert (Forall (fun c => word c = true) the_merge) as Fm by repeat constructor. rewrite Forall_forall in Fm. specialize (Fm v Iv). congruence.
Qed.
Variable year : text.
Let defs := [Def merge_year year].
Lemma absent_part w a x b : absent w (a ++ x ++ b) -> absent w x.
Proof using. clear Len. intros A y z ->. apply (A (a ++ y) (z ++ b)). rewrite <- !app_assoc. reflexivity. Qed.
Lemma process_year x : absent merge_year x -> process_definitions x defs = Some x.
Proof using. clear Len. intros A. unfold defs. rewrite process_cons, replace_absent by exact A. reflexivity. Qed.
Lemma erase_year x : absent merge_year x -> erase_undef_statements x defs = Some x.
Proof using. clear Len. intros A. unfold defs. rewrite erase_cons, erase_absent; [reflexivity|]. cbn [d_name]. intros a b E. apply (A (a ++ word_undef) b). rewrite E, <- !app_assoc. reflexivity. Qed.
(** The branch of a # *)
Definition at_hash (fuel q : nat) (out : merged) : option merged :=
  r <- merge_include_statement files dir d q defs already out ;;
  match r with
  | Merge_ok (out, q) => merge_loop files dir fuel d already q (firstn 1 defs) (Merged (m_data out) (m_files out) (m_success out) true)
  | Merge_error => Some out
  | Merge_skip =>
      r <- parse_define_statement d q ;;
      match r with
      | Merge_ok (def, q) => merge_loop files dir fuel d already q (defs ++ [def]) out
      | Merge_error => Some out
      | Merge_skip => cur <- process_definitions (slice d (q - 1) q) defs ;; merge_loop files dir fuel d already q defs (set_data out (m_data out ++ cur))
      end
  end.
Lemma walk : forall n a, (length a <= n)%nat -> ordinary a -> absent merge_year a -> forall fuel p out c r, skipn p d = a ++ c :: r -> c = 35 \/ c = 0 /\ r = [] -> (length d - p < fuel)%nat ->
  if c =? 35 then exists fuel', (length d - p - length a <= fuel')%nat /\ merge_loop files dir fuel d already p defs out = at_hash fuel' (p + length a + 1) (set_data out (m_data out ++ a))
  else merge_loop files dir fuel d already p defs out = Some (Merged (m_data out ++ a) (m_files out ++ already) true (m_changed out)).
Proof using Len.
  induction n as [|n IH]; intros a L O Ab fuel p out c r E Ec Lf.
  all: assert (Ec' : c = 35 \/ c = 0) by (destruct Ec as [Y|[Y _]]; tauto).
  all: assert (Last : forall sp, next_token d p = (if c =? 35 then Some (Token tok_hash 1 (p + length a), (p + length a + 1)%nat) else Some (Token tok_eof (length d - sp) (length d), sp)) ->
    if c =? 35 then exists fuel', (length d - p - length a <= fuel')%nat /\ merge_loop files dir fuel d already p defs out = at_hash fuel' (p + length a + 1) (set_data out (m_data out ++ a))
    else merge_loop files dir fuel d already p defs out = Some (Merged (m_data out ++ a) (m_files out ++ already) true (m_changed out))).
  1, 3: intros sp Nx; destruct fuel as [|fuel]; [lia|]; destruct Ec as [->|[-> ->]];
    [change (35 =? 35) with true in *; cbv beta iota in *; exists fuel; split; [lia|]; cbn [merge_loop]; rewrite Nx; cbv beta iota; cbn [t_type t_str];
     assert (X : (if (p =? p + length a)%nat then Some (p, out) else cur <- process_definitions (slice d p (p + length a)) defs ;; Some ((p + length a)%nat, set_data out (m_data out ++ cur))) = Some ((p + length a)%nat, set_data out (m_data out ++ a))) by
      (rewrite (slice_from d p a (35 :: r) E), (process_year a Ab); destruct a as [|z a]; [cbn [length]; rewrite Nat.add_0_r, Nat.eqb_refl, app_nil_r; destruct out; reflexivity|destruct (Nat.eqb_spec p (p + length (z :: a))) as [Y|_]; [cbn in Y; lia|reflexivity]]);
     rewrite X; cbv beta iota; unfold at_hash; replace (p + length a + 1 - 1)%nat with (p + length a)%nat by lia; reflexivity
    |change (0 =? 35) with false in *; cbv beta iota in *; cbn [merge_loop]; rewrite Nx; cbv beta iota; cbn [t_type t_str];
     assert (Sl : slice d p (length d - 1) = a) by (pose proof (f_equal (@length N) E) as Le; rewrite skipn_length, app_length in Le; cbn [length] in Le; replace (length d - 1)%nat with (p + length a)%nat by lia; exact (slice_from d p a [0] E));
     rewrite Sl, (process_year a Ab); reflexivity].
  - destruct (next_ordinary a p c r O E Ec') as (sp & [(a1 & x & a2 & ty & ln & Ea & Nx & _)|[(a1 & a2 & Ea & _)|Nt]]); [destruct x; [congruence|]; rewrite Ea, !app_length in L; cbn in L; lia|rewrite Ea, app_length in L; cbn in L; lia|]. exact (Last sp Nt).
  - assert (Copy : forall a1 x a2, a = a1 ++ x ++ a2 -> x <> [] -> ordinary a2 -> forall fuel', fuel = S fuel' ->
      (merge_loop files dir fuel d already p defs out = (cur <- process_definitions (slice d (p + length a1) (p + length a1 + length x)) defs ;; merge_loop files dir fuel' d already (p + length a1 + length x) defs (set_data (set_data out (m_data out ++ a1)) ((m_data out ++ a1) ++ cur)))) ->
      if c =? 35 then exists fuel', (length d - p - length a <= fuel')%nat /\ merge_loop files dir fuel d already p defs out = at_hash fuel' (p + length a + 1) (set_data out (m_data out ++ a))
      else merge_loop files dir fuel d already p defs out = Some (Merged (m_data out ++ a) (m_files out ++ already) true (m_changed out))).
    { intros a1 x a2 Ea Nx O2 fuel' Ef ->. assert (E' := E). rewrite Ea, <- !app_assoc in E'. rewrite (slice_at d p a1 x _ E'). rewrite Ea in Ab. rewrite (process_year x (absent_part _ _ _ _ Ab)). cbv beta iota.
      assert (Px : (0 < length x)%nat) by (destruct x; [congruence|cbn; lia]). assert (La : (length a = length a1 + length x + length a2)%nat) by (rewrite Ea, !app_length; lia).
      assert (Ab2 : absent merge_year a2) by (apply (absent_part _ (a1 ++ x) a2 []); rewrite app_nil_r, <- app_assoc; exact Ab).
      assert (E2 : skipn (p + length a1 + length x) d = a2 ++ c :: r) by (rewrite app_assoc in E'; rewrite <- Nat.add_assoc, <- app_length; exact (skip_w _ _ _ E')). pose proof (len_w _ _ E) as Ll. rewrite app_length in Ll. cbn [length] in Ll.
      specialize (IH a2 ltac:(lia) O2 Ab2 fuel' (p + length a1 + length x)%nat (set_data (set_data out (m_data out ++ a1)) ((m_data out ++ a1) ++ x)) c r E2 Ec ltac:(lia)). cbn [m_data set_data m_files m_changed m_success] in IH.
      replace (m_data out ++ a) with (((m_data out ++ a1) ++ x) ++ a2) by (rewrite Ea, <- !app_assoc; reflexivity). destruct (c =? 35); [|exact IH]. destruct IH as (f2 & L2 & ->). exists f2. split; [lia|]. unfold set_data. cbn [m_files m_success m_changed]. f_equal. lia. }
    assert (First : forall a1 x a2, a = a1 ++ x ++ a2 -> (if (p =? p + length a1)%nat then Some (p, out) else cur <- process_definitions (slice d p (p + length a1)) defs ;; Some ((p + length a1)%nat, set_data out (m_data out ++ cur))) = Some ((p + length a1)%nat, set_data out (m_data out ++ a1))).
    { intros a1 x a2 Ea. assert (E' := E). rewrite Ea, <- !app_assoc in E'. rewrite (slice_from d p a1 _ E'). rewrite (process_year a1); [|apply (absent_part _ [] a1 (x ++ a2)); cbn [app]; rewrite <- Ea; exact Ab]. destruct a1 as [|z a1]; [cbn [length]; rewrite Nat.add_0_r, Nat.eqb_refl, app_nil_r; destruct out; reflexivity|]. destruct (Nat.eqb_spec p (p + length (z :: a1))) as [Y|_]; [cbn in Y; lia|reflexivity]. }
    destruct fuel as [|fuel]; [lia|].
    destruct (next_ordinary a p c r O E Ec') as (sp & [(a1 & x & a2 & ty & ln & Ea & Nx & O2 & Nt & Ty)|[(a1 & a2 & Ea & O2 & D & Nt)|Nt]]); [| |exact (Last sp Nt)].
    + apply (Copy a1 x a2 Ea Nx O2 fuel eq_refl). cbn [merge_loop]. rewrite Nt. cbv beta iota. cbn [t_type t_str]. pose proof (First a1 x a2 Ea) as Fi. destruct Ty as [->| ->]; rewrite Fi; cbv beta iota; reflexivity.
    + apply (Copy a1 [35] a2 Ea ltac:(discriminate) O2 fuel eq_refl). cbn [merge_loop]. rewrite Nt. cbv beta iota. cbn [t_type t_str]. rewrite (First a1 [35] a2 Ea). cbv beta iota. pose proof E as E'. rewrite Ea, <- app_assoc in E'. cbn [app] in E'. pose proof (skip_w _ _ _ E') as E2. pose proof (skip_w _ [35] _ E2) as E3. cbn [length] in E3.
      destruct (skip_statements _ a2 c r defs (set_data out (m_data out ++ a1)) D E3 Ec') as [-> ->]. cbv beta iota. cbn [length]. reflexivity.
Qed.
Lemma include_at : forall fuel q out b1 b2 name r data r3, skipn q d = b1 ++ the_include ++ b2 ++ 34 :: name ++ 34 :: r -> Forall blank b1 -> Forall blank b2 -> string_body name -> ~ In name already -> concat_paths dir name <> [] -> file_of files dir name = Some data -> absent merge_year data ->
  indent_range data (get_indent (m_data out)) = Some r3 ->
  at_hash fuel q out = merge_loop files dir fuel d already (q + length (b1 ++ the_include ++ b2 ++ 34 :: name ++ [34])) defs (Merged (m_data out ++ r3) (add_name name (m_files out)) (m_success out) true).
Proof using Len.
  intros fuel q out b1 b2 name r data r3 E F1 F2 Sb Na Nc Fd Ab Ir. unfold at_hash, merge_include_statement. change word_include with (the_include ++ [0]).
  destruct (uncons (b2 ++ 34 :: name ++ 34 :: r)) as (x & z & Ez & Wx); [destruct b2; discriminate|apply blanks_no_word; [exact F2|reflexivity]|]. pose proof E as E0. rewrite Ez in E0. rewrite (next_word _ _ _ _ _ E0 F1 include_ident Wx). cbv beta iota. cbn [is_identifier t_type t_len t_str]. pose proof (skip_w _ _ _ E0) as E1.
  assert (Ct : strncmp_eq (length the_include) (skipn (q + length b1) d) (the_include ++ [0]) = Some true) by (rewrite E1; apply compare_self; repeat constructor; discriminate). rewrite Ct. cbv beta iota. cbn [negb].
  pose proof (skip_w _ _ _ E1) as E2. rewrite <- Ez in E2. rewrite (next_string _ _ _ _ E2 F2 Sb). cbv beta iota. cbn [is_string t_type t_len t_str negb].
  assert (E3 : skipn (q + length b1 + length the_include + length b2 + 1) d = name ++ 34 :: r) by (pose proof (skip_w _ _ _ E2) as Y; exact (skip_w _ [34] _ Y)). rewrite (slice_from _ _ _ _ E3).
  destruct (is_in name already) eqn:Ii; [apply is_in_spec in Ii; contradiction|]. unfold file_of in Fd. destruct (concat_paths dir name) as [|y ys]; [congruence|]. rewrite Fd. cbv beta iota. rewrite (erase_year _ Ab). cbv beta iota. rewrite (process_year _ Ab). cbv beta iota. rewrite Ir. cbv beta iota. cbn [m_data m_files m_success]. unfold add_name, defs. cbn [firstn].
  f_equal. rewrite !app_length. cbn [length]. rewrite app_length. cbn [length]. lia.
Qed.
End Skip.
End Walk.
