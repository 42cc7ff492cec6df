(** tm_print.h: the format string is walked piece by piece, whatever the printer does with the parts; proofs *)
From Coq Require Import Arith NArith ZArith Bool Lia Ascii String List.
From Verif Require Import Base DigitsSpec PrModel PrSpec PrParse.
Import ListNotations.
Local Open Scope nat_scope.

Lemma find_none c s : ~ In c s -> find c s = None.
Proof.
  induction s as [|x s IH]; intros H; [reflexivity|]. cbn [find]. destruct (N.eqb_spec x c) as [E|E]; [exfalso; apply H; left; exact E|].
  rewrite IH; [reflexivity|]. intros C. apply H. right. exact C.
Qed.
Lemma find_some c a s : ~ In c a -> find c (a ++ c :: s) = Some (List.length a).
Proof.
  induction a as [|x a IH]; intros H.
  - cbn [app find]. rewrite N.eqb_refl. reflexivity.
  - cbn [app find]. destruct (N.eqb_spec x c) as [E|E]; [exfalso; apply H; left; exact E|]. rewrite IH; [reflexivity|]. intros C. apply H. right. exact C.
Qed.
Lemma firstn_app_exact (a b : list N) n : List.length a = n -> firstn n (a ++ b) = a.
Proof. intros <-. rewrite firstn_app, firstn_all, Nat.sub_diag. cbn [firstn]. apply app_nil_r. Qed.

Definition text_piece (p : piece) : Prop := match p with Lit s => ~ In 123%N s /\ ~ In 125%N s | RBrace => True | _ => False end.
Definition is_rbrace (p : piece) : bool := match p with RBrace => true | _ => false end.
Definition piece_out (p : piece) : list N := match p with Lit s => s | RBrace => [125%N] | _ => [] end.
Definition out_of (sg : list piece) : list N := concat (map piece_out sg).
Lemma unparse_app a b : unparse (a ++ b) = unparse a ++ unparse b.
Proof. unfold unparse. rewrite map_app, concat_app. reflexivity. Qed.
Lemma out_of_app a b : out_of (a ++ b) = out_of a ++ out_of b.
Proof. unfold out_of. rewrite map_app, concat_app. reflexivity. Qed.
Lemma text_no_open sg : Forall text_piece sg -> ~ In 123%N (unparse sg).
Proof.
  induction 1 as [|p sg H F IH]; [intros []|]. cbn [unparse map concat]. fold (unparse sg). rewrite in_app_iff. intros [C|C]; [|exact (IH C)].
  destruct p; cbn [piece_text text_piece] in *; try contradiction; [exact (proj1 H C)|]. destruct C as [C|[C|[]]]; discriminate.
Qed.
Lemma text_no_close sg : Forall text_piece sg -> existsb is_rbrace sg = false -> ~ In 125%N (unparse sg).
Proof.
  induction 1 as [|p sg H F IH]; intros E; [intros []|]. cbn [existsb] in E. apply orb_false_iff in E. destruct E as [E1 E2].
  cbn [unparse map concat]. fold (unparse sg). rewrite in_app_iff. intros [C|C]; [|exact (IH E2 C)].
  destruct p; cbn [piece_text text_piece is_rbrace] in *; try contradiction; [exact (proj2 H C)|discriminate].
Qed.
Fixpoint pend (pending : bool) (ps : list piece) : bool :=
  match ps with
  | [] => pending
  | Lit _ :: ps => pend pending ps
  | RBrace :: ps => pend true ps
  | LBrace :: ps | Hole _ _ :: ps => pend false ps
  end.
(** the argument that the next placeholder without an index gets *)
Fixpoint next_index (index : nat) (ps : list piece) : nat :=
  match ps with
  | [] => index
  | Hole None _ :: ps => next_index (S index) ps
  | _ :: ps => next_index index ps
  end.

Section Walk.
Variable alloc : option (nat -> option nat).
Variable rounds : nat.
Variable Inv Fail : printer -> list N -> Prop.
Variable ok : value -> format -> Prop.
Variable limit : list N -> Prop.
Hypothesis limit_app : forall a b, limit (a ++ b) -> limit a.
Hypothesis Fail_app : forall t a b, Fail t a -> Fail t (a ++ b).
Definition step (o : option (bool * printer)) (text : list N) : Prop :=
  exists go t', o = Some (go, t') /\ if go then Inv t' text else Fail t' text.
Hypothesis lit : forall t out s, Inv t out -> limit (out ++ s) -> step (print_literal alloc s t) (out ++ s).
Hypothesis arg : forall t out v f text, Inv t out -> ok v f -> shows f v text -> limit (out ++ text) -> step (print_arg alloc rounds v f t) (out ++ text).

Lemma escaped_run sg : Forall text_piece sg -> forall a t out fuel, ~ In 125%N a -> Inv t out -> limit (out ++ a ++ out_of sg) ->
  List.length (a ++ unparse sg) < fuel -> step (print_escaped alloc fuel (a ++ unparse sg) t) (out ++ a ++ out_of sg).
Proof.
  induction 1 as [|p sg H F IH]; intros a t out fuel Ha I Lm Hf.
  - unfold unparse, out_of in *. cbn [map concat] in *. rewrite app_nil_r in *. destruct fuel as [|fuel]; [lia|]. cbn [print_escaped].
    rewrite find_none by exact Ha. destruct a as [|c a]; [|apply lit; assumption].
    rewrite app_nil_r. exists true, t. split; [reflexivity|exact I].
  - destruct p; try contradiction; cbn [text_piece] in H.
    + change (unparse (Lit s :: sg)) with (s ++ unparse sg) in *. change (out_of (Lit s :: sg)) with (s ++ out_of sg) in *.
      replace (a ++ s ++ unparse sg) with ((a ++ s) ++ unparse sg) in * by (rewrite <- app_assoc; reflexivity).
      replace (out ++ a ++ s ++ out_of sg) with (out ++ (a ++ s) ++ out_of sg) in * by (rewrite <- app_assoc; reflexivity).
      apply IH; try assumption. rewrite in_app_iff. intros [C|C]; [exact (Ha C)|exact (proj2 H C)].
    + change (unparse (RBrace :: sg)) with (125%N :: 125%N :: unparse sg) in *. change (out_of (RBrace :: sg)) with (125%N :: out_of sg) in *.
      destruct fuel as [|fuel]; [lia|]. cbn [print_escaped]. rewrite find_some by exact Ha.
      change (125%N :: 125%N :: unparse sg) with ([125%N] ++ 125%N :: unparse sg). rewrite (app_assoc a).
      rewrite firstn_app_exact by (rewrite app_length; cbn [List.length]; lia). rewrite skipn_app_exact by (rewrite app_length; cbn [List.length]; lia).
      change (125%N :: out_of sg) with ([125%N] ++ out_of sg) in *. rewrite (app_assoc a) in *. rewrite app_assoc in Lm |- *.
      destruct (lit t out (a ++ [125%N]) I (limit_app _ _ Lm)) as [go [t1 [E1 R1]]]. rewrite E1. cbv beta iota.
      destruct go; cbn [negb].
      * specialize (IH [] t1 (out ++ a ++ [125%N]) fuel (fun C => C) R1). cbn [app] in IH. apply IH; [exact Lm|].
        rewrite app_length in Hf. cbn [List.length] in Hf. lia.
      * exists false, t1. split; [reflexivity|]. apply Fail_app. exact R1.
Qed.

Variable initial : format.
Variable args : list value.
Hypothesis few : List.length args <= 16.
Notation impl fuel s index t := (print_impl alloc rounds fuel initial args s (N.of_nat index) (N.shiftr (type_flags args) (N.of_nat index * 4)) t).

(** At a placeholder *)
Lemma walk_hole sg index x tail fuel i t out v text : Forall text_piece sg -> existsb is_rbrace sg = false -> piece_ok (Hole index x) ->
  nth_error args (match index with Some ds => N.to_nat (number 10 ds) | None => i end) = Some v ->
  ok v (match x with Some x => format_of x | None => initial end) -> shows (match x with Some x => format_of x | None => initial end) v text ->
  Inv t out -> limit (out ++ out_of sg ++ text) ->
  (exists t', impl (S fuel) (unparse sg ++ piece_text (Hole index x) ++ tail) i t = Some t' /\ Fail t' (out ++ out_of sg ++ text))
  \/ exists t', impl (S fuel) (unparse sg ++ piece_text (Hole index x) ++ tail) i t = impl fuel tail (match index with Some _ => i | None => S i end) t'
     /\ Inv t' (out ++ out_of sg ++ text).
Proof.
  intros F NR PO NA OK SH I Lm. cbn [piece_text]. cbn [app]. cbn [print_impl].
  rewrite find_some by (apply text_no_open; exact F).
  rewrite firstn_app_exact by reflexivity.
  destruct (escaped_run sg F [] t out (S (List.length (unparse sg))) (fun C => C) I) as [go [t1 [E1 R1]]].
  { cbn [app]. rewrite app_assoc in Lm. apply limit_app in Lm. exact Lm. }
  { cbn [app]. lia. }
  cbn [app] in E1, R1. rewrite E1. cbv beta iota. destruct go; cbn [negb].
  2:{ left. exists t1. split; [reflexivity|]. rewrite app_assoc. apply Fail_app. exact R1. }
  change (unparse sg ++ 123%N :: (hole_text index x ++ [125%N]) ++ tail) with (unparse sg ++ [123%N] ++ ((hole_text index x ++ [125%N]) ++ tail)).
  rewrite <- (app_assoc (hole_text index x)). cbn [app].
  assert (SK : skipn (List.length (unparse sg) + 1) (unparse sg ++ 123%N :: hole_text index x ++ 125%N :: tail) = hole_text index x ++ 125%N :: tail).
  { change (unparse sg ++ 123%N :: hole_text index x ++ 125%N :: tail) with (unparse sg ++ [123%N] ++ (hole_text index x ++ 125%N :: tail)).
    rewrite app_assoc. apply skipn_app_exact. rewrite app_length. reflexivity. }
  rewrite SK.
  assert (FC : find 125 (unparse sg ++ 123%N :: hole_text index x ++ 125%N :: tail) = Some (List.length (unparse sg) + 1 + List.length (hole_text index x))).
  { change (unparse sg ++ 123%N :: hole_text index x ++ 125%N :: tail) with (unparse sg ++ [123%N] ++ hole_text index x ++ 125%N :: tail).
    rewrite !app_assoc. rewrite find_some.
    - rewrite !app_length. reflexivity.
    - rewrite !in_app_iff. intros [[C|C]|C]; [exact (text_no_close sg F NR C)|destruct C as [C|[]]; discriminate|]. apply (hole_no_brace index x _ PO) in C. destruct C as [_ C]. congruence. }
  rewrite FC.
  assert (HD : forall {A} (a : list N -> A) (b : A), (match hole_text index x ++ 125%N :: tail with 123%N :: rest => a rest | _ => b end) = b).
  { intros A a b0. destruct (hole_text index x ++ 125%N :: tail) as [|c r] eqn:E; [reflexivity|].
    assert (c <> 123%N).
    { destruct (hole_text index x) as [|c' r'] eqn:E2; [cbn [app] in E; congruence|]. cbn [app] in E. assert (c = c') by congruence. subst c'.
      apply (hole_no_brace index x c PO). rewrite E2. left. reflexivity. }
    destruct c as [|c]; [reflexivity|]. do 7 (try destruct c as [c|c|]; try reflexivity); congruence. }
  rewrite HD. unfold assert_.
  destruct (Nat.ltb_spec (List.length (unparse sg)) (List.length (unparse sg) + 1 + List.length (hole_text index x))) as [_|C]; [|lia].
  replace (List.length (unparse sg) + 1 + List.length (hole_text index x) - (List.length (unparse sg) + 1)) with (List.length (hole_text index x)) by lia.
  rewrite parse_specifiers_spec by exact PO.
  assert (CI : N.to_nat (match index with Some ds => number 10 ds | None => N.of_nat i end) = match index with Some ds => N.to_nat (number 10 ds) | None => i end) by (destruct index; lia).
  rewrite CI, NA.
  assert (TY : N.land (if (match index with Some _ => true | None => false end) then N.shiftr (type_flags args) (match index with Some ds => number 10 ds | None => N.of_nat i end * 4) else N.shiftr (type_flags args) (N.of_nat i * 4)) 15 = type_code v).
  { destruct index as [ds|].
    - rewrite <- (N2Nat.id (number 10 ds)). rewrite type_lookup by exact few. rewrite NA. reflexivity.
    - rewrite type_lookup by exact few. rewrite NA. reflexivity. }
  rewrite TY. pose proof (type_code_small v) as TS.
  rewrite (proj2 (N.eqb_neq (type_code v) 0)) by lia. rewrite (proj2 (N.leb_gt 12 (type_code v))) by lia. cbn [orb]. rewrite N.eqb_refl. cbn [negb].
  rewrite app_assoc in Lm.
  destruct (arg t1 (out ++ out_of sg) v _ text R1 OK SH Lm) as [go [t2 [E2 R2]]].
  rewrite E2. cbv beta iota. rewrite <- app_assoc in R2. destruct go; cbn [negb].
  2:{ left. exists t2. split; [reflexivity|exact R2]. }
  right. exists t2. split; [|exact R2].
  assert (SK2 : skipn (List.length (unparse sg) + 1 + List.length (hole_text index x) + 1) (unparse sg ++ 123%N :: hole_text index x ++ 125%N :: tail) = tail).
  { change (unparse sg ++ 123%N :: hole_text index x ++ 125%N :: tail) with (unparse sg ++ [123%N] ++ hole_text index x ++ [125%N] ++ tail).
    rewrite !app_assoc. apply skipn_app_exact. rewrite !app_length. reflexivity. }
  rewrite SK2. destruct index as [ds|]; [reflexivity|].
  f_equal; [lia|]. rewrite N.shiftr_shiftr. f_equal. lia.
Qed.

Lemma walk_lbrace sg tail fuel i t out : Forall text_piece sg -> Inv t out -> limit (out ++ out_of sg ++ [123%N]) ->
  (exists t', impl (S fuel) (unparse sg ++ [123; 123]%N ++ tail) i t = Some t' /\ Fail t' (out ++ out_of sg ++ [123%N]))
  \/ exists t', impl (S fuel) (unparse sg ++ [123; 123]%N ++ tail) i t = impl fuel tail i t' /\ Inv t' (out ++ out_of sg ++ [123%N]).
Proof.
  intros F I Lm. cbn [app]. cbn [print_impl].
  rewrite find_some by (apply text_no_open; exact F). rewrite firstn_app_exact by reflexivity.
  destruct (escaped_run sg F [] t out (S (List.length (unparse sg))) (fun C => C) I) as [go [t1 [E1 R1]]].
  { cbn [app]. rewrite app_assoc in Lm. apply limit_app in Lm. exact Lm. }
  { cbn [app]. lia. }
  cbn [app] in E1, R1. rewrite E1. cbv beta iota. destruct go; cbn [negb].
  2:{ left. exists t1. split; [reflexivity|]. rewrite app_assoc. apply Fail_app. exact R1. }
  assert (SK : skipn (List.length (unparse sg) + 1) (unparse sg ++ 123%N :: 123%N :: tail) = 123%N :: tail).
  { change (unparse sg ++ 123%N :: 123%N :: tail) with (unparse sg ++ [123%N] ++ 123%N :: tail). rewrite app_assoc. apply skipn_app_exact. rewrite app_length. reflexivity. }
  rewrite SK. rewrite app_assoc in Lm.
  destruct (lit t1 (out ++ out_of sg) [123%N] R1 Lm) as [go [t2 [E2 R2]]]. rewrite E2. cbv beta iota. rewrite <- app_assoc in R2. destruct go; cbn [negb].
  - right. exists t2. split; [reflexivity|exact R2].
  - left. exists t2. split; [reflexivity|exact R2].
Qed.

(** All pieces, up to the text after the last placeholder *)
Lemma walk tail : forall rest sg fuel i t out text, Forall text_piece sg -> Forall piece_ok rest -> order_ok (existsb is_rbrace sg) rest = true ->
  renders initial args i rest text -> uses initial args ok i rest -> Inv t out -> limit (out ++ out_of sg ++ text) ->
  List.length (unparse sg ++ unparse rest ++ tail) < fuel ->
  (exists t', impl fuel (unparse sg ++ unparse rest ++ tail) i t = Some t' /\ Fail t' (out ++ out_of sg ++ text))
  \/ exists sg' fuel' t' out', impl fuel (unparse sg ++ unparse rest ++ tail) i t = impl fuel' (unparse sg' ++ tail) (next_index i rest) t'
     /\ Forall text_piece sg' /\ existsb is_rbrace sg' = pend (existsb is_rbrace sg) rest /\ Inv t' out' /\ out' ++ out_of sg' = out ++ out_of sg ++ text
     /\ List.length (unparse sg' ++ tail) < fuel'.
Proof.
  induction rest as [|p rest IH]; intros sg fuel i t out text F PO O R U I Lm Hf.
  - inversion R; subst. right. exists sg, fuel, t, out. cbn [unparse map concat app] in *. rewrite app_nil_r in *.
    split; [reflexivity|]. split; [exact F|]. split; [reflexivity|]. split; [exact I|]. split; [reflexivity|exact Hf].
  - inversion PO as [|? ? P1 P2]; subst. change (unparse (p :: rest)) with (piece_text p ++ unparse rest) in *.
    assert (TP : text_piece p -> renders initial args i rest (skipn (List.length (piece_out p)) text) -> uses initial args ok i rest ->
      text = piece_out p ++ skipn (List.length (piece_out p)) text -> order_ok (existsb is_rbrace (sg ++ [p])) rest = true ->
      (exists t', impl fuel (unparse sg ++ (piece_text p ++ unparse rest) ++ tail) i t = Some t' /\ Fail t' (out ++ out_of sg ++ text))
      \/ exists sg' fuel' t' out', impl fuel (unparse sg ++ (piece_text p ++ unparse rest) ++ tail) i t = impl fuel' (unparse sg' ++ tail) (next_index i rest) t'
         /\ Forall text_piece sg' /\ existsb is_rbrace sg' = pend (existsb is_rbrace (sg ++ [p])) rest /\ Inv t' out' /\ out' ++ out_of sg' = out ++ out_of sg ++ text
         /\ List.length (unparse sg' ++ tail) < fuel').
    { intros T R' U' E O'.
      assert (E1 : unparse sg ++ (piece_text p ++ unparse rest) ++ tail = unparse (sg ++ [p]) ++ unparse rest ++ tail).
      { rewrite unparse_app. unfold unparse at 4. cbn [map concat]. rewrite app_nil_r, <- !app_assoc. reflexivity. }
      assert (E2 : out ++ out_of sg ++ text = out ++ out_of (sg ++ [p]) ++ skipn (List.length (piece_out p)) text).
      { rewrite out_of_app. unfold out_of at 3. cbn [map concat]. rewrite app_nil_r, <- !app_assoc. rewrite E at 1. reflexivity. }
      rewrite E1, E2 in *. apply IH; try assumption. apply Forall_app. split; [exact F|]. constructor; [exact T|constructor]. }
    destruct p; cbn [piece_ok] in P1.
    + inversion R; subst. inversion U; subst. cbn [order_ok] in O.
      cbn [next_index pend]. rewrite existsb_app in TP. cbn [existsb is_rbrace] in TP. rewrite !orb_false_r in TP. cbn [piece_out] in TP.
      rewrite skipn_app_exact in TP by reflexivity. apply TP; [exact P1|assumption|assumption|reflexivity|exact O].
    + inversion R; subst. inversion U; subst. cbn [order_ok] in O. cbn [piece_text] in *. rewrite <- app_assoc in *.
      destruct fuel as [|fuel]; [lia|].
      change (out ++ out_of sg ++ bytes_of "{" ++ text0) with (out ++ out_of sg ++ [123%N] ++ text0) in *.
      replace (out ++ out_of sg ++ [123%N] ++ text0) with ((out ++ out_of sg ++ [123%N]) ++ text0) in * by (rewrite <- !app_assoc; reflexivity).
      destruct (walk_lbrace sg (unparse rest ++ tail) fuel i t out F I (limit_app _ _ Lm)) as [[t1 [E1 F1]]|[t1 [E1 I1]]].
      * left. exists t1. split; [exact E1|]. apply Fail_app. exact F1.
      * rewrite E1. cbn [next_index pend].
        assert (IH' := IH [] fuel i t1 (out ++ out_of sg ++ [123%N]) text0). cbn [existsb] in IH'. apply IH'; try assumption; [constructor|].
        rewrite !app_length in Hf |- *. cbn [List.length unparse map concat] in *. rewrite ?app_length in Hf. lia.
    + inversion R; subst. inversion U; subst. cbn [order_ok] in O.
      cbn [next_index pend]. rewrite existsb_app in TP. cbn [existsb is_rbrace] in TP. rewrite !orb_true_r in TP. apply TP; try assumption; reflexivity.
    + cbn [order_ok] in O. apply andb_true_iff in O. destruct O as [O1 O2]. apply negb_true_iff in O1. destruct fuel as [|fuel]; [lia|].
      assert (Q : exists v text1 text2, nth_error args (match index with Some ds => N.to_nat (number 10 ds) | None => i end) = Some v
        /\ ok v (match x with Some x => format_of x | None => initial end) /\ shows (match x with Some x => format_of x | None => initial end) v text1
        /\ text = text1 ++ text2 /\ renders initial args (match index with Some _ => i | None => S i end) rest text2
        /\ uses initial args ok (match index with Some _ => i | None => S i end) rest).
      { inversion U; subst; [contradiction| |].
        - inversion R; subst. assert (v0 = v) by congruence. subst v0. exists v, text1, text0. repeat split; assumption.
        - inversion R; subst. assert (v0 = v) by congruence. subst v0. exists v, text1, text0. repeat split; assumption. }
      destruct Q as [v [text1 [text2 [NA [OK [SH [-> [R2 U2]]]]]]]].
      replace (out ++ out_of sg ++ text1 ++ text2) with ((out ++ out_of sg ++ text1) ++ text2) in * by (rewrite <- !app_assoc; reflexivity).
      rewrite <- (app_assoc (piece_text (Hole index x))) in *.
      destruct (walk_hole sg index x (unparse rest ++ tail) fuel i t out v text1 F O1 P1 NA OK SH I (limit_app _ _ Lm)) as [[t1 [E1 F1]]|[t1 [E1 I1]]].
      * left. exists t1. split; [exact E1|]. apply Fail_app. exact F1.
      * rewrite E1. cbn [next_index pend].
        assert (IH' := IH [] fuel (match index with Some _ => i | None => S i end) t1 (out ++ out_of sg ++ text1) text2). cbn [existsb] in IH'.
        replace (next_index i (Hole index x :: rest)) with (next_index (match index with Some _ => i | None => S i end) rest) by (destruct index; reflexivity).
        destruct index as [ds|]; apply IH'; try assumption; try constructor;
        rewrite !app_length in Hf |- *; cbn [piece_text unparse map concat] in *; cbn [List.length] in *; rewrite ?app_length in Hf; lia.
Qed.

(** The whole format string *)
Lemma walk_all ps fuel t text : Forall piece_ok ps -> order_ok false ps = true -> renders initial args 0 ps text -> uses initial args ok 0 ps ->
  Inv t [] -> limit text -> List.length (unparse ps) < fuel ->
  exists t', print_impl alloc rounds fuel initial args (unparse ps) 0 (type_flags args) t = Some t' /\ (Inv t' text \/ Fail t' text).
Proof.
  intros PO O R U I Lm Hf.
  assert (W := walk [] ps [] fuel 0 t [] text). cbn [app unparse map concat out_of existsb N.of_nat N.mul] in W. fold (unparse ps) in W. rewrite app_nil_r in W.
  rewrite N.shiftr_0_r in W.
  destruct W as [[t1 [E1 F1]]|[sg [fuel' [t1 [out [E1 [F1 [_ [I1 [Eo Hf']]]]]]]]]]; try assumption; [constructor| |].
  - exists t1. split; [exact E1|right; exact F1].
  - rewrite E1. rewrite app_nil_r in *. destruct fuel' as [|fuel']; [lia|]. cbn [print_impl]. rewrite find_none by (apply text_no_open; exact F1).
    rewrite <- Eo in *.
    destruct (escaped_run sg F1 [] t1 out (S (List.length (unparse sg))) (fun C => C) I1) as [go [t2 [E2 R2]]]; [exact Lm|cbn [app]; lia|].
    cbn [app] in E2, R2. destruct (unparse sg) as [|c r] eqn:EU.
    + cbn [List.length print_escaped find] in E2. assert (go = true /\ t2 = t1) by (split; congruence). destruct H as [-> ->].
      exists t1. split; [reflexivity|left; exact R2].
    + rewrite E2. cbv beta iota. exists t2. split; [reflexivity|]. destruct go; [left|right]; exact R2.
Qed.

(** Malformed rests *)
Definition refused (o : option printer) (text : list N) : Prop := exists t', o = Some t' /\ (ec t' = EINVAL \/ Fail t' text).
Lemma escaped_bad sg tail : Forall text_piece sg -> hd 0%N tail <> 125%N -> forall a t out fuel, ~ In 125%N a -> Inv t out -> limit (out ++ a ++ out_of sg ++ [125%N]) ->
  List.length (a ++ unparse sg) < fuel ->
  exists t', print_escaped alloc fuel (a ++ unparse sg ++ 125%N :: tail) t = Some (false, t') /\ (ec t' = EINVAL \/ Fail t' (out ++ a ++ out_of sg ++ [125%N])).
Proof.
  intros F HT. induction F as [|p sg H F IH]; intros a t out fuel Ha I Lm Hf.
  - unfold unparse, out_of in *. cbn [map concat app] in *. destruct fuel as [|fuel]; [lia|]. cbn [print_escaped].
    rewrite find_some by exact Ha. change (125%N :: tail) with ([125%N] ++ tail). rewrite app_assoc.
    rewrite firstn_app_exact by (rewrite app_length; reflexivity). rewrite skipn_app_exact by (rewrite app_length; reflexivity).
    destruct (lit t out (a ++ [125%N]) I Lm) as [go [t1 [E1 R1]]]. rewrite E1. cbv beta iota. destruct go; cbn [negb].
    + exists (with_ec EINVAL t1). split; [|left; reflexivity].
      destruct tail as [|c tail]; [reflexivity|]. cbn [hd] in HT. destruct c as [|c]; [reflexivity|]. do 7 (try destruct c as [c|c|]; try reflexivity); congruence.
    + exists t1. split; [reflexivity|right; exact R1].
  - destruct p; try contradiction; cbn [text_piece] in H.
    + change (unparse (Lit s :: sg)) with (s ++ unparse sg) in *. change (out_of (Lit s :: sg)) with (s ++ out_of sg) in *.
      replace (a ++ (s ++ unparse sg) ++ 125%N :: tail) with ((a ++ s) ++ unparse sg ++ 125%N :: tail) by (rewrite <- !app_assoc; reflexivity).
      replace (out ++ a ++ (s ++ out_of sg) ++ [125%N]) with (out ++ (a ++ s) ++ out_of sg ++ [125%N]) in * by (rewrite <- !app_assoc; reflexivity).
      apply IH; try assumption; [|rewrite <- app_assoc; exact Hf]. rewrite in_app_iff. intros [C|C]; [exact (Ha C)|exact (proj2 H C)].
    + change (unparse (RBrace :: sg)) with (125%N :: 125%N :: unparse sg) in *. change (out_of (RBrace :: sg)) with ([125%N] ++ out_of sg) in *.
      destruct fuel as [|fuel]; [lia|]. cbn [app] in Lm. cbn [print_escaped app]. rewrite find_some by exact Ha.
      change (125%N :: 125%N :: unparse sg ++ 125%N :: tail) with ([125%N] ++ 125%N :: unparse sg ++ 125%N :: tail). rewrite (app_assoc a).
      rewrite firstn_app_exact by (rewrite app_length; cbn [List.length]; lia). rewrite skipn_app_exact by (rewrite app_length; cbn [List.length]; lia).
      replace (out ++ a ++ 125%N :: out_of sg ++ [125%N]) with ((out ++ a ++ [125%N]) ++ out_of sg ++ [125%N]) in * by (rewrite <- !app_assoc; reflexivity).
      destruct (lit t out (a ++ [125%N]) I (limit_app _ _ Lm)) as [go [t1 [E1 R1]]]. rewrite E1. cbv beta iota.
      destruct go; cbn [negb].
      * specialize (IH [] t1 (out ++ a ++ [125%N]) fuel (fun C => C) R1). cbn [app] in IH. apply IH; [exact Lm|].
        rewrite app_length in Hf. cbn [List.length] in Hf. lia.
      * exists t1. split; [reflexivity|]. right. apply Fail_app. exact R1.
Qed.
(** where the literal text of a string ends *)
Lemma split_open s : {i | find 123 s = Some i} + {find 123 s = None}.
Proof. destruct (find 123 s) as [i|]; [left; exists i; reflexivity|right; reflexivity]. Qed.
Lemma find_app_none c a s : ~ In c a -> find c (a ++ s) = option_map (fun i => List.length a + i) (find c s).
Proof.
  induction a as [|x a IH]; intros H; [cbn [app List.length Nat.add]; destruct (find c s); reflexivity|].
  cbn [app find]. destruct (N.eqb_spec x c) as [E|E]; [exfalso; apply H; left; exact E|]. rewrite IH by (intros C; apply H; right; exact C).
  destruct (find c s); reflexivity.
Qed.
Lemma bad_close sg tail fuel i t out : Forall text_piece sg -> hd 0%N tail <> 125%N -> Inv t out -> limit (out ++ out_of sg ++ [125%N]) ->
  refused (impl (S fuel) (unparse sg ++ 125%N :: tail) i t) (out ++ out_of sg ++ [125%N]).
Proof.
  intros F HT I Lm. cbn [print_impl].
  assert (FO : find 123 (unparse sg ++ 125%N :: tail) = option_map (fun i => List.length (unparse sg) + S i) (find 123 tail)).
  { rewrite find_app_none by (apply text_no_open; exact F). cbn [find N.eqb Pos.eqb]. destruct (find 123 tail); reflexivity. }
  rewrite FO. destruct (find 123 tail) as [p|]; cbn [option_map].
  - assert (EF : firstn (List.length (unparse sg) + S p) (unparse sg ++ 125%N :: tail) = unparse sg ++ 125%N :: firstn p tail).
    { rewrite firstn_app. rewrite firstn_all2 by lia. f_equal. replace (List.length (unparse sg) + S p - List.length (unparse sg)) with (S p) by lia. reflexivity. }
    rewrite EF.
    destruct (escaped_bad sg (firstn p tail) F) with (a := @nil N) (t := t) (out := out) (fuel := S (List.length (unparse sg) + S p)) as [t1 [E1 R1]]; try assumption.
    + destruct p as [|p]; [cbn; lia|]. destruct tail as [|c tail]; [cbn; lia|]. exact HT.
    + intros [].
    + cbn [app]. lia.
    + cbn [app] in E1, R1. rewrite E1. cbv beta iota. cbn [negb]. exists t1. split; [reflexivity|exact R1].
  - destruct (escaped_bad sg tail F HT) with (a := @nil N) (t := t) (out := out) (fuel := S (List.length (unparse sg ++ 125%N :: tail))) as [t1 [E1 R1]]; try assumption.
    + intros [].
    + cbn [app]. rewrite app_length. cbn [List.length]. lia.
    + cbn [app] in E1, R1. destruct (unparse sg ++ 125%N :: tail) as [|c r] eqn:EU; [destruct (unparse sg); discriminate|]. rewrite E1. cbv beta iota.
      exists t1. split; [reflexivity|exact R1].
Qed.
Lemma bad_open sg tail fuel i t out : Forall text_piece sg -> existsb is_rbrace sg = false -> hd 0%N tail <> 123%N -> ~ In 125%N tail -> Inv t out -> limit (out ++ out_of sg) ->
  refused (impl (S fuel) (unparse sg ++ 123%N :: tail) i t) (out ++ out_of sg).
Proof.
  intros F NR HT NC I Lm. cbn [print_impl]. rewrite find_some by (apply text_no_open; exact F). rewrite firstn_app_exact by reflexivity.
  destruct (escaped_run sg F [] t out (S (List.length (unparse sg))) (fun C => C) I) as [go [t1 [E1 R1]]]; [exact Lm|cbn [app]; lia|].
  cbn [app] in E1, R1. rewrite E1. cbv beta iota. destruct go; cbn [negb]; [|exists t1; split; [reflexivity|right; exact R1]].
  assert (SK : skipn (List.length (unparse sg) + 1) (unparse sg ++ 123%N :: tail) = tail).
  { change (unparse sg ++ 123%N :: tail) with (unparse sg ++ [123%N] ++ tail). rewrite app_assoc. apply skipn_app_exact. rewrite app_length. reflexivity. }
  rewrite SK. rewrite (find_none 125).
  2:{ rewrite in_app_iff. intros [C|[C|C]]; [exact (text_no_close sg F NR C)|discriminate|exact (NC C)]. }
  exists (with_ec EINVAL t1). split; [|left; reflexivity].
  destruct tail as [|c tail]; [reflexivity|]. cbn [hd] in HT. destruct c as [|c]; [reflexivity|]. do 7 (try destruct c as [c|c|]; try reflexivity); congruence.
Qed.
Lemma bad_index sg index x tail fuel i t out : Forall text_piece sg -> existsb is_rbrace sg = false -> piece_ok (Hole index x) ->
  nth_error args (match index with Some ds => N.to_nat (number 10 ds) | None => i end) = None ->
  Inv t out -> limit (out ++ out_of sg) ->
  refused (impl (S fuel) (unparse sg ++ piece_text (Hole index x) ++ tail) i t) (out ++ out_of sg).
Proof.
  intros F NR PO NA I Lm. cbn [piece_text app print_impl].
  rewrite find_some by (apply text_no_open; exact F). rewrite firstn_app_exact by reflexivity.
  destruct (escaped_run sg F [] t out (S (List.length (unparse sg))) (fun C => C) I) as [go [t1 [E1 R1]]]; [exact Lm|cbn [app]; lia|].
  cbn [app] in E1, R1. rewrite E1. cbv beta iota. destruct go; cbn [negb]; [|exists t1; split; [reflexivity|right; exact R1]].
  rewrite <- (app_assoc (hole_text index x)). cbn [app].
  assert (SK : skipn (List.length (unparse sg) + 1) (unparse sg ++ 123%N :: hole_text index x ++ 125%N :: tail) = hole_text index x ++ 125%N :: tail).
  { change (unparse sg ++ 123%N :: hole_text index x ++ 125%N :: tail) with (unparse sg ++ [123%N] ++ (hole_text index x ++ 125%N :: tail)).
    rewrite app_assoc. apply skipn_app_exact. rewrite app_length. reflexivity. }
  rewrite SK.
  assert (FC : find 125 (unparse sg ++ 123%N :: hole_text index x ++ 125%N :: tail) = Some (List.length (unparse sg) + 1 + List.length (hole_text index x))).
  { change (unparse sg ++ 123%N :: hole_text index x ++ 125%N :: tail) with (unparse sg ++ [123%N] ++ hole_text index x ++ 125%N :: tail).
    rewrite !app_assoc. rewrite find_some.
    - rewrite !app_length. reflexivity.
    - rewrite !in_app_iff. intros [[C|C]|C]; [exact (text_no_close sg F NR C)|destruct C as [C|[]]; discriminate|]. apply (hole_no_brace index x _ PO) in C. destruct C as [_ C]. congruence. }
  rewrite FC.
  assert (HD : forall {A} (a : list N -> A) (b : A), (match hole_text index x ++ 125%N :: tail with 123%N :: rest => a rest | _ => b end) = b).
  { intros A a b0. destruct (hole_text index x ++ 125%N :: tail) as [|c r] eqn:E; [reflexivity|].
    assert (c <> 123%N).
    { destruct (hole_text index x) as [|c' r'] eqn:E2; [cbn [app] in E; congruence|]. cbn [app] in E. assert (c = c') by congruence. subst c'.
      apply (hole_no_brace index x c PO). rewrite E2. left. reflexivity. }
    destruct c as [|c]; [reflexivity|]. do 7 (try destruct c as [c|c|]; try reflexivity); congruence. }
  rewrite HD. unfold assert_.
  destruct (Nat.ltb_spec (List.length (unparse sg)) (List.length (unparse sg) + 1 + List.length (hole_text index x))) as [_|C]; [|lia].
  replace (List.length (unparse sg) + 1 + List.length (hole_text index x) - (List.length (unparse sg) + 1)) with (List.length (hole_text index x)) by lia.
  rewrite parse_specifiers_spec by exact PO.
  assert (CI : N.to_nat (match index with Some ds => number 10 ds | None => N.of_nat i end) = match index with Some ds => N.to_nat (number 10 ds) | None => i end) by (destruct index; lia).
  rewrite CI, NA. exists (with_ec EINVAL t1). split; [reflexivity|left; reflexivity].
Qed.
End Walk.
