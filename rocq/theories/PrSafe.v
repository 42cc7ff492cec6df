(** tm_print.h: with a fixed buffer and undecorated values no format string leads outside of the buffer; proofs *)
From Coq Require Import Arith NArith ZArith Bool Lia Ascii String List.
From Verif Require Import Base DigitsSpec PrModel PrSpec PrProofs PrParse PrWalk PrModes.
Import ListNotations.
Local Open Scope nat_scope.

Definition InvS (cap : nat) (t : printer) : Prop := List.length (data t) = cap /\ used t <= cap /\ (ec t = OK \/ ec t = ERANGE).
Definition safe (cap : nat) (o : option (bool * printer)) : Prop :=
  exists go t', o = Some (go, t') /\ List.length (data t') = cap /\ used t' <= cap /\ (go = true -> ec t' = OK \/ ec t' = ERANGE).

Lemma seg_self b p : p <= List.length b -> seg b 0 (firstn p b) /\ List.length (firstn p b) = p.
Proof.
  intros H. assert (L : List.length (firstn p b) = p) by (apply firstn_length_le; exact H). split; [|exact L].
  split; [lia|]. intros i Hi. cbn [Nat.add]. symmetry. apply nth_firstn'. lia.
Qed.
Lemma bare_number_safe f raw b p : bare f false -> raw <> [] -> p <= List.length b ->
  exists r b', print_number f false false raw b p (List.length b - p) = Some (r, b') /\ List.length b' = List.length b
  /\ ((r_ec r = OK /\ p + r_size r <= List.length b) \/ r_ec r = ERANGE \/ r_ec r = EOVERFLOW).
Proof.
  intros B NR Hp. destruct (seg_self b p Hp) as [S L]. pose proof (bare_decorate f raw B NR) as D.
  destruct (Nat.eq_dec p (List.length b)) as [E|E].
  - subst p. rewrite Nat.sub_diag. exists (Result 0 EOVERFLOW), b. split; [apply print_number_none|]. split; [reflexivity|]. right. right. reflexivity.
  - destruct (Nat.lt_ge_cases (p + List.length raw) (List.length b)) as [C|C].
    + destruct (print_number_fits f false false raw raw b (firstn p b) (bare_prefix_ok _ _ B) eq_refl S) as [b' [E1 [L1 _]]]; [rewrite D, L; exact C|].
      rewrite L, D in E1. exists (Result (List.length raw) OK), b'. split; [exact E1|]. split; [exact L1|]. left. split; [reflexivity|]. cbn [r_size]. lia.
    + destruct (print_number_short f raw b (firstn p b) B NR S) as [b' [E1 [L1 _]]]; [lia|lia|]. rewrite L in E1.
      exists (Result (List.length raw) ERANGE), b'. split; [exact E1|]. split; [exact L1|]. right. left. reflexivity.
Qed.
Lemma literal_safe cap s t : InvS cap t -> safe cap (print_literal None s t).
Proof.
  intros [HL [Hu HE]]. unfold print_literal, need, remaining. cbn [data used necessary ec]. rewrite HL. destruct (Nat.ltb_spec (cap - used t) (List.length s)) as [C|C].
  - eexists _, _. split; [reflexivity|]. unfold with_ec. cbn [data used ec]. split; [exact HL|]. split; [exact Hu|]. intros _. right. reflexivity.
  - rewrite Nat.min_l by lia. rewrite firstn_all. destruct (store_some (data t) (used t) s) as [b' [E [L _]]]; [lia|]. rewrite E. cbv beta iota.
    eexists _, _. split; [reflexivity|]. unfold advance, with_data. cbn [data used ec]. split; [lia|]. split; [lia|]. intros _. exact HE.
Qed.
Lemma value_safe cap F G t : InvS cap t ->
  (forall b p, p <= List.length b -> exists r b', F b p (List.length b - p) = Some (r, b') /\ List.length b' = List.length b /\ ((r_ec r = OK /\ p + r_size r <= List.length b) \/ r_ec r = ERANGE \/ r_ec r = EOVERFLOW)) ->
  (forall d, exists r d', G d = Some (r, d') /\ List.length d' = List.length d) ->
  safe cap (print_value None 1 F G t).
Proof.
  intros [HL [Hu HE]] HF HG. unfold print_value.
  assert (M : forall t0, List.length (data t0) = cap -> used t0 <= cap -> ec t0 = ERANGE -> safe cap
    (match ec t0 with ERANGE => ' (r, b) <- G (data t0) ;; match r_ec r with OK => Some (true, need (r_size r) (with_data b t0)) | e => Some (false, with_ec e (with_data b t0)) end | _ => Some (true, t0) end)).
  { intros t0 L0 U0 E0. rewrite E0. destruct (HG (data t0)) as [r [d' [E L]]]. rewrite E. cbv beta iota.
    destruct (r_ec r); eexists _, _; (split; [reflexivity|]); unfold need, with_ec, with_data; cbn [data used ec]; (split; [lia|]); (split; [lia|]); intros Q; try discriminate. right. exact E0. }
  destruct HE as [HE|HE]; rewrite HE.
  - cbn [attempt]. unfold remaining. destruct (HF (data t) (used t)) as [r [b' [E [L R]]]]; [lia|]. rewrite E. cbv beta iota.
    destruct R as [[R1 R2]|[R1|R1]]; rewrite R1; cbv beta iota; cbn [negb]; rewrite R1.
    + eexists _, _. split; [reflexivity|]. unfold need, advance, with_data. cbn [data used ec]. split; [lia|]. split; [lia|]. intros _. left. exact HE.
    + eexists _, _. split; [reflexivity|]. unfold need, with_ec, with_data. cbn [data used ec]. split; [lia|]. split; [lia|]. intros _. right. reflexivity.
    + apply (M (with_ec ERANGE (with_data b' t))); [cbn; lia|exact Hu|reflexivity].
  - specialize (M t HL Hu HE). rewrite HE in M. exact M.
Qed.
Lemma arg_safe cap v f t : InvS cap t -> plain v f -> safe cap (print_arg None 1 v f t).
Proof.
  intros I M. pose proof (proj1 M) as P. pose proof I as [HL [Hu HE]].
  assert (SH : exists text, shows f v text).
  { assert (NUM : base_ok f -> forall z, exists text, shows_number f z text).
    { intros BO z. destruct (unsigned_text_shows (Z.to_N (Z.abs z)) f BO) as [ds [C _]]. eexists. exists ds. split; [exact C|reflexivity]. }
    destruct v; cbn [shows printable] in *; try (eexists; reflexivity); try (apply NUM; apply P).
    destruct (f_char f); [eexists; reflexivity|]. apply NUM. apply P. }
  destruct SH as [text SH].
  destruct (arg_cases None 1 v f text P SH) as [[neg [strip [raw [digits [E [X [R [-> [PL _]]]]]]]]]|[[s [E [U [-> _]]]]|[[s [E [U ->]]]|[c [-> [FC ->]]]]]].
  - destruct (PL M) as [B [NR ->]]. assert (neg = false) by apply B. subst neg. rewrite E. apply value_safe; [exact I| |].
    + intros b p Hp. apply bare_number_safe; assumption.
    + intros d. unfold get_print_size. destruct (Nat.ltb_spec (List.length d) 200) as [C|C].
      * destruct (bare_number_safe f raw (repeat 205%N 200) 0 B NR) as [r [b' [E1 _]]]; [lia|]. rewrite repeat_length, Nat.sub_0_r in E1. rewrite E1. cbv beta iota. exists r, d. split; reflexivity.
      * destruct (bare_number_safe f raw d 0 B NR) as [r [b' [E1 [L1 _]]]]; [lia|]. rewrite Nat.sub_0_r in E1. exists r, b'. split; [exact E1|exact L1].
  - rewrite E. apply value_safe; [exact I| |].
    + intros b p Hp. destruct (seg_self b p Hp) as [S L]. destruct (Nat.le_gt_cases (p + List.length s) (List.length b)) as [C|C].
      * destruct (print_string_fits f s b (firstn p b) U S) as [b' [E1 [L1 _]]]; [lia|]. rewrite L in E1. exists (Result (List.length s) OK), b'. split; [exact E1|]. split; [exact L1|]. left. split; [reflexivity|exact C].
      * eexists _, b. split; [apply print_string_short; lia|]. split; [reflexivity|]. right. right. reflexivity.
    + intros d. eexists _, d. split; reflexivity.
  - rewrite E. unfold print_string_value.
    assert (BN : (if (0 <? f_width f)%Z then List.length s + (Z.to_nat (f_width f) - List.length s) else List.length s) = List.length s).
    { unfold unpadded in U. destruct (0 <? f_width f)%Z; lia. }
    rewrite BN. unfold need, remaining. cbn [data used necessary ec]. rewrite HL. destruct HE as [HE|HE]; rewrite HE.
    + destruct (Nat.ltb_spec (cap - used t) (List.length s)) as [C|C].
      * eexists _, _. split; [reflexivity|]. unfold with_ec. cbn [data used ec]. split; [exact HL|]. split; [exact Hu|]. intros _. right. reflexivity.
      * destruct (seg_self (data t) (used t)) as [S L]; [lia|]. destruct (print_string_fits f s (data t) (firstn (used t) (data t)) U S) as [b' [E1 [L1 _]]]; [lia|].
        rewrite L, HL in E1. rewrite E1. cbv beta iota. cbn [r_ec r_size]. cbv beta iota. eexists _, _. split; [reflexivity|]. unfold advance, with_data. cbn [data used ec]. split; [lia|]. split; [lia|]. intros _. left. reflexivity.
    + eexists _, _. split; [reflexivity|]. cbn [data used ec]. split; [exact HL|]. split; [exact Hu|]. intros _. right. reflexivity.
  - cbn [print_arg]. rewrite FC. unfold need, remaining. cbn [data used necessary ec]. rewrite HL. destruct (Nat.eqb_spec (cap - used t) 0) as [C|C].
    + eexists _, _. split; [reflexivity|]. unfold with_ec. cbn [data used ec]. split; [exact HL|]. split; [exact Hu|]. intros _. right. reflexivity.
    + destruct (store_some (data t) (used t) [Z.to_N (c mod 256)]) as [b' [E1 [L1 _]]]; [cbn [List.length]; lia|]. rewrite E1. cbv beta iota.
      eexists _, _. split; [reflexivity|]. unfold advance, with_data. cbn [data used ec]. split; [lia|]. split; [lia|]. intros _. exact HE.
Qed.

Definition no_double (s : list N) : Prop := forall x y, s <> x ++ 125%N :: 125%N :: y.
Lemma no_double_suffix x s : no_double (x ++ s) -> no_double s.
Proof. intros H a b E. apply (H (x ++ a) b). rewrite E, app_assoc. reflexivity. Qed.
Lemma no_double_prefix x s : no_double (x ++ s) -> no_double x.
Proof. intros H a b E. apply (H a (b ++ s)). rewrite E, <- app_assoc. reflexivity. Qed.
Lemma find_split c s i : find c s = Some i -> exists x y, s = x ++ c :: y /\ List.length x = i /\ ~ In c x.
Proof.
  revert i. induction s as [|z s IH]; intros i E; [discriminate|]. cbn [find] in E. destruct (N.eqb_spec z c) as [Q|Q].
  - assert (i = 0) by congruence. subst. exists [], s. split; [reflexivity|]. split; [reflexivity|intros []].
  - destruct (find c s) as [j|]; [|discriminate]. cbn [option_map] in E. assert (i = S j) by congruence. subst i.
    destruct (IH j eq_refl) as [x [y [-> [L NI]]]]. exists (z :: x), y. split; [reflexivity|]. split; [cbn [List.length]; lia|]. intros [C|C]; [exact (Q C)|exact (NI C)].
Qed.
Lemma find_none_in c s : find c s = None -> ~ In c s.
Proof.
  induction s as [|z s IH]; intros E; [intros []|]. cbn [find] in E. destruct (N.eqb_spec z c) as [Q|Q]; [discriminate|].
  destruct (find c s); [discriminate|]. intros [C|C]; [exact (Q C)|exact (IH eq_refl C)].
Qed.
Lemma escaped_safe cap s t : no_double s -> InvS cap t -> forall fuel,
  exists go t', print_escaped None (S fuel) s t = Some (go, t') /\ List.length (data t') = cap /\ used t' <= cap /\ (go = true -> (ec t' = OK \/ ec t' = ERANGE) /\ ~ In 125%N s).
Proof.
  intros ND I fuel. cbn [print_escaped]. destruct (find 125 s) as [i|] eqn:F.
  - destruct (find_split _ _ _ F) as [x [y [E [L NI]]]].
    destruct (literal_safe cap (firstn (i + 1) s) t I) as [go [t1 [E1 [L1 [U1 G1]]]]]. rewrite E1. cbv beta iota. destruct go; cbn [negb].
    + assert (SK : skipn (i + 1) s = y).
      { rewrite E. change (125%N :: y) with ([125%N] ++ y). rewrite app_assoc. apply skipn_app_exact. rewrite app_length. cbn [List.length]. lia. }
      rewrite SK. exists false, (with_ec EINVAL t1). split.
      * destruct y as [|c y]; [reflexivity|]. destruct (N.eq_dec c 125) as [->|Q]; [exfalso; apply (ND x y); exact E|].
        destruct c as [|c]; [reflexivity|]. do 7 (try destruct c as [c|c|]; try reflexivity); congruence.
      * cbn [with_ec data used]. split; [exact L1|]. split; [exact U1|discriminate].
    + exists false, t1. split; [reflexivity|]. split; [exact L1|]. split; [exact U1|discriminate].
  - destruct s as [|c s].
    + exists true, t. destruct I as [HL [Hu HE]]. split; [reflexivity|]. split; [exact HL|]. split; [exact Hu|]. intros _. split; [exact HE|intros []].
    + destruct (literal_safe cap (c :: s) t I) as [go [t1 [E1 [L1 [U1 G1]]]]]. exists go, t1. split; [exact E1|]. split; [exact L1|]. split; [exact U1|].
      intros Q. split; [exact (G1 Q)|]. apply find_none_in. exact F.
Qed.
Lemma parse_specifiers_no_colon s len f index : ~ In 58%N s -> snd (parse_specifiers s len f index) = f.
Proof.
  intros H. unfold parse_specifiers. destruct (len =? 0); [reflexivity|].
  assert (K : forall (g : bool) (i : N) l n, snd (match n, skipn l s with S len', 58%N :: s' => (g, i, fst (parse_format s' len')) | _, _ => (g, i, f) end) = f).
  { intros g i l n. destruct n as [|n]; [reflexivity|]. destruct (skipn l s) as [|c r] eqn:E; [reflexivity|].
    assert (c <> 58%N). { intros ->. apply H. rewrite <- (firstn_skipn l s), E. apply in_or_app. right. left. reflexivity. }
    destruct c as [|c]; [reflexivity|]. do 6 (try destruct c as [c|c|]; try reflexivity); congruence. }
  destruct (scan_u32_n s len) as [[n v]|]; [apply K|]. change s with (skipn 0 s) at 1. apply K.
Qed.

Section Safe.
Variable initial : format.
Variable args : list value.
Hypothesis few : List.length args <= 16.
Hypothesis Hplain : forall v, In v args -> plain v initial.
Lemma impl_safe cap : forall fuel s i t, no_double s -> ~ In 58%N s -> InvS cap t -> List.length s < fuel ->
  exists t', print_impl None 1 fuel initial args s (N.of_nat i) (N.shiftr (type_flags args) (N.of_nat i * 4)) t = Some t' /\ List.length (data t') = cap /\ used t' <= cap.
Proof.
  induction fuel as [|fuel IH]; intros s i t ND NC I Hf; [lia|]. cbn [print_impl]. destruct (find 123 s) as [p|] eqn:F.
  - destruct (find_split _ _ _ F) as [x [y [E [L NI]]]].
    assert (EF : firstn p s = x) by (rewrite E; apply firstn_app_exact; exact L). rewrite EF.
    assert (NDx : no_double x) by (apply (no_double_prefix x (123%N :: y)); rewrite <- E; exact ND).
    destruct (escaped_safe cap x t NDx I p) as [go [t1 [E1 [L1 [U1 G1]]]]]. rewrite E1. cbv beta iota. destruct go; cbn [negb]; [|exists t1; split; [reflexivity|]; split; assumption].
    destruct (G1 eq_refl) as [G2 G3]. assert (I1 : InvS cap t1) by (split; [exact L1|split; [exact U1|exact G2]]).
    assert (SK : skipn (p + 1) s = y).
    { rewrite E. change (123%N :: y) with ([123%N] ++ y). rewrite app_assoc. apply skipn_app_exact. rewrite app_length. cbn [List.length]. lia. }
    rewrite SK.
    assert (NDy : no_double y) by (apply (no_double_suffix (x ++ [123%N])); rewrite <- app_assoc; cbn [app]; rewrite <- E; exact ND).
    assert (NCy : ~ In 58%N y) by (intros C; apply NC; rewrite E; apply in_or_app; right; right; exact C).
    assert (Ly : List.length y < List.length s) by (rewrite E, app_length; cbn [List.length]; lia).
    destruct (match y with 123%N :: _ => true | _ => false end) eqn:HB.
    + assert (Y : exists r, y = 123%N :: r).
      { destruct y as [|c y']; [discriminate|]. exists y'. f_equal. destruct c as [|c]; [discriminate|]. do 7 (try destruct c as [c|c|]; try discriminate). reflexivity. }
      destruct Y as [r ->].
      destruct (literal_safe cap [123%N] t1 I1) as [go [t2 [E2 [L2 [U2 G4]]]]]. rewrite E2. cbv beta iota. destruct go; cbn [negb]; [|exists t2; split; [reflexivity|]; split; assumption].
      apply IH; [apply (no_double_suffix [123%N]); exact NDy|intros C; apply NCy; right; exact C|split; [exact L2|split; [exact U2|exact (G4 eq_refl)]]|cbn [List.length] in Ly; lia].
    + assert (HD : forall {A} (f : list N -> A) (b : A), (match y with 123%N :: rest => f rest | _ => b end) = b).
      { intros A f b. destruct y as [|c y']; [reflexivity|]. destruct c as [|c]; [reflexivity|]. do 7 (try destruct c as [c|c|]; try reflexivity); discriminate. }
      rewrite HD. destruct (find 125 s) as [next|] eqn:FN; [|exists (with_ec EINVAL t1); split; [reflexivity|]; split; assumption].
      destruct (find_split _ _ _ FN) as [x2 [y2 [E2 [L2 NI2]]]].
      assert (PN : p < next).
      { destruct (Nat.lt_ge_cases p next) as [C|C]; [exact C|]. exfalso. destruct (Nat.eq_dec p next) as [Q|Q].
        - assert (x = x2 /\ 123%N :: y = 125%N :: y2) as [_ Q2]; [|discriminate].
          assert (EE : x ++ 123%N :: y = x2 ++ 125%N :: y2) by congruence. assert (x = firstn p (x ++ 123%N :: y)) by (symmetry; apply firstn_app_exact; exact L).
          assert (x2 = firstn p (x2 ++ 125%N :: y2)) by (symmetry; apply firstn_app_exact; lia). assert (x = x2) by congruence. split; [assumption|]. subst x2. apply app_inv_head in EE. exact EE.
        - apply G3. assert (EE : x = firstn p (x2 ++ 125%N :: y2)) by (rewrite <- E2; symmetry; exact EF). rewrite EE. rewrite firstn_app. apply in_or_app. right.
          destruct (p - List.length x2) as [|k] eqn:K; [lia|]. left. reflexivity. }
      unfold assert_. destruct (Nat.ltb_spec p next) as [_|C]; [|lia].
      pose proof (parse_specifiers_no_colon y (next - (p + 1)) initial (N.of_nat i) NCy) as FM.
      assert (IX : snd (fst (parse_specifiers y (next - (p + 1)) initial (N.of_nat i))) = N.of_nat i \/ fst (fst (parse_specifiers y (next - (p + 1)) initial (N.of_nat i))) = true).
      { unfold parse_specifiers. destruct (next - (p + 1) =? 0); [left; reflexivity|].
        assert (K : forall (g : bool) (j : N) l n, fst (match n, l with S len', 58%N :: s' => (g, j, fst (parse_format s' len')) | _, _ => (g, j, initial) end) = (g, j)).
        { intros g j l n. destruct n as [|n]; [reflexivity|]. destruct l as [|c r]; [reflexivity|]. destruct c as [|c]; [reflexivity|]. do 6 (try destruct c as [c|c|]; try reflexivity). }
        destruct (scan_u32_n y (next - (p + 1))) as [[n v]|]; rewrite K; [right|left]; reflexivity. }
      destruct (parse_specifiers y (next - (p + 1)) initial (N.of_nat i)) as [[given current] f] eqn:PS. cbn [fst snd] in FM, IX. subst f.
      destruct (nth_error args (N.to_nat current)) as [v|] eqn:NA; [|exists (with_ec EINVAL t1); split; [reflexivity|]; split; assumption].
      assert (TY : N.land (if given then N.shiftr (type_flags args) (current * 4) else N.shiftr (type_flags args) (N.of_nat i * 4)) 15 = type_code v).
      { destruct given.
        - rewrite <- (N2Nat.id current). rewrite type_lookup by exact few. rewrite NA. reflexivity.
        - destruct IX as [IX|IX]; [|discriminate]. rewrite type_lookup by exact few. rewrite IX, Nat2N.id in NA. rewrite NA. reflexivity. }
      rewrite TY. pose proof (type_code_small v) as TS.
      rewrite (proj2 (N.eqb_neq (type_code v) 0)) by lia. rewrite (proj2 (N.leb_gt 12 (type_code v))) by lia. cbn [orb]. rewrite N.eqb_refl. cbn [negb].
      destruct (arg_safe cap v initial t1 I1 (Hplain v (nth_error_In _ _ NA))) as [go [t2 [E3 [L3 [U3 G4]]]]]. rewrite E3. cbv beta iota.
      destruct go; cbn [negb]; [|exists t2; split; [reflexivity|]; split; assumption].
      assert (SK2 : skipn (next + 1) s = y2).
      { rewrite E2. change (125%N :: y2) with ([125%N] ++ y2). rewrite app_assoc. apply skipn_app_exact. rewrite app_length. cbn [List.length]. lia. }
      rewrite SK2.
      assert (I2 : InvS cap t2) by (split; [exact L3|split; [exact U3|exact (G4 eq_refl)]]).
      assert (NDy2 : no_double y2) by (apply (no_double_suffix (x2 ++ [125%N])); rewrite <- app_assoc; cbn [app]; rewrite <- E2; exact ND).
      assert (NCy2 : ~ In 58%N y2) by (intros C; apply NC; rewrite E2; apply in_or_app; right; right; exact C).
      assert (Ly2 : List.length y2 < fuel) by (rewrite E2, app_length in Hf; cbn [List.length] in Hf; lia).
      destruct given; [apply IH; assumption|].
      replace (N.of_nat i + 1)%N with (N.of_nat (S i)) by lia.
      replace (N.shiftr (N.shiftr (type_flags args) (N.of_nat i * 4)) 4) with (N.shiftr (type_flags args) (N.of_nat (S i) * 4)) by (rewrite N.shiftr_shiftr; f_equal; lia).
      apply IH; assumption.
  - destruct s as [|c s]; [exists t; destruct I as [HL [Hu _]]; split; [reflexivity|]; split; assumption|].
    destruct (escaped_safe cap (c :: s) t ND I (List.length (c :: s))) as [go [t1 [E1 [L1 [U1 G1]]]]]. rewrite E1. cbv beta iota. exists t1. split; [reflexivity|]. split; assumption.
Qed.
End Safe.
