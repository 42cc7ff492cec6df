(** tm_print.h: buffers, numbers and texts in a buffer with room; proofs *)
From Coq Require Import Arith NArith ZArith List Bool Lia Ascii String.
From Verif Require Import Base DigitsSpec PrModel PrSpec.
Import ListNotations.
Local Open Scope nat_scope.

(** ** Buffers *)
Definition seg (b : list N) (p : nat) (s : list N) : Prop :=
  p + List.length s <= List.length b /\ forall i, i < List.length s -> nth (p + i) b 0%N = nth i s 0%N.
Lemma seg_nil b p : p <= List.length b -> seg b p [].
Proof. intros H. split; [cbn [List.length]; lia|]. intros i Hi. cbn [List.length] in Hi. lia. Qed.
Lemma seg_app b p s1 s2 : seg b p (s1 ++ s2) <-> seg b p s1 /\ seg b (p + List.length s1) s2.
Proof.
  unfold seg. rewrite app_length. split.
  - intros [L H]. split; split; try lia.
    + intros i Hi. rewrite H by lia. apply app_nth1. lia.
    + intros i Hi. replace (p + List.length s1 + i) with (p + (List.length s1 + i)) by lia. rewrite H by lia.
      rewrite app_nth2 by lia. f_equal. lia.
  - intros [[L1 H1] [L2 H2]]. split; [lia|]. intros i Hi. destruct (Nat.lt_ge_cases i (List.length s1)) as [C|C].
    + rewrite H1 by lia. symmetry. apply app_nth1. lia.
    + replace (p + i) with (p + List.length s1 + (i - List.length s1)) by lia. rewrite H2 by lia. symmetry. apply app_nth2. lia.
Qed.
Lemma nth_firstn' (i n : nat) (l : list N) : i < n -> nth i (firstn n l) 0%N = nth i l 0%N.
Proof.
  revert n l. induction i as [|i IH]; intros n l H; destruct n as [|n]; try lia; destruct l as [|a l]; try reflexivity; cbn [firstn nth].
  apply IH. lia.
Qed.
Lemma nth_skipn' (i n : nat) (l : list N) : nth i (skipn n l) 0%N = nth (n + i) l 0%N.
Proof.
  revert l. induction n as [|n IH]; intros l; [reflexivity|]. destruct l as [|a l]; [destruct i; reflexivity|]. cbn [skipn Nat.add nth]. apply IH.
Qed.
Lemma store_some b p s : p + List.length s <= List.length b ->
  exists b', store b p s = Some b' /\ List.length b' = List.length b /\ seg b' p s
  /\ forall q r, seg b q r -> q + List.length r <= p \/ p + List.length s <= q -> seg b' q r.
Proof.
  intros L. unfold store. destruct (Nat.leb_spec (p + List.length s) (List.length b)) as [_|C]; [|lia].
  eexists. split; [reflexivity|].
  assert (Lp : List.length (firstn p b) = p) by (apply firstn_length_le; lia).
  assert (LB : List.length (firstn p b ++ s ++ skipn (p + List.length s) b) = List.length b).
  { rewrite !app_length, skipn_length, Lp. lia. }
  split; [exact LB|]. split.
  - split; [lia|]. intros i Hi. rewrite app_nth2 by lia. rewrite Lp. replace (p + i - p) with i by lia. apply app_nth1. lia.
  - intros q r [Lq Hq] D. split; [lia|]. intros i Hi. rewrite <- Hq by lia. destruct D as [D|D].
    + rewrite app_nth1 by lia. apply nth_firstn'. lia.
    + rewrite app_nth2 by lia. rewrite app_nth2 by lia. rewrite nth_skipn'. f_equal. lia.
Qed.
Lemma load_seg b p s : seg b p s -> load b p (List.length s) = Some s.
Proof.
  intros [L H]. unfold load. destruct (Nat.leb_spec (p + List.length s) (List.length b)) as [_|C]; [|lia].
  f_equal. apply (nth_ext _ _ 0%N 0%N).
  - rewrite firstn_length_le; [reflexivity|]. rewrite skipn_length. lia.
  - intros i Hi. rewrite firstn_length_le in Hi by (rewrite skipn_length; lia).
    rewrite nth_firstn' by lia. rewrite nth_skipn'. apply H. lia.
Qed.
Lemma seg_firstn b s : seg b 0 s -> firstn (List.length s) b = s.
Proof.
  intros H. pose proof (load_seg _ _ _ H) as E. unfold load in E. destruct (0 + List.length s <=? List.length b); [|discriminate].
  cbn [skipn] in E. congruence.
Qed.
Lemma seg_prefix b p s n : seg b p s -> seg b p (firstn n s).
Proof. intros H. rewrite <- (firstn_skipn n s) in H. apply seg_app in H. apply H. Qed.

Definition nil_or_sign (neg : bool) (f : format) : list N := if neg then [45%N] else if f_sign f then [43%N] else [].
Definition radix_prefix (f : format) : list N :=
  if f_pre_hex f then [48%N; if f_lower f then 120%N else 88%N]
  else if f_pre_binary f then [48%N; if f_lower f then 98%N else 66%N]
  else if f_pre_octal f then [48%N] else [].
Lemma decorate_eq f neg digits : decorate f neg digits =
  let n := Z.to_nat (f_width f) - (List.length (nil_or_sign neg f) + List.length (radix_prefix f) + List.length digits) in
  if f_left f then nil_or_sign neg f ++ radix_prefix f ++ digits ++ repeat 32%N n
  else if f_spaces f then repeat 32%N n ++ nil_or_sign neg f ++ radix_prefix f ++ digits
  else nil_or_sign neg f ++ radix_prefix f ++ repeat 48%N n ++ digits.
Proof.
  unfold decorate, nil_or_sign, radix_prefix, fill. destruct neg, (f_sign f), (f_pre_hex f), (f_pre_binary f), (f_pre_octal f), (f_lower f); reflexivity.
Qed.
Lemma sign_length neg f : List.length (nil_or_sign neg f) = if neg || f_sign f then 1 else 0.
Proof. unfold nil_or_sign. destruct neg, (f_sign f); reflexivity. Qed.
Lemma decorated_size_eq digits f neg : prefix_ok f ->
  decorated_size digits f neg = List.length (nil_or_sign neg f) + List.length (radix_prefix f) + digits.
Proof.
  intros [H1 H2]. rewrite sign_length. unfold decorated_size, radix_prefix.
  destruct (f_pre_hex f); [destruct (H1 eq_refl) as [-> ->]; cbn [orb List.length]; lia|].
  destruct (f_pre_binary f); [rewrite (H2 eq_refl); cbn [orb List.length]; lia|].
  destruct (f_pre_octal f); cbn [orb List.length]; lia.
Qed.
Lemma decorate_length f neg digits : List.length (decorate f neg digits) =
  Nat.max (Z.to_nat (f_width f)) (List.length (nil_or_sign neg f) + List.length (radix_prefix f) + List.length digits).
Proof.
  rewrite decorate_eq. cbv zeta. destruct (f_left f), (f_spaces f); rewrite !app_length, repeat_length; lia.
Qed.

(** ** Numbers *)
Definition raw_of (strip : bool) (raw digits : list N) (f : format) : Prop :=
  if strip then f_pre_hex f = true /\ digits <> [] /\ (raw = 48%N :: 120%N :: digits \/ raw = 48%N :: 88%N :: digits) else raw = digits.
Lemma raw_length strip raw digits f : raw_of strip raw digits f -> List.length raw <= List.length (radix_prefix f) + List.length digits.
Proof.
  unfold raw_of, radix_prefix. destruct strip; [|intros ->; lia].
  intros [-> [_ [-> | ->]]]; cbn [List.length]; lia.
Qed.
Lemma print_text_fits b p m strip raw digits f out : raw_of strip raw digits f ->
  List.length raw < m -> p + m <= List.length b -> seg b 0 out -> List.length out <= p ->
  exists b', print_text b p m strip raw = Some (Result (List.length digits) OK, b') /\ List.length b' = List.length b /\ seg b' p digits /\ seg b' 0 out.
Proof.
  intros R Hm Hp Ho Lo. unfold print_text, snprintf. unfold assert_. destruct (Nat.ltb_spec 0 m) as [_|C]; [|lia].
  rewrite firstn_all2 by lia.
  destruct (store_some b p (raw ++ [0%N])) as [b1 [E1 [L1 [S1 K1]]]]; [rewrite app_length; cbn [List.length]; lia|].
  rewrite E1. cbv beta iota. destruct (Nat.leb_spec m (List.length raw)) as [C|_]; [lia|].
  apply seg_app in S1. destruct S1 as [S1 _].
  assert (O1 : seg b1 0 out) by (apply K1; [exact Ho|left; lia]).
  destruct strip.
  - destruct R as [_ [ND R]].
    assert (LR : List.length raw = S (S (List.length digits))) by (destruct R as [-> | ->]; reflexivity).
    assert (LD : 0 < List.length digits) by (destruct digits; [congruence|cbn [List.length]; lia]).
    destruct (Nat.ltb_spec 2 (List.length raw)) as [_|C]; [|lia]. cbn [andb].
    assert (S2 : seg b1 (p + 2) digits).
    { destruct R as [-> | ->]; [change (48%N :: 120%N :: digits) with ([48%N; 120%N] ++ digits) in S1|change (48%N :: 88%N :: digits) with ([48%N; 88%N] ++ digits) in S1];
        apply seg_app in S1; apply S1. }
    assert (E2 : load b1 (p + 2) (List.length raw - 2) = Some digits).
    { replace (List.length raw - 2) with (List.length digits) by lia. apply load_seg. exact S2. }
    destruct (store_some b1 p digits) as [b2 [E3 [L3 [S3 K3]]]]; [lia|].
    exists b2.
    assert (G : (s <- load b1 (p + 2) (List.length raw - 2) ;; b0 <- store b1 p s ;; Some (Result (List.length raw - 2) OK, b0)) = Some (Result (List.length digits) OK, b2)).
    { rewrite E2. cbv beta iota. rewrite E3. cbv beta iota. replace (List.length raw - 2) with (List.length digits) by lia. reflexivity. }
    split; [destruct R as [-> | ->]; exact G|]. split; [lia|]. split; [exact S3|]. apply K3; [exact O1|left; lia].
  - cbn [andb]. unfold raw_of in R. subst raw. exists b1. split; [reflexivity|]. split; [exact L1|]. split; [exact S1|exact O1].
Qed.

Lemma store_seg b p s b' : store b p s = Some b' ->
  List.length b' = List.length b /\ seg b' p s /\ forall q r, seg b q r -> q + List.length r <= p \/ p + List.length s <= q -> seg b' q r.
Proof.
  intros E. destruct (Nat.le_gt_cases (p + List.length s) (List.length b)) as [C|C].
  - destruct (store_some b p s C) as [b1 [E1 R]]. assert (b1 = b') by congruence. subst. exact R.
  - unfold store in E. destruct (Nat.leb_spec (p + List.length s) (List.length b)); [lia|discriminate].
Qed.

Lemma print_number_fits f neg strip raw digits b out : prefix_ok f -> raw_of strip raw digits f -> seg b 0 out ->
  List.length out + List.length (decorate f neg digits) < List.length b ->
  exists b', print_number f neg strip raw b (List.length out) (List.length b - List.length out) = Some (Result (List.length (decorate f neg digits)) OK, b')
  /\ List.length b' = List.length b /\ seg b' 0 (out ++ decorate f neg digits).
Proof.
  intros P R Ho HL. pose proof (raw_length _ _ _ _ R) as HR. rewrite decorate_length in HL.
  pose proof (sign_length neg f) as HS.
  set (S := nil_or_sign neg f) in *. set (X := radix_prefix f) in *. set (w := Z.to_nat (f_width f)) in *.
  set (d := List.length out) in *. set (L := List.length b) in *.
  assert (Sg : (if neg || f_sign f then 1 else 0) = List.length S) by (symmetry; exact HS).
  unfold print_number. destruct (Nat.eqb_spec (L - d) 0) as [C|_]; [lia|]. rewrite Sg.
  destruct (print_text_fits b (d + List.length S) (L - d - List.length S) strip raw digits f out R) as [b1 [E1 [L1 [D1 O1]]]]; [lia|subst L; lia|exact Ho|lia|].
  rewrite E1. cbv beta iota. unfold move_and_decorate. cbn [r_ec r_size].
  rewrite decorated_size_eq by exact P. fold S X. fold w. rewrite Sg.
  set (g := List.length digits) in *. set (dec := List.length S + List.length X + g) in *.
  assert (Wp : (0 <? f_width f)%Z = (0 <? w)) by (subst w; destruct (Z.ltb_spec 0 (f_width f)), (Nat.ltb_spec 0 (Z.to_nat (f_width f))); try reflexivity; lia).
  assert (Wn : (f_width f <=? 0)%Z = negb (0 <? w)) by (subst w; destruct (Z.leb_spec (f_width f) 0), (Nat.ltb_spec 0 (Z.to_nat (f_width f))); try reflexivity; lia).
  rewrite Wp, Wn.
  assert (SZ : (if (0 <? w) && (dec <? w) then w else dec) = Nat.max w dec).
  { destruct (Nat.ltb_spec 0 w), (Nat.ltb_spec dec w); cbn [andb]; lia. }
  rewrite SZ.
  set (dp := if negb (0 <? w) || f_left f then dec - g else Nat.max w dec - g).
  assert (DP : List.length S <= dp /\ dp + g <= Nat.max w dec) by (subst dp; destruct (negb (0 <? w) || f_left f); unfold dec; lia).
  assert (M : exists b2, (if (0 <? dp) && negb (dp =? List.length S) then s <- load b1 (d + List.length S) g ;; store b1 (d + dp) s else Some b1) = Some b2
    /\ List.length b2 = L /\ seg b2 (d + dp) digits /\ seg b2 0 out).
  { destruct ((0 <? dp) && negb (dp =? List.length S)) eqn:C.
    - unfold g. rewrite (load_seg _ _ _ D1). cbv beta iota.
      destruct (store_some b1 (d + dp) digits) as [b2 [E2 [L2 [S2 K2]]]]; [fold g; unfold L in *; lia|].
      exists b2. split; [exact E2|]. split; [lia|]. split; [exact S2|]. apply K2; [exact O1|left; fold d; lia].
    - exists b1. split; [reflexivity|]. split; [exact L1|].
      assert (dp = List.length S).
      { apply andb_false_iff in C. destruct C as [C|C]; [apply Nat.ltb_ge in C; lia|]. apply negb_false_iff in C. apply Nat.eqb_eq in C. exact C. }
      split; [congruence|exact O1]. }
  destruct M as [b2 [E2 [L2 [D2 O2]]]]. rewrite E2. cbv beta iota.
  destruct (Nat.ltb_spec (L - d) (Nat.max w dec)) as [C|_]; [lia|].
  rewrite decorate_length. fold S X w g dec.
  enough (G : exists b3, print_decoration b2 d (L - d) g dec (Nat.max w dec) f neg = Some b3 /\ List.length b3 = L /\ seg b3 0 (out ++ decorate f neg digits)).
  { destruct G as [b3 [E3 [L3 O3]]]. rewrite E3. cbv beta iota. exists b3. split; [reflexivity|]. split; [exact L3|exact O3]. }
  clear E1 E2 b1 L1 D1 O1 SZ Sg HS.
  unfold print_decoration. unfold assert_. destruct (Nat.leb_spec (Nat.max w dec) (L - d)) as [_|C]; [|lia]. fold w.
  rewrite Wp, decorate_eq. cbv zeta. fold S X w g. fold dec.
  assert (SX : (if neg then [45%N] else if f_sign f then [43%N] else []) ++
    (if f_pre_hex f then [48%N; if f_lower f then 120%N else 88%N] else if f_pre_binary f then [48%N; if f_lower f then 98%N else 66%N] else if f_pre_octal f then [48%N] else []) = S ++ X) by reflexivity.
  rewrite SX.
  assert (Fin : forall b3 q, List.length b3 = L -> q + List.length (S ++ X) <= L ->
    exists b4, store b3 q (S ++ X) = Some b4 /\ List.length b4 = L /\ seg b4 q (S ++ X) /\ (forall q' r, seg b3 q' r -> q' + List.length r <= q \/ q + List.length (S ++ X) <= q' -> seg b4 q' r)).
  { intros b3 q L3 Hq. destruct (store_some b3 q (S ++ X)) as [b4 [E4 [L4 R4]]]; [lia|]. exists b4. split; [exact E4|]. split; [lia|exact R4]. }
  assert (LSX : List.length (S ++ X) = List.length S + List.length X) by apply app_length.
  assert (D0 : forall q, q = d + dp -> seg b2 q digits) by (intros q ->; exact D2).
  destruct (Nat.ltb_spec 0 w) as [W0|W0]; cbn [andb].
  2:{ (* no width *)
    destruct (Nat.leb_spec g dec) as [_|C]; [|unfold dec in C; lia]. cbv beta iota.
    destruct (Fin b2 d L2) as [b4 [E4 [L4 [S4 K4]]]]; [rewrite LSX; unfold dec in *; lia|].
    exists b4. split; [exact E4|]. split; [exact L4|].
    assert (w = 0) by lia. replace (w - dec) with 0 by lia. cbn [repeat]. rewrite app_nil_r.
    assert (DPe : dp = List.length S + List.length X).
    { unfold dp. destruct (Nat.ltb_spec 0 w) as [C|_]; [lia|]. cbn [negb orb]. unfold dec. lia. }
    assert (G : seg b4 0 (out ++ (S ++ X) ++ digits)).
    { apply seg_app. split; [apply K4; [exact O2|left; fold d; lia]|]. fold d. apply seg_app. split; [exact S4|].
      apply K4; [apply D0; rewrite LSX; lia|right; rewrite LSX; lia]. }
    cbn [app]. rewrite <- app_assoc in G. destruct (f_left f), (f_spaces f); exact G. }
  destruct (Nat.leb_spec (Nat.max w dec) w) as [W1|W1]; cbn [andb].
  - destruct (f_left f) eqn:FL; cbn [negb].
    + (* left *)
      destruct (Nat.leb_spec dec w) as [_|C]; [|lia].
      destruct (store_some b2 (d + dec) (repeat 32%N (w - dec))) as [b3 [E3 [L3 [S3 K3]]]]; [rewrite repeat_length; lia|].
      rewrite E3. cbv beta iota. destruct (Fin b3 d) as [b4 [E4 [L4 [S4 K4]]]]; [lia|rewrite LSX; unfold dec in *; lia|].
      exists b4. split; [exact E4|]. split; [exact L4|].
      assert (DPe : dp = List.length S + List.length X).
      { unfold dp. destruct (Nat.ltb_spec 0 w) as [_|C]; [|lia]. cbn [negb orb]. unfold dec. lia. }
      assert (G : seg b4 0 (out ++ (S ++ X) ++ digits ++ repeat 32%N (w - dec))).
      { apply seg_app. split; [apply K4; [apply K3; [exact O2|left; fold d; lia]|left; fold d; lia]|]. fold d.
        apply seg_app. split; [exact S4|]. apply seg_app. split.
        - apply K4; [apply K3; [apply D0; rewrite LSX; lia|left; fold g; rewrite LSX; unfold dec; lia]|right; rewrite LSX; lia].
        - fold g. rewrite LSX. match goal with |- seg _ ?q _ => replace q with (d + dec) by (unfold dec; lia) end.
          apply K4; [exact S3|right; rewrite LSX; unfold dec; lia]. }
      cbn [app]. rewrite <- app_assoc in G. exact G.
    + destruct (Nat.leb_spec (w - dec) (L - d)) as [_|C]; [|lia].
      assert (DPe : dp = w - g). { unfold dp. destruct (Nat.ltb_spec 0 w) as [_|C]; [|lia]. cbn [negb orb]. lia. }
      assert (DE : dec = List.length S + List.length X + g) by reflexivity. clearbody dec.
      destruct (f_spaces f).
      * destruct (store_some b2 d (repeat 32%N (w - dec))) as [b3 [E3 [L3 [S3 K3]]]]; [rewrite repeat_length; lia|].
        rewrite E3. cbv beta iota. destruct (Fin b3 (d + (w - dec))) as [b4 [E4 [L4 [S4 K4]]]]; [lia|rewrite LSX; lia|].
        exists b4. split; [exact E4|]. split; [exact L4|]. rewrite repeat_length in *.
        assert (G : seg b4 0 (out ++ repeat 32%N (w - dec) ++ (S ++ X) ++ digits)).
        { apply seg_app. split; [apply K4; [apply K3; [exact O2|left; fold d; lia]|left; fold d; lia]|]. fold d.
          apply seg_app. split; [apply K4; [exact S3|left; rewrite repeat_length; lia]|]. rewrite repeat_length.
          apply seg_app. split; [exact S4|]. apply K4; [apply K3; [apply D0; rewrite LSX; lia|right; rewrite LSX; lia]|right; rewrite LSX; lia]. }
        rewrite <- app_assoc in G. exact G.
      * destruct (Nat.leb_spec g dec) as [_|C]; [|lia].
        destruct (store_some b2 (d + (dec - g)) (repeat 48%N (w - dec))) as [b3 [E3 [L3 [S3 K3]]]]; [rewrite repeat_length; lia|].
        rewrite E3. cbv beta iota. destruct (Fin b3 d) as [b4 [E4 [L4 [S4 K4]]]]; [lia|rewrite LSX; lia|].
        exists b4. split; [exact E4|]. split; [exact L4|]. rewrite repeat_length in *.
        assert (G : seg b4 0 (out ++ (S ++ X) ++ repeat 48%N (w - dec) ++ digits)).
        { apply seg_app. split; [apply K4; [apply K3; [exact O2|left; fold d; lia]|left; fold d; lia]|]. fold d.
          apply seg_app. split; [exact S4|]. rewrite LSX. apply seg_app. split.
          - apply K4; [match goal with |- seg _ ?q _ => replace q with (d + (dec - g)) by lia end; exact S3|right; rewrite LSX; lia].
          - rewrite repeat_length. apply K4; [apply K3; [apply D0; lia|right; lia]|right; rewrite LSX; lia]. }
        rewrite <- app_assoc in G. exact G.
  - (* wider than the width *)
    destruct (Nat.leb_spec g dec) as [_|C]; [|unfold dec in C; lia]. cbv beta iota.
    destruct (Fin b2 d L2) as [b4 [E4 [L4 [S4 K4]]]]; [rewrite LSX; unfold dec in *; lia|].
    exists b4. split; [exact E4|]. split; [exact L4|].
    replace (w - dec) with 0 by lia. cbn [repeat]. rewrite app_nil_r.
    assert (DPe : dp = List.length S + List.length X).
    { assert (DE : dec = List.length S + List.length X + g) by reflexivity. clearbody dec. unfold dp. cbn [negb orb]. destruct (f_left f); lia. }
    assert (G : seg b4 0 (out ++ (S ++ X) ++ digits)).
    { apply seg_app. split; [apply K4; [exact O2|left; fold d; lia]|]. fold d. apply seg_app. split; [exact S4|].
      apply K4; [apply D0; rewrite LSX; lia|right; rewrite LSX; lia]. }
    cbn [app]. rewrite <- app_assoc in G. destruct (f_left f), (f_spaces f); exact G.
Qed.

(** ** Texts *)
Lemma pad_unpadded f s : unpadded f (List.length s) -> pad f s = s.
Proof.
  unfold unpadded, pad, fill. intros H. replace (Z.to_nat (f_width f) - List.length s) with 0 by lia. cbn [repeat]. rewrite app_nil_r. destruct (f_left f); reflexivity.
Qed.
Lemma print_string_fits f s b out : unpadded f (List.length s) -> seg b 0 out -> List.length out + List.length s <= List.length b ->
  exists b', print_string f s b (List.length out) (List.length b - List.length out) = Some (Result (List.length s) OK, b')
  /\ List.length b' = List.length b /\ seg b' 0 (out ++ s).
Proof.
  intros U Ho HL. unfold print_string. unfold unpadded in U.
  destruct (Nat.ltb_spec (List.length b - List.length out) (List.length s)) as [C|_]; [lia|].
  destruct (Nat.ltb_spec (List.length s) (Z.to_nat (f_width f))) as [C|_]; [lia|]. rewrite andb_false_r.
  destruct (store_some b (List.length out) s HL) as [b1 [E1 [L1 [S1 K1]]]]. rewrite E1. cbv beta iota.
  exists b1. split; [reflexivity|]. split; [exact L1|]. apply seg_app. split; [apply K1; [exact Ho|left; lia]|exact S1].
Qed.
Lemma print_string_short f s b p m : m < List.length s -> print_string f s b p m = Some (Result m EOVERFLOW, b).
Proof. intros H. unfold print_string. destruct (Nat.ltb_spec m (List.length s)) as [_|C]; [reflexivity|lia]. Qed.

(** A number without decoration that does not fit *)
Lemma print_number_short f raw b out : bare f false -> raw <> [] -> seg b 0 out -> List.length out < List.length b -> List.length b <= List.length out + List.length raw ->
  exists b', print_number f false false raw b (List.length out) (List.length b - List.length out) = Some (Result (List.length raw) ERANGE, b')
  /\ List.length b' = List.length b /\ seg b' 0 out.
Proof.
  intros [_ [FS _]] NR Ho H1 H2. unfold print_number. destruct (Nat.eqb_spec (List.length b - List.length out) 0) as [C|_]; [lia|].
  rewrite FS. cbn [orb]. rewrite Nat.add_0_r, Nat.sub_0_r. unfold print_text, snprintf. unfold assert_.
  destruct (Nat.ltb_spec 0 (List.length b - List.length out)) as [_|C]; [|lia].
  destruct (store_some b (List.length out) (firstn (List.length b - List.length out - 1) raw ++ [0%N])) as [b1 [E1 [L1 [_ K1]]]].
  { rewrite app_length, firstn_length. cbn [List.length]. lia. }
  rewrite E1. cbv beta iota. destruct (Nat.leb_spec (List.length b - List.length out) (List.length raw)) as [_|C]; [|lia].
  cbv beta iota. unfold move_and_decorate. cbn [r_ec]. exists b1. split; [reflexivity|]. split; [exact L1|]. apply K1; [exact Ho|left; lia].
Qed.
Lemma print_number_none f neg strip raw b p : print_number f neg strip raw b p 0 = Some (Result 0 EOVERFLOW, b).
Proof. reflexivity. Qed.
Lemma bare_decorate f raw : bare f false -> raw <> [] -> decorate f false raw = raw.
Proof.
  intros [_ [FS [FH [FB [FO FW]]]]] NR. rewrite decorate_eq. unfold nil_or_sign, radix_prefix. rewrite FS, FH, FB, FO. cbn [List.length app Nat.add].
  assert (0 < List.length raw) by (destruct raw; [congruence|cbn [List.length]; lia]).
  replace (Z.to_nat (f_width f) - List.length raw) with 0 by lia. cbn [repeat app]. rewrite app_nil_r. destruct (f_left f), (f_spaces f); reflexivity.
Qed.
Lemma bare_prefix_ok f neg : bare f neg -> prefix_ok f.
Proof. intros [_ [_ [FH [FB [FO _]]]]]. split; intros H; congruence. Qed.
