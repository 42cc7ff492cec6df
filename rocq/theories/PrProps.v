(** Formatted printing: C146 to C151. *)
From Coq Require Import Arith NArith ZArith Bool Lia Ascii String List.
From Verif Require Import Base DigitsSpec PrModel PrSpec PrProofs PrParse PrWalk PrModes PrSafe.
Import ListNotations.
Local Open Scope nat_scope.

(** A format string [unparse ps] that stands for [text] with these arguments; [ok]: which uses of values are covered *)
Definition stands_for (ok : value -> format -> Prop) (initial : format) (args : list value) (ps : list piece) (text : list N) : Prop :=
  List.length args <= 16 /\ Forall piece_ok ps /\ order_ok false ps = true /\ renders initial args 0 ps text /\ uses initial args ok 0 ps.
(** ... without the restrictions *)
Definition means (initial : format) (args : list value) (ps : list piece) (text : list N) : Prop :=
  List.length args <= 16 /\ Forall piece_ok ps /\ renders initial args 0 ps text.

Lemma never_app : forall t a b, FailA t a -> FailA t (a ++ b). Proof. intros t a b H. exact H. Qed.
Lemma limitA_app cap : forall a b, limitA cap (a ++ b) -> limitA cap a. Proof. unfold limitA. intros a b H. rewrite app_length in H. lia. Qed.
Lemma start_holds b : holds (start b) []. Proof. split; [split; [cbn; lia|intros i Hi; cbn in Hi; lia]|]. split; [reflexivity|]. split; reflexivity. Qed.
Lemma seg_prefix b text : seg b 0 text -> firstn (List.length text) b = text.
Proof. apply seg_firstn. Qed.

(** The tests: format strings as they are written *)
Definition txt (s : string) : list N := bytes_of s.
Definition empty_spec : spec := Spec [] [] None None.
Ltac uses_ := repeat first [apply U_nil | apply U_text; [exact I|] | eapply U_next; [reflexivity|cbn [nth_error]|] | eapply U_given; [reflexivity| |]].

Ltac ok_ := unfold measurable, plain, printable, base_ok, prefix_ok, bare, unpadded; cbn; intuition (try discriminate; try lia).

(** ** C146 *)
Theorem C146_snprint_renders_partial : forall b initial args ps text, stands_for printable initial args ps text -> List.length text < List.length b ->
  exists d, snprint b (unparse ps) initial args = Some (Z.of_nat (List.length text), d) /\ List.length d = List.length b
    /\ firstn (List.length text + 1) d = text ++ [0%N].
Proof.
  intros b initial args ps text [few [P [O [R U]]]] Hlen.
  destruct (walk_all None 1 (InvA (List.length b)) FailA printable (limitA (List.length b)) (limitA_app _) never_app
    (litA (List.length b) None) (fun t out v f text => argA (List.length b) None 0 t out v f text) initial args few ps (S (List.length (unparse ps))) (start b) text P O R U) as [t [E [[[S [Hu [Hn He]]] L]|[]]]].
  { split; [apply start_holds|reflexivity]. } { exact Hlen. } { lia. }
  unfold snprint. rewrite E. cbv beta iota. rewrite He. unfold remaining. rewrite Hu, L. destruct (Nat.ltb_spec 0 (List.length b - List.length text)) as [_|C]; [|lia].
  destruct (store_some (data t) (List.length text) [0%N]) as [d [E1 [L1 [S1 K1]]]]; [cbn [List.length]; lia|]. rewrite E1. cbv beta iota.
  exists d. split; [reflexivity|]. split; [lia|].
  assert (S2 : seg d 0 (text ++ [0%N])) by (apply seg_app; split; [apply K1; [exact S|left; lia]|exact S1]).
  apply seg_prefix in S2. rewrite app_length in S2. exact S2.
Qed.
Definition ps1 : list piece := [Lit (txt "n="); Hole None (Some (Spec [Plus; Zero] [5%N] None None)); LBrace; Hole (Some [0%N]) (Some (Spec [Pound] [] None (Some Sx))); RBrace].
Definition args1 : list value := [V_i32 255; V_i32 (-42)].
Lemma renders1 : renders default_format args1 0 ps1 (txt "n=+0255{0xff}").
Proof.
  change (txt "n=+0255{0xff}") with (txt "n=" ++ txt "+0255" ++ bytes_of "{" ++ txt "0xff" ++ bytes_of "}" ++ []).
  apply R_lit. eapply R_next; [reflexivity| |].
  { exists [2; 5; 5]%N. split; [|reflexivity]. unfold canonical. vm_compute. repeat apply conj; try reflexivity; try congruence. repeat constructor. }
  apply R_lbrace. eapply R_given; [reflexivity| |].
  { exists [15; 15]%N. split; [|reflexivity]. unfold canonical. vm_compute. repeat apply conj; try reflexivity; try congruence. repeat constructor. }
  apply R_rbrace. constructor.
Qed.
Lemma uses1 : stands_for printable default_format args1 ps1 (txt "n=+0255{0xff}").
Proof.
  split; [cbn; lia|]. split.
  { repeat constructor; cbn; try lia; try (intros H; repeat (destruct H as [H|H]; try discriminate)); try congruence; try contradiction. }
  split; [reflexivity|]. split; [exact renders1|].
  uses_; ok_.
Qed.
Example C146_example : exists d, snprint (repeat 1%N 14) (txt "n={:+05}{{{0:#x}}}") default_format args1 = Some (13%Z, d) /\ firstn 14 d = txt "n=+0255{0xff}" ++ [0%N].
Proof.
  destruct (C146_snprint_renders_partial (repeat 1%N 14) default_format args1 ps1 _ uses1) as [d [E [_ F]]]; [cbn; lia|].
  exists d. split; [exact E|exact F].
Qed.
(** Padding of a text is not counted and overwritten by what follows. *)
Definition pad5 : list piece := [Hole None (Some (Spec [] [5%N] None None)); Lit (txt "|")].
Theorem C146_padding_refuted : exists b args text d, means default_format args pad5 text /\ List.length text < List.length b
  /\ snprint b (unparse pad5) default_format args = Some (3%Z, d) /\ text = txt "   ab|" /\ firstn 4 d = txt "  |" ++ [0%N].
Proof.
  exists (repeat 1%N 20), [V_string (txt "ab")], (txt "   ab|"). eexists. split.
  { split; [cbn; lia|]. split; [repeat constructor; cbn; try lia; intros H; repeat (destruct H as [H|H]; try discriminate); contradiction|].
    change (txt "   ab|") with (txt "   ab" ++ txt "|" ++ []). eapply R_next; [reflexivity|reflexivity|]. apply R_lit. constructor. }
  split; [cbn; lia|]. split; [vm_compute; reflexivity|]. split; reflexivity.
Qed.
(** "}}" before a placeholder is undefined behaviour: None *)
Theorem C146_brace_refuted : exists b args ps text, means default_format args ps text /\ List.length text < List.length b
  /\ unparse ps = txt "}}{}" /\ text = txt "}7" /\ snprint b (unparse ps) default_format args = None.
Proof.
  exists (repeat 1%N 20), [V_u32 7], [RBrace; Hole None None], (txt "}7"). split.
  { split; [cbn; lia|]. split; [repeat constructor|].
    change (txt "}7") with (bytes_of "}" ++ txt "7" ++ []). apply R_rbrace. eapply R_next; [reflexivity| |constructor]. exists [7%N]. split; [|reflexivity]. vm_compute. repeat apply conj; try reflexivity; try congruence. repeat constructor. }
  split; [cbn; lia|]. split; [reflexivity|]. split; [reflexivity|]. vm_compute. reflexivity.
Qed.
(** The least integer is undefined behaviour; binary output comes out in base ten. *)
Theorem C146_values_refuted :
  (exists b, List.length b = 20 /\ snprint b (txt "{}") default_format [V_i32 (-2147483648)] = None)
  /\ exists b d, List.length b = 20 /\ snprint b (txt "{:b}") default_format [V_u32 5] = Some (1%Z, d) /\ firstn 2 d = txt "5" ++ [0%N]
     /\ shows (format_of (Spec [] [] None (Some Sb))) (V_u32 5) (txt "101").
Proof.
  split.
  - exists (repeat 1%N 20). split; [reflexivity|]. vm_compute. reflexivity.
  - exists (repeat 1%N 20). eexists. split; [reflexivity|]. split; [vm_compute; reflexivity|]. split; [reflexivity|]. exists [1; 0; 1]%N. split; [|reflexivity]. vm_compute. repeat apply conj; try reflexivity; try congruence. repeat constructor.
Qed.

(** ** C147 *)
Theorem C147_necessary_size_partial : forall b initial args ps text, stands_for measurable initial args ps text ->
  exists d, snprint b (unparse ps) initial args = Some (Z.of_nat (List.length text), d) /\ List.length d = List.length b
    /\ (List.length text < List.length b -> firstn (List.length text + 1) d = text ++ [0%N]).
Proof.
  intros b initial args ps text [few [P [O [R U]]]].
  destruct (walk_all None 1 (InvB (List.length b)) FailA measurable limitB (fun _ _ _ => I) never_app
    (litB (List.length b)) (argB (List.length b)) initial args few ps (S (List.length (unparse ps))) (start b) text P O R U) as [t [E [[L [Hle [Hn HE]]]|[]]]].
  { apply InvB_holds; [apply start_holds|reflexivity]. } { exact I. } { lia. }
  unfold snprint. rewrite E. cbv beta iota. destruct HE as [[He [S Hu]]|[He Hc]]; rewrite He.
  - unfold remaining. rewrite Hu, L. destruct (Nat.ltb_spec 0 (List.length b - List.length text)) as [C|C].
    + destruct (store_some (data t) (List.length text) [0%N]) as [d [E1 [L1 [S1 K1]]]]; [cbn [List.length]; lia|]. rewrite E1. cbv beta iota.
      exists d. split; [reflexivity|]. split; [lia|]. intros _.
      assert (S2 : seg d 0 (text ++ [0%N])) by (apply seg_app; split; [apply K1; [exact S|left; lia]|exact S1]).
      apply seg_prefix in S2. rewrite app_length in S2. exact S2.
    + destruct (Nat.ltb_spec 0 (List.length b)) as [D|D].
      * destruct (store_some (data t) (List.length b - 1) [0%N]) as [d [E1 [L1 _]]]; [cbn [List.length]; lia|]. rewrite E1. cbv beta iota. exists d. split; [reflexivity|]. split; [lia|]. lia.
      * exists (data t). split; [reflexivity|]. split; [exact L|lia].
  - rewrite Hn. exists (data t). split; [reflexivity|]. split; [exact L|lia].
Qed.
Definition ps2 : list piece := [Hole None None; Lit (txt ": "); Hole None (Some (Spec [] [] None (Some Sx))); LBrace; Hole (Some [0%N]) None; RBrace].
Definition args2 : list value := [V_string (txt "key"); V_u64 48879].
Lemma means2 : stands_for measurable default_format args2 ps2 (txt "key: beef{key}").
Proof.
  split; [cbn; lia|]. split.
  { repeat constructor; cbn; try lia; try (intros H; repeat (destruct H as [H|H]; try discriminate)); try congruence; try contradiction. }
  split; [reflexivity|]. split.
  { change (txt "key: beef{key}") with (txt "key" ++ txt ": " ++ txt "beef" ++ bytes_of "{" ++ txt "key" ++ bytes_of "}" ++ []).
    eapply R_next; [reflexivity|reflexivity|]. apply R_lit. eapply R_next; [reflexivity| |].
    { exists [11; 14; 14; 15]%N. split; [|reflexivity]. vm_compute. repeat apply conj; try reflexivity; try congruence. repeat constructor. }
    apply R_lbrace. eapply R_given; [reflexivity|reflexivity|]. apply R_rbrace. constructor. }
  uses_; ok_.
Qed.
Example C147_example : exists d, snprint (repeat 1%N 6) (txt "{}: {:x}{{{0}}}") default_format args2 = Some (14%Z, d) /\ List.length d = 6.
Proof. destruct (C147_necessary_size_partial (repeat 1%N 6) default_format args2 ps2 _ means2) as [d [E [L _]]]. exists d. split; [exact E|exact L]. Qed.
Theorem C147_negative_refuted : exists b ps text d, means default_format [V_i32 (-123)] ps text /\ unparse ps = txt "{}" /\ List.length text = 4
  /\ snprint b (unparse ps) default_format [V_i32 (-123)] = Some (3%Z, d).
Proof.
  exists (repeat 1%N 2), [Hole None None], (txt "-123"). eexists. split.
  { split; [cbn; lia|]. split; [repeat constructor|]. change (txt "-123") with (txt "-123" ++ []). eapply R_next; [reflexivity| |constructor].
    exists [1; 2; 3]%N. split; [|reflexivity]. vm_compute. repeat apply conj; try reflexivity; try congruence. repeat constructor. }
  split; [reflexivity|]. split; [reflexivity|]. vm_compute. reflexivity.
Qed.
(** A text that does not fit is not cut off: its beginning may be missing, and there is no final zero (the documentation says not to read it). *)
Example C147_truncation : exists b d, snprint b (txt "abcdef{}xyz{}") default_format [V_bool true; V_u32 12] = Some (15%Z, d)
  /\ List.length b = 3 /\ d = txt "xyz".
Proof. exists (repeat 1%N 3). eexists. split; [vm_compute; reflexivity|]. split; reflexivity. Qed.

(** ** C148 *)
(** Whatever the format string is (no ":", no "}}"), however small the buffer: only the buffer is written. *)
Theorem C148_inside_buffer_partial : forall b s initial args, List.length args <= 16 -> (forall v, In v args -> plain v initial) ->
  ~ In 58%N s -> (forall x y, s <> x ++ 125%N :: 125%N :: y) ->
  exists r d, snprint b s initial args = Some (r, d) /\ List.length d = List.length b.
Proof.
  intros b s initial args few PL NC ND.
  destruct (impl_safe initial args few PL (List.length b) (S (List.length s)) s 0 (start b) ND NC) as [t [E [L Hle]]].
  { split; [reflexivity|]. split; [cbn; lia|left; reflexivity]. } { lia. }
  change (N.of_nat 0 * 4)%N with 0%N in E. rewrite N.shiftr_0_r in E. change (N.of_nat 0) with 0%N in E.
  unfold snprint. rewrite E. cbv beta iota. destruct (ec t).
  - unfold remaining. destruct (Nat.ltb_spec 0 (List.length (data t) - used t)) as [C|C].
    + destruct (store_some (data t) (used t) [0%N]) as [d [E1 [L1 _]]]; [cbn [List.length]; lia|]. rewrite E1. cbv beta iota. eexists _, d. split; [reflexivity|lia].
    + destruct (Nat.ltb_spec 0 (List.length b)) as [D|D].
      * destruct (store_some (data t) (List.length b - 1) [0%N]) as [d [E1 [L1 _]]]; [cbn [List.length]; lia|]. rewrite E1. cbv beta iota. eexists _, d. split; [reflexivity|lia].
      * eexists _, _. split; [reflexivity|exact L].
  - eexists _, _. split; [reflexivity|exact L].
  - eexists _, _. split; [reflexivity|exact L].
  - eexists _, _. split; [reflexivity|exact L].
  - eexists _, _. split; [reflexivity|exact L].
Qed.
Example C148_example : exists r d, snprint (repeat 1%N 4) (txt "{}{9}{{ {oops} } {") default_format [V_u32 12345; V_string (txt "abc")] = Some (r, d) /\ List.length d = 4.
Proof.
  apply (C148_inside_buffer_partial (repeat 1%N 4)).
  - cbn. lia.
  - intros v [<-|[<-|[]]]; ok_.
  - intros H. repeat (destruct H as [H|H]; [discriminate|]). exact H.
  - intros x y H. do 20 (destruct x as [|? x]; [vm_compute in H; discriminate|]; cbn [app] in H; try discriminate; injection H as _ H).
Qed.
Theorem C148_padding_refuted : exists b d, List.length b = 10 /\ snprint (b ++ b ++ b) (txt "{:20}") default_format [V_u32 5] = Some (20%Z, d) /\ snprint b (txt "{:20}") default_format [V_u32 5] = None.
Proof. exists (repeat 1%N 10). eexists. split; [reflexivity|]. split; vm_compute; reflexivity. Qed.

(** ** C149 *)
Lemma refused_result b s initial args : (exists t, print_impl None 1 (S (List.length s)) initial args s 0 (type_flags args) (start b) = Some t /\ (ec t = EINVAL \/ False)) ->
  exists d, snprint b s initial args = Some ((-1)%Z, d).
Proof. intros [t [E [H|[]]]]. unfold snprint. rewrite E. cbv beta iota. rewrite H. eexists. reflexivity. Qed.
Lemma malformed b initial args ps text tail : stands_for measurable initial args ps text ->
  (forall sg fuel t out, Forall text_piece sg -> existsb is_rbrace sg = pend false ps -> InvB (List.length b) t out ->
    refused FailA (print_impl None 1 (S fuel) initial args (unparse sg ++ tail) (N.of_nat (next_index 0 ps)) (N.shiftr (type_flags args) (N.of_nat (next_index 0 ps) * 4)) t) (out ++ out_of sg)) ->
  exists d, snprint b (unparse ps ++ tail) initial args = Some ((-1)%Z, d).
Proof.
  intros [few [P [O [R U]]]] K. apply refused_result.
  destruct (walk None 1 (InvB (List.length b)) FailA measurable limitB (fun _ _ _ => I) never_app (litB (List.length b)) (argB (List.length b)) initial args few tail ps [] (S (List.length (unparse ps ++ tail))) 0 (start b) [] text) as [[t [_ []]]|[sg [fuel [t [out [E [F [B [HI [_ Hf]]]]]]]]]].
  { constructor. } { exact P. } { exact O. } { exact R. } { exact U. } { apply InvB_holds; [apply start_holds|reflexivity]. } { exact I. } { cbn [unparse map concat app]. lia. }
  change (unparse [] ++ unparse ps ++ tail) with (unparse ps ++ tail) in E. change (N.of_nat 0 * 4)%N with 0%N in E. rewrite N.shiftr_0_r in E. change (N.of_nat 0) with 0%N in E.
  rewrite E. destruct fuel as [|fuel]; [lia|]. destruct (K sg fuel t out F B HI) as [t' [E2 H]]. exists t'. split; [exact E2|exact H].
Qed.
(** A closing brace alone, an opening brace that is not closed, a placeholder for an argument that does not exist *)
Theorem C149_lone_brace_partial : forall b initial args ps text tail, stands_for measurable initial args ps text -> hd 0%N tail <> 125%N ->
  exists d, snprint b (unparse ps ++ txt "}" ++ tail) initial args = Some ((-1)%Z, d).
Proof.
  intros b initial args ps text tail M H. apply (malformed b initial args ps text _ M). intros sg fuel t out F _ HI.
  destruct (bad_close None 1 (InvB (List.length b)) FailA limitB (fun _ _ _ => I) never_app (litB (List.length b)) initial args (proj1 M) sg tail fuel (next_index 0 ps) t out F H HI I) as [t' [E Q]].
  exists t'. split; [exact E|]. destruct Q as [Q|[]]. left. exact Q.
Qed.
Theorem C149_unclosed_partial : forall b initial args ps text tail, stands_for measurable initial args ps text -> pend false ps = false ->
  hd 0%N tail <> 123%N -> ~ In 125%N tail -> exists d, snprint b (unparse ps ++ txt "{" ++ tail) initial args = Some ((-1)%Z, d).
Proof.
  intros b initial args ps text tail M PD H1 H2. apply (malformed b initial args ps text _ M). intros sg fuel t out F Q HI. rewrite PD in Q.
  exact (bad_open None 1 (InvB (List.length b)) FailA limitB (fun _ _ _ => I) never_app (litB (List.length b)) initial args (proj1 M) sg tail fuel (next_index 0 ps) t out F Q H1 H2 HI I).
Qed.
Theorem C149_no_argument_partial : forall b initial args ps text index x tail, stands_for measurable initial args ps text -> pend false ps = false ->
  piece_ok (Hole index x) -> nth_error args (match index with Some ds => N.to_nat (number 10 ds) | None => next_index 0 ps end) = None ->
  exists d, snprint b (unparse ps ++ piece_text (Hole index x) ++ tail) initial args = Some ((-1)%Z, d).
Proof.
  intros b initial args ps text index x tail M PD P N. apply (malformed b initial args ps text _ M). intros sg fuel t out F Q HI. rewrite PD in Q.
  exact (bad_index None 1 (InvB (List.length b)) FailA limitB (fun _ _ _ => I) never_app (litB (List.length b)) initial args (proj1 M) sg index x tail fuel (next_index 0 ps) t out F Q P N HI I).
Qed.
Example C149_example : (exists d, snprint (repeat 1%N 6) (txt "{}: {:x}{{{0}}}} no") default_format args2 = Some ((-1)%Z, d)).
Proof. apply (C149_lone_brace_partial (repeat 1%N 6) default_format args2 ps2 _ (txt " no") means2). discriminate. Qed.
Definition ps3 : list piece := [Hole None None; Lit (txt ", ")].
Lemma means3 : stands_for measurable default_format args2 ps3 (txt "key, ").
Proof.
  split; [cbn; lia|]. split; [repeat constructor; cbn; try (intros H; repeat (destruct H as [H|H]; try discriminate)); try contradiction|].
  split; [reflexivity|]. split.
  { change (txt "key, ") with (txt "key" ++ txt ", " ++ []). eapply R_next; [reflexivity|reflexivity|]. apply R_lit. constructor. }
  uses_; ok_.
Qed.
Example C149_example2 : (exists d, snprint (repeat 1%N 6) (txt "{}, {0") default_format args2 = Some ((-1)%Z, d)) /\ (exists d, snprint (repeat 1%N 60) (txt "{}, {2:x}") default_format args2 = Some ((-1)%Z, d)).
Proof.
  split.
  - apply (C149_unclosed_partial (repeat 1%N 6) default_format args2 ps3 _ (txt "0") means3); [reflexivity|discriminate|]. intros [H|[]]. discriminate.
  - apply (C149_no_argument_partial (repeat 1%N 60) default_format args2 ps3 _ (Some [2%N]) (Some (Spec [] [] None (Some Sx))) [] means3); [reflexivity| |reflexivity].
    split; [split; [discriminate|split; [repeat constructor|reflexivity]]|]. split; [repeat constructor|]. split; [discriminate|]. split; [reflexivity|exact I].
Qed.
(** What is inside of a placeholder is not checked: "{xyz}" is "{}", and 2^32 is the index 0. *)
Theorem C149_inside_refuted : exists b d1 d2, List.length b = 20 /\ snprint b (txt "{xyz}") default_format [V_u32 5] = Some (1%Z, d1)
  /\ snprint b (txt "{4294967296}") default_format [V_u32 5] = Some (1%Z, d2).
Proof. exists (repeat 1%N 20). eexists _, _. split; [reflexivity|]. split; vm_compute; reflexivity. Qed.

(** ** C150 *)
Definition sound (a : nat -> option nat) : Prop := forall n c, a n = Some c -> n <= c.
Lemma growing a b initial args ps text : sound a -> stands_for plain initial args ps text -> forall rounds, 4 <= rounds ->
  exists t, print_impl (Some a) rounds (S (List.length (unparse ps))) initial args (unparse ps) 0 (type_flags args) (start b) = Some t /\ (holds t text \/ FailC a t text).
Proof.
  intros SA [few [P [O [R U]]]] rounds Hr.
  apply (walk_all (Some a) rounds holds (FailC a) plain limitC (fun _ _ _ => I) (FailC_app a) (litC a SA) (fun t out v f text => argC a SA rounds t out v f text Hr) initial args few ps (S (List.length (unparse ps))) (start b) text P O R U); [apply start_holds|exact I|lia].
Qed.
Theorem C150_print_partial : forall a initial args ps text, sound a -> stands_for plain initial args ps text -> forall rounds, 4 <= rounds ->
  exists out e, fprint a rounds (unparse ps) initial args = Some (out, e)
  /\ ((e = OK /\ out = text) \/ (e = ENOMEM /\ (exists n, a n = None) /\ exists rest, text = out ++ rest)).
Proof.
  intros a initial args ps text SA M rounds Hr. unfold fprint. destruct (growing a (repeat 205%N 200) initial args ps text SA M rounds Hr) as [t [E H]]. rewrite E. cbv beta iota.
  eexists _, _. split; [reflexivity|]. destruct H as [[S [Hu [_ He]]]|[He [Q [pre [post [-> [S Hu]]]]]]].
  - left. split; [exact He|]. rewrite Hu. apply seg_prefix. exact S.
  - right. split; [exact He|]. split; [exact Q|]. exists post. rewrite Hu. rewrite (seg_prefix _ _ S). reflexivity.
Qed.
(** Texts that fit the buffer on the stack: with all decorations, and no memory is asked for *)
Theorem C150_short_partial : forall a initial args ps text, stands_for printable initial args ps text -> List.length text < 200 ->
  forall rounds, fprint a (S rounds) (unparse ps) initial args = Some (text, OK).
Proof.
  intros a initial args ps text [few [P [O [R U]]]] Hlen rounds.
  destruct (walk_all (Some a) (S rounds) (InvA 200) FailA printable (limitA 200) (limitA_app _) never_app
    (litA 200 (Some a)) (fun t out v f text => argA 200 (Some a) rounds t out v f text) initial args few ps (S (List.length (unparse ps))) (start (repeat 205%N 200)) text P O R U) as [t [E [[[S [Hu [Hn He]]] L]|[]]]].
  { split; [apply start_holds|reflexivity]. } { exact Hlen. } { lia. }
  unfold fprint. rewrite E. cbv beta iota. rewrite He, Hu, (seg_prefix _ _ S). reflexivity.
Qed.
Theorem C150_string_partial : forall a initial args ps text, sound a -> stands_for plain initial args ps text -> forall rounds, 4 <= rounds ->
  string_format a rounds (unparse ps) initial args = Some text
  \/ ((exists n, a n = None) /\ string_format a rounds (unparse ps) initial args = Some []).
Proof.
  intros a initial args ps text SA M rounds Hr. unfold string_format. destruct (growing a [] initial args ps text SA M rounds Hr) as [t [E H]]. rewrite E. cbv beta iota.
  destruct H as [[S [Hu [_ He]]]|[He [Q _]]]; rewrite He.
  - left. rewrite Hu, (seg_prefix _ _ S). reflexivity.
  - right. split; [exact Q|reflexivity].
Qed.
Lemma measurable_plain initial args ps text : stands_for measurable initial args ps text -> stands_for plain initial args ps text.
Proof.
  intros [F [P [O [R U]]]]. split; [exact F|]. split; [exact P|]. split; [exact O|]. split; [exact R|]. clear - U. induction U; [constructor|constructor; assumption|eapply U_next|eapply U_given]; try eassumption; apply H0.
Qed.
Example C150_example : fprint (fun n => Some n) 4 (txt "{}: {:x}{{{0}}}") default_format args2 = Some (txt "key: beef{key}", OK).
Proof.
  destruct (C150_print_partial (fun n => Some n) default_format args2 ps2 _ (fun n c H => eq_ind n (fun x => n <= x) (le_n n) c (f_equal (fun o => match o with Some x => x | None => 0 end) H)) (measurable_plain _ _ _ _ means2) 4 (le_n 4)) as [out [e [E [[-> ->]|[_ [[n N] _]]]]]]; [exact E|discriminate].
Qed.
Example C150_example2 : fprint (fun _ => None) 1 (txt "n={:+05}{{{0:#x}}}") default_format args1 = Some (txt "n=+0255{0xff}", OK).
Proof. apply (C150_short_partial (fun _ => None) default_format args1 ps1 _ uses1). cbn. lia. Qed.
Example C150_example3 : string_format (fun n => Some (2 * n)) 4 (txt "{}: {:x}{{{0}}}") default_format args2 = Some (txt "key: beef{key}").
Proof.
  destruct (C150_string_partial (fun n => Some (2 * n)) default_format args2 ps2 (txt "key: beef{key}")) with (rounds := 4) as [E|[[n N] _]]; [intros n c H; assert (c = 2 * n) by congruence; lia|apply (measurable_plain _ _ _ _ means2)|lia|exact E|discriminate].
Qed.
(** Padding beyond the 200 bytes overruns them; a negative number with one byte left hits an assertion: None *)
Theorem C150_padding_refuted : forall rounds, fprint (fun n => Some n) (S rounds) (txt "{:300}") default_format [V_u32 5] = None.
Proof. intros rounds. vm_compute. reflexivity. Qed.
Theorem C150_negative_refuted : forall rounds, fprint (fun n => Some n) (S rounds) (txt "{}{}") default_format [V_view (repeat 65%N 199); V_i32 (-1)] = None.
Proof. intros rounds. vm_compute. reflexivity. Qed.

(** ** C151 *)
Theorem C151_parse_format_partial : forall x rest, spec_ok x -> parse_format (spec_text x ++ txt "}" ++ rest) (List.length (spec_text x)) = (format_of x, 0).
Proof. intros x rest H. apply (parse_format_spec x rest H). Qed.
Example C151_example : spec_ok (Spec [Minus; Pound] [1; 2]%N (Some [3%N]) (Some Sg)) /\ spec_text (Spec [Minus; Pound] [1; 2]%N (Some [3%N]) (Some Sg)) = txt "-#12.3g".
Proof. split; [|reflexivity]. split; [repeat constructor|]. split; [discriminate|]. split; [reflexivity|]. split; [repeat constructor|reflexivity]. Qed.
(** The length is not heeded where the text goes on with digits: the width is lost. *)
Theorem C151_length_refuted : exists x, spec_ok x /\ spec_text x = txt "5" /\ f_width (format_of x) = 5%Z
  /\ f_width (fst (parse_format (spec_text x ++ txt "7") (List.length (spec_text x)))) = 0%Z.
Proof. exists (Spec [] [5%N] None None). split; [repeat split; try discriminate; repeat constructor|]. split; [reflexivity|]. split; reflexivity. Qed.

Print Assumptions C146_snprint_renders_partial.
Print Assumptions C146_padding_refuted.
Print Assumptions C146_brace_refuted.
Print Assumptions C146_values_refuted.
Print Assumptions C147_necessary_size_partial.
Print Assumptions C147_negative_refuted.
Print Assumptions C148_inside_buffer_partial.
Print Assumptions C148_padding_refuted.
Print Assumptions C149_lone_brace_partial.
Print Assumptions C149_unclosed_partial.
Print Assumptions C149_no_argument_partial.
Print Assumptions C149_inside_refuted.
Print Assumptions C150_print_partial.
Print Assumptions C150_short_partial.
Print Assumptions C150_string_partial.
Print Assumptions C150_padding_refuted.
Print Assumptions C150_negative_refuted.
Print Assumptions C151_parse_format_partial.
Print Assumptions C151_length_refuted.
