(** Command lines: C105 to C109. *)
From Coq Require Import Arith NArith ZArith Bool Lia ZifyBool ZifyNat ZifyN Ascii String List.
From Verif Require Import Base DigitsSpec CliModel CliSpec.
From Verif Require CliProofs CliCounts.
Import ListNotations.
Local Open Scope N_scope.

Definition txt (s : string) : list N := bytes_of s.

(** The options of the examples: -v/--verbose (at most twice, counted in object 0), -o/--output with an
    argument (required), -l/--level with an optional number (object 1 := 7), -x/--execute and -r/--read,
    flags 4 and 8 of object 2. *)
Definition v_opt : opt := Opt (Some (txt "v")) (Some (txt "verbose")) ANone false 2 (Some 0%nat) None ONone None 0.
Definition o_opt : opt := Opt (Some (txt "o")) (Some (txt "output")) ARequired true 1 None None ONone None 0.
Definition l_opt : opt :=
  Opt (Some (txt "l")) (Some (txt "level")) AOptional false (-1) None (Some argument_uint) OAssign (Some 1%nat) 7.
Definition x_opt : opt := Opt (Some (txt "x")) (Some (txt "execute")) ANone false 1 None None OFlag (Some 2%nat) 4.
Definition r_opt : opt := Opt (Some (txt "r")) (Some (txt "read")) ANone false 1 None None OFlag (Some 2%nat) 8.
Definition table : list opt := [v_opt; o_opt; l_opt; x_opt; r_opt].

Ltac no_byte := let H := fresh in intro H; vm_compute in H; repeat (destruct H as [H|H]; [discriminate|]); exact H.

Lemma table_usable : usable table.
Proof.
  split; [vm_compute; lia|].
  repeat (constructor; [split; [eexists; split; [reflexivity|]; split; [no_byte|]; split; [no_byte|left; discriminate]
                               |split; [discriminate|intro; discriminate]]|]).
  constructor.
Qed.
Lemma table_counted m : m 0%nat = 0 -> counted table m.
Proof.
  intros M0 i o E G. destruct i as [|[|[|[|[|[|i]]]]]]; cbn in E; try discriminate;
    injection E as <-; cbn in G; try lia.
  split; [cbn; lia|]. exists 0%nat. split; [reflexivity|]. split; [exact M0|]. split.
  - intros [|[|[|[|[|[|j]]]]]] o' E' NE; cbn in E'; try discriminate; try congruence;
      injection E' as <-; discriminate.
  - intros [|[|[|[|[|[|j]]]]]] o' E' O'; cbn in E'; try discriminate; injection E' as <-; discriminate.
Qed.

Definition line1 : list (list N) :=
  [txt "input.txt"; txt "-xvv"; txt "--output=a.out"; txt "-l"; txt "3"; txt "--read"; txt "--level"; txt "--"; txt "-v"].
Definition line1_items : list item :=
  [Parsed None (Some (txt "input.txt")); Parsed (Some 3%nat) None; Parsed (Some 0%nat) None;
   Parsed (Some 0%nat) None; Parsed (Some 1%nat) (Some (txt "a.out"));
   Parsed (Some 2%nat) (Some (txt "3")); Parsed (Some 4%nat) None; Parsed (Some 2%nat) None].

Lemma line1_strings : c_strings line1.
Proof. unfold line1, c_strings. repeat (constructor; [no_byte|]). constructor. Qed.

Ltac is_first := split; [reflexivity|]; split; [first [reflexivity|eexists; reflexivity]|];
  intros [|[|[|[|[|j]]]]]; intros; try lia;
  match goal with X : nth_error table _ = Some _ |- _ => cbn in X; first [discriminate X|injection X as <-] end; discriminate.

Lemma line1_read lax : cmdline lax table true line1 line1_items [txt "-v"].
Proof.
  unfold line1_items.
  apply (C_word _ _ _ _ _ [_] (skipn 1 line1)); [apply W_free; [discriminate|reflexivity]|].
  apply (C_word _ _ _ _ _ [_; _; _] (skipn 2 line1)).
  - apply W_short; [discriminate|].
    apply (L_flag _ _ 120 (txt "vv") 3 x_opt); [is_first|reflexivity|right; vm_compute; split; discriminate|].
    apply (L_flag _ _ 118 (txt "v") 0 v_opt); [is_first|reflexivity|right; vm_compute; split; discriminate|].
    apply (L_last _ _ 118 0 v_opt); [is_first|discriminate|]. left. intro H. now apply H.
  - apply (C_word _ _ _ _ _ [_] (skipn 3 line1)).
    + apply (W_long_equal _ _ _ (txt "output") (txt "a.out") 1 o_opt); [right; right; vm_compute; split; discriminate|is_first|].
      split; [discriminate|discriminate].
    + apply (C_word _ _ _ _ _ [_] (skipn 5 line1)).
      * apply W_short; [discriminate|]. apply (L_next _ _ 108 (txt "3") 2 l_opt); [is_first|split; discriminate|discriminate].
      * apply (C_word _ _ _ _ _ [_] (skipn 6 line1)).
        -- apply (W_long _ _ _ (txt "read") 4 r_opt); [right; right; vm_compute; split; discriminate|is_first|discriminate|].
           left. intro H. now apply H.
        -- apply (C_word _ _ _ _ _ [_] (skipn 7 line1) []).
           ++ apply (W_long _ _ _ (txt "level") 2 l_opt); [right; right; vm_compute; split; discriminate|is_first|discriminate|].
              left. intro H. now apply H.
           ++ apply (C_stop _ _ _ []); cbn; unfold digit, letter; lia.
Qed.

(** C105.  A command line is accepted exactly if it has the form of the specification, where an option
    that is not followed by an argument in the same word must not be followed by a word that could be
    one, and then the options, arguments and remaining words are those of the specification.
    Missing: the usual rules (getopt_long) allow [-v input.txt] and [-o5 input.txt]. *)
Theorem C105_exact_partial : forall os free argv m es rest, usable os -> c_strings argv -> counted os m ->
  (exists p m', parse_line os free argv m = Some (es, p, m') /\ error p = false /\ remaining argv p = Some rest)
  <-> cmdline false os free argv es rest
      /\ Forall (valid_argument os) es
      /\ forall i o, nth_error os i = Some o -> amount_ok o (occurrences es i).
Proof.
  intros os free argv m es rest US CS CO.
  destruct (CliProofs.parse_verdict os free argv m (CliProofs.usable_table os US) (CliProofs.usable_names os US) CS)
    as (es0 & p0 & m0 & R & H).
  assert (CA := fun es => CliCounts.chain_amount os m CO es [] ltac:(intros; unfold amount_ok; cbn; lia)).
  split.
  - intros (p & m' & R' & ER & RM). rewrite R in R'. injection R' as <- <- <-.
    destruct H as [(_ & IV & CH & CM)|(ER' & _)]; [|congruence].
    assert (rest = skipn (current p0) argv).
    { unfold remaining in RM. destruct (Nat.leb (current p0) (length argv)); cbn in RM; congruence. }
    subst rest. split; [exact CM|]. now apply CA.
  - intros (CM & V & A). assert (CH : CliProofs.chain os m [] es) by (apply CA; auto).
    destruct H as [(ER & IV & CH0 & CM0)|(_ & NO)]; [|exfalso; eapply NO; eauto].
    destruct (CliCounts.cmdline_det _ _ _ _ _ _ (CliCounts.usable_names_ok os US) CM0 _ _ CM) as [-> <-].
    exists p0, m0. split; [exact R|]. split; [exact ER|]. unfold remaining.
    destruct (Nat.leb_spec (current p0) (length argv)) as [_|L]; [reflexivity|].
    pose proof (CliProofs.inv_cur _ _ _ _ _ _ IV). lia.
Qed.
Example C105_exact_case :
  usable table /\ c_strings line1 /\ counted table (fun _ => 0)
  /\ cmdline false table true line1 line1_items [txt "-v"] /\ Forall (valid_argument table) line1_items
  /\ exists p m', parse_line table true line1 (fun _ => 0) = Some (line1_items, p, m')
       /\ error p = false /\ remaining line1 p = Some [txt "-v"].
Proof.
  split; [exact table_usable|]. split; [exact line1_strings|]. split; [now apply table_counted|].
  split; [apply line1_read|]. split.
  - unfold line1_items. repeat (constructor; [intros i o a v PI E PA OV; cbn in PI, PA;
      first [discriminate PI|discriminate PA|
             injection PI as <-; injection PA as <-; cbn in E; injection E as <-; cbn in OV;
             first [discriminate OV|injection OV as <-; reflexivity]]|]).
    constructor.
  - eexists _, _. split; [vm_compute; reflexivity|]. split; reflexivity.
Qed.
(** A rejected line: the argument of -l is not a number. *)
Example C105_rejected_case : exists es p m',
  parse_line table true [txt "-lx"] (fun _ => 0) = Some (es, p, m') /\ error p = true.
Proof. eexists _, _, _. split; vm_compute; reflexivity. Qed.

(** Accepted lines mean what they mean by the usual rules, and those are unambiguous. *)
Theorem C105_usual : forall os free argv m es p m', usable os -> c_strings argv ->
  parse_line os free argv m = Some (es, p, m') -> error p = false ->
  exists rest, remaining argv p = Some rest /\ cmdline true os free argv es rest
    /\ forall es2 rest2, cmdline true os free argv es2 rest2 -> es2 = es /\ rest2 = rest.
Proof.
  intros os free argv m es p m' US CS R ER.
  destruct (CliProofs.parse_verdict os free argv m (CliProofs.usable_table os US) (CliProofs.usable_names os US) CS)
    as (es0 & p0 & m0 & R0 & H).
  rewrite R in R0. injection R0 as <- <- <-. destruct H as [(_ & IV & _ & CM)|(E & _)]; [|congruence].
  exists (skipn (current p) argv). split.
  - unfold remaining. destruct (Nat.leb_spec (current p) (length argv)) as [_|L]; [reflexivity|].
    pose proof (CliProofs.inv_cur _ _ _ _ _ _ IV). lia.
  - apply CliCounts.cmdline_usual in CM. split; [exact CM|]. intros es2 rest2 CM2.
    eapply CliCounts.cmdline_det; eauto using CliCounts.usable_names_ok.
Qed.
Example C105_usual_case : exists p m', parse_line table true line1 (fun _ => 0) = Some (line1_items, p, m') /\ error p = false.
Proof. eexists _, _. split; vm_compute; reflexivity. Qed.

(** An option without argument followed by a free argument is rejected. *)
Definition line_v : list (list N) := [txt "-v"; txt "input.txt"].
Theorem C105_flag_word_refuted :
  usable table /\ c_strings line_v /\ counted table (fun _ => 0)
  /\ (exists es, cmdline true table true line_v es [] /\ Forall (valid_argument table) es)
  /\ exists es p m', parse_line table true line_v (fun _ => 0) = Some (es, p, m') /\ error p = true.
Proof.
  split; [exact table_usable|]. split; [repeat (constructor; [no_byte|]); constructor|]. split; [now apply table_counted|].
  split.
  - exists ([Parsed (Some 0%nat) None] ++ [Parsed None (Some (txt "input.txt"))] ++ []). split.
    + apply (C_word _ _ _ _ _ _ [txt "input.txt"]).
      * apply W_short; [discriminate|]. apply (L_last _ _ 118 0 v_opt); [is_first|discriminate|]. right. auto.
      * apply (C_word _ _ _ _ _ _ []); [apply W_free; [discriminate|reflexivity]|constructor].
    + repeat (constructor; [intros i o a v PI E PA OV; cbn in PI, PA; discriminate|]). constructor.
  - eexists _, _, _. split; vm_compute; reflexivity.
Qed.
(** An option with its argument in the same word followed by a free argument is rejected. *)
Definition line_o : list (list N) := [txt "-oa.out"; txt "input.txt"].
Theorem C105_attached_word_refuted :
  usable table /\ c_strings line_o /\ counted table (fun _ => 0)
  /\ (exists es, cmdline true table true line_o es [] /\ Forall (valid_argument table) es)
  /\ exists es p m', parse_line table true line_o (fun _ => 0) = Some (es, p, m') /\ error p = true.
Proof.
  split; [exact table_usable|]. split; [repeat (constructor; [no_byte|]); constructor|]. split; [now apply table_counted|].
  split.
  - exists ([Parsed (Some 1%nat) (Some (txt "a.out"))] ++ [Parsed None (Some (txt "input.txt"))] ++ []). split.
    + apply (C_word _ _ _ _ _ _ [txt "input.txt"]).
      * apply W_short; [discriminate|].
        apply (L_attached _ _ 111 (txt "a.out") 1 o_opt); [is_first|split; discriminate|discriminate|discriminate|]. right. auto.
      * apply (C_word _ _ _ _ _ _ []); [apply W_free; [discriminate|reflexivity]|constructor].
    + repeat (constructor; [intros i o a v PI E PA OV; cbn in PI, PA;
        first [discriminate|injection PI as <-; cbn in E; injection E as <-; discriminate OV]|]). constructor.
  - eexists _, _, _. split; vm_compute; reflexivity.
Qed.

(** C106.  After an accepted line, validation succeeds exactly if every required option was given; after
    an error it fails. *)
Theorem C106_required : forall os free argv m es p m', usable os -> c_strings argv ->
  parse_line os free argv m = Some (es, p, m') ->
  exists b p', validate os p = Some (b, p')
    /\ (b = true <-> error p = false
                     /\ forall i o, nth_error os i = Some o -> o_required o = true -> occurrences es i <> 0%nat)
    /\ (error p' = negb b).
Proof.
  intros os free argv m es p m' US CS R.
  destruct (CliProofs.parse_verdict os free argv m (CliProofs.usable_table os US) (CliProofs.usable_names os US) CS)
    as (es0 & p0 & m0 & R0 & H).
  rewrite R in R0. injection R0 as <- <- <-. unfold validate. destruct H as [(ER & IV & _ & CM)|(ER & _)].
  - rewrite ER. pose proof (CliCounts.validate_loop_spec os argv m es p m' IV (proj1 US) os 0%nat eq_refl) as VL.
    destruct (validate_loop os 0 p) as [[b p']|]; [|contradiction]. exists b, p'. split; [reflexivity|]. destruct b.
    + destruct VL as [-> VL]. split; [|exact ER]. split; [|auto]. intros _. split; [reflexivity|].
      intros i o E RQ. apply CliCounts.occurs_spec. exact (VL i o E RQ).
    + destruct VL as (EP & j & o & E & RQ & OC). split; [|exact EP]. split; [discriminate|]. intros [_ H].
      specialize (H j o E RQ). apply CliCounts.occurs_spec in H. cbn in OC. congruence.
  - rewrite ER. exists false, p. split; [reflexivity|]. split; [|exact ER]. split; [discriminate|]. intros [H _]. discriminate.
Qed.
Example C106_required_case :
  (exists p m' p', parse_line table true line1 (fun _ => 0) = Some (line1_items, p, m') /\ validate table p = Some (true, p'))
  /\ exists es p m' p', parse_line table true [txt "-v"] (fun _ => 0) = Some (es, p, m')
       /\ error p = false /\ validate table p = Some (false, p').
Proof.
  split.
  - eexists _, _, _. split; vm_compute; reflexivity.
  - eexists _, _, _, _. split; [vm_compute; reflexivity|]. split; vm_compute; reflexivity.
Qed.

(** A well-formed line with valid arguments is rejected exactly if an option is given too often.
    Missing: options with a limit of two or more that have no counter. *)
Theorem C106_limits_partial : forall os free argv m es rest, usable os -> c_strings argv -> counted os m ->
  cmdline false os free argv es rest -> Forall (valid_argument os) es ->
  exists es' p m', parse_line os free argv m = Some (es', p, m')
    /\ (error p = true <-> exists i o, nth_error os i = Some o /\ ~ amount_ok o (occurrences es i)).
Proof.
  intros os free argv m es rest US CS CO CM V.
  destruct (CliProofs.parse_verdict os free argv m (CliProofs.usable_table os US) (CliProofs.usable_names os US) CS)
    as (es0 & p & m' & R & H).
  assert (CA := fun es => CliCounts.chain_amount os m CO es [] ltac:(intros; unfold amount_ok; cbn; lia)).
  exists es0, p, m'. split; [exact R|]. destruct H as [(ER & IV & CH & CM0)|(ER & NO)]; rewrite ER.
  - split; [discriminate|]. intros (i & o & E & NA). exfalso. apply NA.
    destruct (CliCounts.cmdline_det _ _ _ _ _ _ (CliCounts.usable_names_ok os US) CM0 _ _ CM) as [-> _].
    apply CA in CH. now apply CH.
  - split; [|reflexivity]. intros _.
    (* decide over the table *)
    assert (DEC : forall l k, (exists i o, nth_error l i = Some o /\ ~ amount_ok o (occurrences es (k + i)))
                   \/ forall i o, nth_error l i = Some o -> amount_ok o (occurrences es (k + i))).
    { induction l as [|o l IH]; intro k; [right; intros [|i]; discriminate|].
      assert (D : amount_ok o (occurrences es k) \/ ~ amount_ok o (occurrences es k)) by (unfold amount_ok; lia).
      destruct D as [D|D]; [|left; exists 0%nat, o; rewrite Nat.add_0_r; auto].
      destruct (IH (S k)) as [(i & o' & E & X)|X].
      - left. exists (S i), o'. replace (k + S i)%nat with (S k + i)%nat by lia. auto.
      - right. intros [|i] o' E.
        + rewrite Nat.add_0_r. cbn in E. assert (o = o') by congruence. now subst.
        + replace (k + S i)%nat with (S k + i)%nat by lia. now apply X. }
    destruct (DEC os 0%nat) as [X|X]; [exact X|]. exfalso. eapply NO; eauto. apply CA. auto.
Qed.
Example C106_limits_case :
  cmdline false table false [txt "-vvv"] [Parsed (Some 0%nat) None; Parsed (Some 0%nat) None; Parsed (Some 0%nat) None] []
  /\ ~ amount_ok v_opt 3.
Proof.
  split; [|unfold amount_ok; cbn; lia].
  apply (C_word _ _ _ _ _ [_; _; _] [] []); [|constructor]. apply W_short; [discriminate|].
  apply (L_flag _ _ 118 (txt "vv") 0 v_opt); [is_first|reflexivity|right; vm_compute; split; discriminate|].
  apply (L_flag _ _ 118 (txt "v") 0 v_opt); [is_first|reflexivity|right; vm_compute; split; discriminate|].
  apply (L_last _ _ 118 0 v_opt); [is_first|discriminate|]. left. exact I.
Qed.
(** Without a counter the limit is not enforced. *)
Definition w_opt : opt := Opt (Some (txt "w")) (Some (txt "warn")) ANone false 2 None None ONone None 0.
Theorem C106_uncounted_refuted :
  usable [w_opt] /\ exists es p m', parse_line [w_opt] false [txt "-www"] (fun _ => 0) = Some (es, p, m')
    /\ error p = false /\ ~ amount_ok w_opt (occurrences es 0).
Proof.
  split.
  - split; [vm_compute; lia|]. constructor; [|constructor].
    split; [exists (txt "warn"); split; [reflexivity|]; split; [no_byte|]; split; [no_byte|left; discriminate]|].
    split; [discriminate|intro; discriminate].
  - eexists _, _, _. split; [vm_compute; reflexivity|]. split; [reflexivity|]. unfold amount_ok. vm_compute. intros [H|H]; [discriminate H|now apply H].
Qed.

(** C107.  After an accepted line the objects of the program have the documented values.  Flags: *)
Theorem C107_flags : forall os free argv m es p m' a, usable os -> c_strings argv ->
  parse_line os free argv m = Some (es, p, m') -> error p = false -> only_output a OFlag os ->
  forall k, N.testbit (m' a) k = true <->
    N.testbit (m a) k = true
    \/ exists o, In o (given_options os es) /\ writes a OFlag o /\ N.testbit (o_value o) k = true.
Proof.
  intros os free argv m es p m' a US CS R ER OO k.
  destruct (CliProofs.parse_verdict os free argv m (CliProofs.usable_table os US) (CliProofs.usable_names os US) CS)
    as (es0 & p0 & m0 & R0 & H).
  rewrite R in R0. injection R0 as <- <- <-. destruct H as [(_ & IV & _ & _)|(E & _)]; [|congruence].
  rewrite (CliProofs.inv_mem _ _ _ _ _ _ IV). now apply CliCounts.effects_flag.
Qed.
(** Assignments: the value of the last option given that assigns to the object. *)
Theorem C107_assign : forall os free argv m es p m' a, usable os -> c_strings argv ->
  parse_line os free argv m = Some (es, p, m') -> error p = false -> only_output a OAssign os ->
  (forall l o r, given_options os es = l ++ o :: r -> writes a OAssign o -> ~ Exists (writes a OAssign) r -> m' a = o_value o)
  /\ (~ Exists (writes a OAssign) (given_options os es) -> m' a = m a).
Proof.
  intros os free argv m es p m' a US CS R ER OO.
  destruct (CliProofs.parse_verdict os free argv m (CliProofs.usable_table os US) (CliProofs.usable_names os US) CS)
    as (es0 & p0 & m0 & R0 & H).
  rewrite R in R0. injection R0 as <- <- <-. destruct H as [(_ & IV & _ & _)|(E & _)]; [|congruence].
  rewrite (CliProofs.inv_mem _ _ _ _ _ _ IV), (CliCounts.effects_assign os a m OO).
  set (f := fun o : opt => match o_output o, o_outtype o with Some b, OAssign => Nat.eqb a b | _, _ => false end).
  assert (F : forall o, f o = true <-> writes a OAssign o).
  { intro o. unfold f, writes. destruct (o_output o) as [b|]; [|split; [discriminate|intros [X _]; discriminate]].
    destruct (o_outtype o); try (split; [discriminate|intros [_ X]; discriminate]).
    split; [intro X; apply Nat.eqb_eq in X; subst; auto|intros [X _]; apply Nat.eqb_eq; congruence]. }
  assert (NF : forall l, ~ Exists (writes a OAssign) l -> forall t, find f (rev l ++ t) = find f t).
  { induction l as [|x l IH]; intros NE t; [reflexivity|]. cbn [rev]. rewrite <- app_assoc, IH by (intro X; apply NE; now right).
    cbn [app find]. destruct (f x) eqn:FX; [|reflexivity]. apply F in FX. exfalso. apply NE. now left. }
  split.
  - intros l o r E W NE. rewrite E, rev_app_distr. cbn [rev]. rewrite <- app_assoc, NF by exact NE. cbn [app find].
    apply F in W. now rewrite W.
  - intro NE. pose proof (NF _ NE []) as X. rewrite app_nil_r in X. now rewrite X.
Qed.
(** Counters and counter outputs: the sum of the increases. *)
Theorem C107_counts : forall os free argv m es p m' a, usable os -> c_strings argv ->
  parse_line os free argv m = Some (es, p, m') -> error p = false -> only_counted a os -> m a < 2 ^ 32 ->
  m' a = (m a + fold_right (fun o s => increase a o + s) 0 (given_options os es)) mod 2 ^ 32.
Proof.
  intros os free argv m es p m' a US CS R ER OO L. change (2 ^ 32) with 4294967296 in *.
  destruct (CliProofs.parse_verdict os free argv m (CliProofs.usable_table os US) (CliProofs.usable_names os US) CS)
    as (es0 & p0 & m0 & R0 & H).
  rewrite R in R0. injection R0 as <- <- <-. destruct H as [(_ & IV & _ & _)|(E & _)]; [|congruence].
  rewrite (CliProofs.inv_mem _ _ _ _ _ _ IV). destruct (CliCounts.effects_count os a m OO es) as [A B].
  rewrite <- A. symmetry. apply N.mod_small. auto.
Qed.
Example C107_case : exists p m', parse_line table true line1 (fun _ => 0) = Some (line1_items, p, m') /\ error p = false
  /\ only_output 2 OFlag table /\ only_output 1 OAssign table /\ only_counted 0 table
  /\ m' 0%nat = 2 /\ m' 1%nat = 7 /\ m' 2%nat = 12.
Proof.
  eexists _, _. split; [vm_compute; reflexivity|]. split; [reflexivity|].
  split; [repeat (constructor; [split; [discriminate|cbn; intro H; auto; discriminate H]|]); constructor|].
  split; [repeat (constructor; [split; [discriminate|cbn; intro H; auto; discriminate H]|]); constructor|].
  split; [repeat (constructor; [cbn; intro H; discriminate H|]); constructor|]. repeat split.
Qed.

(** C108.  The validators accept exactly the integers, the unsigned integers and the decimal numbers. *)
Theorem C108_uint : forall s, argument_uint s = true <-> digits s.
Proof. exact CliCounts.uint_spec. Qed.
Theorem C108_int : forall s, argument_int s = true <-> integer s.
Proof. exact CliCounts.int_spec. Qed.
Theorem C108_float : forall s, argument_float s = true <-> decimal s.
Proof. exact CliCounts.float_spec. Qed.
Example C108_case : argument_uint (txt "0042") = true /\ argument_uint (txt "-1") = false
  /\ argument_int (txt "-12") = true /\ argument_int (txt "--1") = false
  /\ argument_float (txt "-10.50e-03") = true /\ argument_float (txt "01") = false
  /\ argument_float (txt "1.") = false /\ argument_float (txt ".5") = false.
Proof. repeat split. Qed.

(** C109.  With usable tables no assertion fails, no null pointer is read and the loop around
    tmcli_next ends; so do validation and the query of the remaining arguments.
    Missing: tables that tmcli_make_parser accepts but that are not usable. *)
Theorem C109_total_partial : forall os free argv m, usable os -> c_strings argv ->
  exists es p m', parse_line os free argv m = Some (es, p, m') /\ validate os p <> None
    /\ (error p = false -> remaining argv p <> None).
Proof.
  intros os free argv m US CS.
  destruct (CliProofs.parse_verdict os free argv m (CliProofs.usable_table os US) (CliProofs.usable_names os US) CS)
    as (es & p & m' & R & H).
  exists es, p, m'. split; [exact R|]. split.
  - destruct (C106_required os free argv m es p m' US CS R) as (b & p' & V & _). congruence.
  - intro ER. destruct (C105_usual os free argv m es p m' US CS R ER) as (rest & X & _). congruence.
Qed.
Example C109_total_case : usable table /\ c_strings line1.
Proof. split; [exact table_usable|exact line1_strings]. Qed.
(** An option without long name: strlen of a null pointer. *)
Theorem C109_no_long_name_refuted :
  let os := [Opt (Some (txt "v")) None ANone false 1 None None ONone None 0] in
  make_parser_ex os <> None /\ parse_line os true [txt "--verbose"] (fun _ => 0) = None.
Proof. split; vm_compute; [discriminate|reflexivity]. Qed.
(** An empty short name beside a long name: an assertion fails. *)
Theorem C109_empty_short_name_refuted :
  let os := [Opt (Some []) (Some (txt "verbose")) ANone false 1 None None ONone None 0] in
  make_parser_ex os <> None /\ parse_line os true [txt "-v"] (fun _ => 0) = None.
Proof. split; vm_compute; [discriminate|reflexivity]. Qed.

Print Assumptions C105_exact_partial.
Print Assumptions C105_usual.
Print Assumptions C105_flag_word_refuted.
Print Assumptions C105_attached_word_refuted.
Print Assumptions C106_required.
Print Assumptions C106_limits_partial.
Print Assumptions C106_uncounted_refuted.
Print Assumptions C107_flags.
Print Assumptions C107_assign.
Print Assumptions C107_counts.
Print Assumptions C108_uint.
Print Assumptions C108_int.
Print Assumptions C108_float.
Print Assumptions C109_total_partial.
Print Assumptions C109_no_long_name_refuted.
Print Assumptions C109_empty_short_name_refuted.
