(** Conversion of bytes into an allocated string: the whole function. *)
From Coq Require Import Arith NArith ZArith List Bool Lia.
From Coq Require Import ZifyBool ZifyNat ZifyN.
From Verif Require Import Base CodecModel CodecProofs UniModel UniSpec UniProofs UniValid UniConv UniTop UniText BytesModel BytesSpec BytesProofs BytesDyn BytesTop BytesFixed.
Import ListNotations.
Local Open Scope N_scope.

Definition mem_cells (m : mem) : list N := match m with Null => [] | Block _ c => c end.
(** A block of [cap] cells that starts with the string [bs] and, if asked for, a terminator; no block at all has capacity 0. *)
Definition holds (data : mem) (cap : nat) (bs : list N) (nt : bool) : Prop :=
  length (mem_cells data) = cap /\ exists more, mem_cells data = bs ++ (if nt then [0] else []) ++ more.
Definition nothing (c : conversion) (data : mem) (cap : nat) : Prop := data = Null /\ v_size c = 0%nat /\ cap = 0%nat.
Lemma firstn_split : forall (c t : list N), firstn (length t) c = t -> exists more, c = t ++ more.
Proof. intros c t H. exists (skipn (length t) c). rewrite <- H at 1. symmetry. apply firstn_skipn. Qed.
Lemma string_holds : forall inp e o bs nt i, string_out inp e o bs nt i -> holds (b_data o) (b_capacity o) bs nt.
Proof.
  intros inp e o bs nt i (H1 & H2 & H3 & H4 & H5 & H6 & H7 & H8 & _). unfold holds. change (mem_cells (b_data o)) with (cells o). split; [exact H6|]. destruct (firstn_split _ _ H8) as [more E]. exists more. rewrite E, <- app_assoc. reflexivity.
Qed.
Definition dyn_outcome (fresh : nat -> nat -> option (list N)) (f : form) (us rest : list N) (v : validate) (rep : list N) (nt : bool) (e : encoding) (c : conversion) (data : mem) (cap : nat) : Prop :=
  v_enc c = e /\
  ((v_ec c = ENOMEM /\ nothing c data cap /\ exists k n, fresh k n = None) \/
   ((v_inv c = false <-> well_formed (seq_of f) us) /\
    ((v = V_error -> well_formed (seq_of f) us) /\ rest = [] /\ v_ec c = OK /\ (exists bs, replaced (seq_of f) utf8_seq (replacement v rep) us bs /\ v_size c = length bs /\ holds data cap bs nt) \/
     (v = V_error /\ ~ well_formed (seq_of f) us \/ rest <> []) /\ v_ec c = EINVAL /\ nothing c data cap))).
Section Dynamic.
Variable fresh : nat -> nat -> option (list N).
Hypothesis fresh_length : forall k n c, fresh k n = Some c -> length c = n.
Lemma dyn_start : dyn false E_unknown (make_stream Null 0 true) [] false.
Proof. unfold dyn, make_stream. cbn [b_enc b_grow b_ec b_inv b_size b_input_freed b_left b_data b_capacity b_owns length]. do 5 (split; [reflexivity|]). split; [discriminate|]. split; [reflexivity|]. left. auto. Qed.
Lemma dyn_enc : forall inp e o bs i e', dyn inp e o bs i -> dyn inp e' (set_enc o e') bs i.
Proof. intros inp e o bs i e' H. unfold dyn in *. cbn [b_enc b_grow b_ec b_inv b_size b_input_freed b_left b_data b_capacity b_owns set_enc]. tauto. Qed.
Lemma allocated_enc : forall inp e v rep nt cps rest o e', allocated fresh inp e v rep nt cps rest o -> allocated fresh inp e' v rep nt cps rest (set_enc o e').
Proof.
  intros inp e v rep nt cps rest o e' [H|[(H1 & H2 & H)|(H1 & bs & R & H)]]; [left|right; left|right; right].
  - unfold oom in *. cbn [b_enc b_ec b_data b_size b_capacity b_input_freed set_enc]. tauto.
  - split; [exact H1|]. split; [exact H2|]. unfold dyn_error in *. cbn [b_enc b_ec b_inv b_data b_size b_capacity b_input_freed set_enc]. tauto.
  - split; [exact H1|]. exists bs. split; [exact R|]. destruct rest; [unfold string_out in *|unfold dyn_error in *]; cbn [b_enc b_ec b_inv b_data b_size b_capacity b_owns b_input_freed set_enc]; [|tauto]. replace (cells (set_enc o e')) with (cells o) by reflexivity. tauto.
Qed.
Lemma allocated_answer : forall f us cps rest v rep nt e o, cuts f us cps -> no_cut f us -> allocated fresh false e v rep nt cps rest o ->
  (b_ec o = OK \/ b_data o = Null /\ b_size o = 0%nat /\ b_capacity o = 0%nat) /\
  dyn_outcome fresh f us rest v rep nt e (Conversion (b_size o) (b_ec o) (b_enc o) (b_inv o)) (b_data o) (b_capacity o).
Proof using All.
  intros f us cps rest v rep nt e o C Nc H. pose proof (cuts_well_formed f us cps C) as Wf. unfold dyn_outcome, nothing. cbn [v_enc v_ec v_inv v_size]. destruct H as [H|[(-> & Sc & H)|(Sc & bs & R & H)]].
  - destruct H as (H1 & H2 & H3 & H4 & H5 & H6 & H7). split; [auto|]. split; [exact H1|]. left. auto.
  - destruct H as (H1 & H2 & H3 & H4 & H5 & H6 & H7). split; [auto|]. split; [exact H1|]. right. split; [rewrite H3; split; [discriminate|intros Q; apply Wf in Q; contradiction]|]. right. rewrite Wf in Sc. auto.
  - assert (Hi : existsb bad cps = false <-> well_formed (seq_of f) us) by (rewrite no_bad; exact Wf). destruct rest as [|x rest].
    + pose proof (string_holds _ _ _ _ _ _ H) as Hh. destruct H as (H1 & H2 & H3 & H4 & H5). split; [auto|]. split; [exact H1|]. right. rewrite H3. split; [exact Hi|]. left. rewrite Wf in Sc. split; [exact Sc|]. split; [reflexivity|]. split; [exact H2|]. exists bs. split; [apply (cuts_replaced f us cps); assumption|]. auto.
    + destruct H as (H1 & H2 & H3 & H4 & H5 & H6 & H7). split; [auto|]. split; [exact H1|]. right. rewrite H3. split; [exact Hi|]. right. split; [right; discriminate|]. auto.
Qed.
Theorem dynamic_units : forall f us rest v rep nt enc e input size, f <> F8 -> Forall (fun u => u < unit_bound f) us -> (length rest < width f)%nat -> no_cut f us -> valid_rep v rep -> serialise f us ++ rest <> [] ->
  (size <= length input)%nat -> handed f (serialise f us ++ rest) enc (firstn size input) e ->
  exists c data cap, tmu_utf8_convert_from_bytes_dynamic fresh input size enc v rep nt = Some (c, data, cap, Kept input) /\ dyn_outcome fresh f us rest v rep nt e c data cap.
Proof using All.
  intros f us rest v rep nt enc e input size Hf U L Nc Hr Hb Hs H. unfold tmu_utf8_convert_from_bytes_dynamic, assert_. rewrite (proj2 (Nat.leb_le _ _) Hs). pose proof dyn_start as D0. assert (N0 : b_data (make_stream Null 0 true) = Null) by reflexivity. set (o0 := make_stream Null 0 true) in *. clearbody o0.
  destruct (cuts_exists f us Hf U) as [cps C]. pose proof (loop_fold fresh f us cps rest C U L) as Lf.
  assert (G : forall o conv, allocated fresh false e v rep nt cps rest o -> (b_ec o = OK -> conv = true) ->
    exists c data cap, (if errc_eqb (b_ec o) OK then if conv then Some (Conversion (b_size o) (b_ec o) (b_enc o) (b_inv o), b_data o, b_capacity o, Kept input) else None else
       (if match b_data o with Null => true | Block _ _ => false end then if (b_size o =? 0)%nat then if (b_capacity o =? 0)%nat then Some (Conversion 0 (b_ec o) (b_enc o) (b_inv o), Null, 0%nat, Kept input) else None else None else None)) = Some (c, data, cap, Kept input) /\ dyn_outcome fresh f us rest v rep nt e c data cap).
  { intros o conv A Hc. destruct (allocated_answer f us cps rest v rep nt e o C Nc A) as [P Q]. destruct (b_ec o) eqn:Eo; cbn [errc_eqb]; [rewrite (Hc eq_refl); eexists _, _, _; split; [reflexivity|exact Q]|..];
      (destruct P as [P|(P1 & P2 & P3)]; [discriminate|]; rewrite P1, P2, P3 in *; cbn [Nat.eqb]; eexists _, _, _; split; [reflexivity|exact Q]). }
  destruct (internal_handed fresh f (serialise f us ++ rest) enc (firstn size input) e v rep nt o0 Hf Hb Hr H) as [Ei|Ei]; rewrite Ei.
  - destruct (convert_dyn fresh fresh_length false e _ cps rest _ Lf v rep nt (set_enc o0 e) Hr (dyn_enc _ _ _ _ _ e D0) N0 Hb) as (o' & E & P). rewrite E. destruct (G o' true P (fun _ => eq_refl)) as (c & data & cap & Q1 & Q2). exists c, data, cap. split; [|exact Q2]. rewrite <- Q1. destruct (b_ec o'); reflexivity.
  - destruct (convert_dyn fresh fresh_length false _ _ cps rest _ Lf v rep nt o0 Hr D0 N0 Hb) as (o' & E & P). rewrite E. apply allocated_enc with (e' := e) in P. destruct (G (set_enc o' e) (errc_eqb (b_ec o') OK) P) as (c & data & cap & Q1 & Q2); [cbn [b_ec set_enc]; intros ->; reflexivity|]. exists c, data, cap. split; [|exact Q2]. rewrite <- Q1. cbn [b_ec set_enc]. destruct (b_ec o'); reflexivity.
Qed.

(** ** UTF-8: the block of the input becomes the result *)
(** The stream after the input was taken over and a byte order mark moved out. *)
Definition taken (e : encoding) (o : bstream) (cs : list N) (n : nat) : Prop :=
  b_enc o = e /\ b_grow o = true /\ b_ec o = OK /\ b_inv o = false /\ b_size o = n /\ b_input_freed o = false /\ b_left o = [] /\ b_data o = Block true cs /\ b_capacity o = length cs /\ b_owns o = true.
Lemma taken_dyn : forall e o cs n, taken e o cs n -> (n <= length cs)%nat -> (0 < length cs)%nat -> dyn true e o (firstn n cs) false.
Proof using All.
  intros e o cs n (H1 & H2 & H3 & H4 & H5 & H6 & H7 & H8 & H9 & H10) L L2. unfold dyn. rewrite H9, H8. assert (Lf : length (firstn n cs) = n) by (rewrite firstn_length; lia). rewrite Lf. do 5 (split; [assumption|]). split; [auto|]. split; [exact H7|]. right. exists true, cs. split; [reflexivity|]. split; [auto|]. split; [reflexivity|]. split; [exact L2|]. split; [exact H10|]. split; [exact L|]. reflexivity.
Qed.
Lemma dynamic_taken : forall body enc bytes e v rep nt input size, body <> [] -> valid_rep v rep -> (size <= length input)%nat -> bytes = firstn size input ->
  handed F8 body enc bytes e ->
  exists o cs, taken e o cs (length body) /\ length cs = length input /\ firstn (length body) cs = body /\
   tmu_utf8_convert_from_bytes_dynamic fresh input size enc v rep nt =
   (o <- tmu_output_validate_inplace fresh v rep o ;;
    o <- (if nt && ok_or_range (b_ec o) then ' (_, o) <- terminate fresh o ;; Some o else Some o) ;;
    if errc_eqb (b_ec o) OK then Some (Conversion (b_size o) (b_ec o) (b_enc o) (b_inv o), b_data o, b_capacity o, Zeroed)
    else Some (Conversion 0 (b_ec o) (b_enc o) (b_inv o), Null, 0%nat, if b_input_freed o then Dangling else Kept (cells o))).
Proof using All.
  intros body enc bytes e v rep nt input size Hb Hr Hs Eb H. destruct (internal_utf8 fresh body enc bytes e v rep nt (make_stream Null 0 true) Hb Hr H) as [Ei Es]. unfold tmu_utf8_convert_from_bytes_dynamic, assert_. rewrite (proj2 (Nat.leb_le _ _) Hs). rewrite <- Eb, Ei.
  cbn [make_stream set_enc b_ec errc_eqb b_data b_size b_necessary b_capacity b_grow b_owns b_enc b_inv b_requests b_input_freed b_left]. cbv zeta. assert (Lb : length bytes = size) by (rewrite Eb, firstn_length; lia). destruct (starts utf8_bom bytes) eqn:Est.
  - apply starts_spec in Est as (t & T & Et). assert (Q : t = body) by (rewrite <- Es, Et; reflexivity). subst t. assert (Lz : size = (3 + length body)%nat) by (rewrite <- Lb, Et; reflexivity).
    cbn [cells b_data]. rewrite write_list_splice by (rewrite firstn_length, skipn_length; lia). eexists (set_size (set_cells _ _) _), _. split; [|split; [|split]].
    4:{ replace (size - 3)%nat with (length body) by lia. reflexivity. }
    + unfold taken. cbn [set_size set_cells b_data b_size b_enc b_grow b_ec b_inv b_input_freed b_left b_capacity b_owns]. do 7 (split; [reflexivity|]). split; [reflexivity|]. split; [|reflexivity]. rewrite splice_length; [reflexivity|rewrite firstn_length, skipn_length; lia].
    + rewrite splice_length; [reflexivity|rewrite firstn_length, skipn_length; lia].
    + assert (Ef : firstn (length body) (skipn 3 input) = body).
      { rewrite Eb in Et. apply (f_equal (skipn 3)) in Et. rewrite Lz in Et. rewrite <- skipn_firstn_comm in Et || rewrite skipn_firstn_comm in Et. replace (3 + length body - 3)%nat with (length body) in Et by lia. exact Et. }
      rewrite Ef. rewrite <- (Nat.add_0_l (length body)) at 1. rewrite firstn_splice by lia. reflexivity.
  - subst body. eexists _, input. split; [|split; [reflexivity|split]].
    3:{ rewrite <- Lb. reflexivity. }
    + unfold taken. cbn [b_data b_size b_enc b_grow b_ec b_inv b_input_freed b_left b_capacity b_owns]. do 9 (split; [reflexivity|]). reflexivity.
    + rewrite Lb. symmetry. exact Eb.
Qed.
(** The end of the function on a stream that holds the text. *)
Lemma dynamic_finish : forall e o bs i (nt : bool), dyn true e o bs i ->
  exists c data cap after, (o <- (if nt && ok_or_range (b_ec o) then ' (_, o) <- terminate fresh o ;; Some o else Some o) ;;
    if errc_eqb (b_ec o) OK then Some (Conversion (b_size o) (b_ec o) (b_enc o) (b_inv o), b_data o, b_capacity o, Zeroed)
    else Some (Conversion 0 (b_ec o) (b_enc o) (b_inv o), Null, 0%nat, if b_input_freed o then Dangling else Kept (cells o))) = Some (c, data, cap, after) /\ v_enc c = e /\
  ((v_ec c = OK /\ v_inv c = i /\ v_size c = length bs /\ holds data cap bs nt /\ after = Zeroed) \/ (v_ec c = ENOMEM /\ nothing c data cap /\ nt = true /\ exists k n, fresh k n = None)).
Proof using All.
  intros e o bs i nt D. assert (Eo : b_ec o = OK) by apply D. rewrite Eo. cbn [ok_or_range]. rewrite andb_true_r.
  assert (T : exists o1, (if nt then ' (_, o) <- terminate fresh o ;; Some o else Some o) = Some o1 /\ (string_out true e o1 bs nt i \/ oom fresh true e o1 /\ nt = true)).
  { destruct nt; [|exists o; split; [reflexivity|left; apply (dyn_string fresh fresh_length true e o bs i D)]]. destruct (dyn_terminate fresh fresh_length true e o bs i D) as (ok & o1 & E & P). rewrite E. exists o1. split; [reflexivity|]. destruct ok; auto. }
  destruct T as (o1 & E1 & [P|[P Pn]]); rewrite E1.
  - pose proof (string_holds _ _ _ _ _ _ P) as Hh. destruct P as (P1 & P2 & P3 & P4 & _). rewrite P2. cbn [errc_eqb]. eexists _, _, _, _. split; [reflexivity|]. cbn [v_enc v_ec v_inv v_size]. split; [exact P1|]. left. auto.
  - destruct P as (P1 & P2 & P3 & P4 & P5 & P6 & P7). rewrite P2. cbn [errc_eqb]. eexists _, _, _, _. split; [reflexivity|]. cbn [v_enc v_ec v_inv v_size]. split; [exact P1|]. right. unfold nothing. cbn [v_size]. auto.
Qed.
Theorem dynamic_utf8_valid : forall us vs v rep nt enc e input size, encodes utf8_seq vs us -> us <> [] -> valid_rep v rep -> (size <= length input)%nat ->
  handed F8 us enc (firstn size input) e ->
  exists c data cap after, tmu_utf8_convert_from_bytes_dynamic fresh input size enc v rep nt = Some (c, data, cap, after) /\ v_enc c = e /\
  ((v_ec c = OK /\ v_inv c = false /\ v_size c = length us /\ holds data cap us nt /\ after = Zeroed) \/ (v_ec c = ENOMEM /\ nothing c data cap /\ nt = true /\ exists k n, fresh k n = None)).
Proof using All.
  intros us vs v rep nt enc e input size W Hb Hr Hs H. destruct (dynamic_taken us enc _ e v rep nt input size Hb Hr Hs eq_refl H) as (o & cs & T & Lc & Fc & E). rewrite E. clear E.
  assert (Ln : (length us <= length cs)%nat) by (rewrite <- Fc, firstn_length; lia). assert (L0 : (0 < length us)%nat) by (destruct us; [congruence|cbn [length]; lia]).
  pose proof (taken_dyn e o cs _ T Ln ltac:(lia)) as D. rewrite Fc in D. assert (Hz : b_size o = length us) by apply T. assert (Hcells : cells o = cs) by (unfold cells; replace (b_data o) with (Block true cs) by (symmetry; apply T); reflexivity).
  assert (U : octets us) by (apply (encodes_units utf8_seq (fun c => c < 256) vs us seq_octets W)). destruct (utf8_valid_range_spec us U) as (r & Er & Lp). pose proof (longest_whole _ _ _ Lp (ex_intro _ vs W)) as Q. subst r.
  assert (V : exists o1, tmu_output_validate_inplace fresh v rep o = Some o1 /\ dyn true e o1 us false).
  { unfold tmu_output_validate_inplace. rewrite Hz, Hcells, Fc. destruct v.
    - unfold tmu_utf8_skip_invalid. destruct (skip_spec utf8_seq utf8_ne tmu_utf8_valid_range octets (fun s n U => conj (skipn_octets n s U) (firstn_octets n s U)) utf8_valid_range_spec us U) as (r & Es & Lp2). pose proof (longest_whole _ _ _ Lp2 (ex_intro _ vs W)) as Q. subst r. rewrite Es.
      rewrite Nat.eqb_refl. cbn [negb]. eexists. split; [reflexivity|]. replace (us ++ skipn (length us) cs) with cs by (rewrite <- Fc at 1; symmetry; apply firstn_skipn). rewrite <- Hcells, set_cells_same || (rewrite <- Hcells; rewrite (set_cells_same fresh fresh_length true e)). rewrite <- Hz. assert (Hi : b_inv o = false) by apply T. clear - D Hi. destruct o as [x1 x2 x3 x4 x5 x6 x7 x8 x9 x10 x11 x12]. cbn [b_inv] in Hi. subst. exact D.
    - assert (Ex : exists n, length us = S n) by (exists (pred (length us)); lia). destruct Ex as [n En]. rewrite En. cbn [replace_loop]. rewrite <- En. cbn [skipn]. rewrite Hcells, Fc, Er, Nat.eqb_refl. eexists. split; [reflexivity|]. assert (Hi : b_inv o = false) by apply T. clear - D Hi. destruct o as [x1 x2 x3 x4 x5 x6 x7 x8 x9 x10 x11 x12]. cbn [b_inv] in Hi. subst. exact D.
    - rewrite Er, Nat.eqb_refl. eexists. split; [reflexivity|]. rewrite <- Hz. clear - D. destruct o. exact D. }
  destruct V as (o1 & E1 & D1). rewrite E1. destruct (dynamic_finish e o1 us false nt D1) as (c & data & cap & after & E2 & Q2). exists c, data, cap, after. split; [exact E2|exact Q2].
Qed.
(** Skipping in place keeps only the text before the first invalid octet; the error mode hands the block back. *)
Theorem dynamic_utf8_skip : forall us rep nt enc e input size, octets us -> us <> [] -> (size <= length input)%nat -> handed F8 us enc (firstn size input) e ->
  exists r c data cap after, longest_prefix (well_formed utf8_seq) us r /\ tmu_utf8_convert_from_bytes_dynamic fresh input size enc V_skip rep nt = Some (c, data, cap, after) /\ v_enc c = e /\
  ((v_ec c = OK /\ (v_inv c = false <-> well_formed utf8_seq us) /\ v_size c = r /\ holds data cap (firstn r us) nt /\ after = Zeroed) \/ (v_ec c = ENOMEM /\ nothing c data cap /\ nt = true /\ exists k n, fresh k n = None)).
Proof using All.
  intros us rep nt enc e input size U Hb Hs H. destruct (dynamic_taken us enc _ e V_skip rep nt input size Hb ltac:(discriminate) Hs eq_refl H) as (o & cs & T & Lc & Fc & E). rewrite E. clear E.
  assert (Ln : (length us <= length cs)%nat) by (rewrite <- Fc, firstn_length; lia). assert (L0 : (0 < length us)%nat) by (destruct us; [congruence|cbn [length]; lia]).
  assert (Hz : b_size o = length us) by apply T. assert (Hcells : cells o = cs) by (unfold cells; replace (b_data o) with (Block true cs) by (symmetry; apply T); reflexivity).
  unfold tmu_output_validate_inplace. rewrite Hz, Hcells, Fc. unfold tmu_utf8_skip_invalid. destruct (skip_spec utf8_seq utf8_ne tmu_utf8_valid_range octets (fun s n U => conj (skipn_octets n s U) (firstn_octets n s U)) utf8_valid_range_spec us U) as (r & Es & Lp). rewrite Es. exists r.
  replace (us ++ skipn (length us) cs) with cs by (rewrite <- Fc at 1; symmetry; apply firstn_skipn). pose proof (proj1 Lp) as Lr.
  assert (D1 : dyn true e (set_size (set_inv (set_cells o cs) (negb (r =? length us)%nat)) r) (firstn r us) (negb (r =? length us)%nat)).
  { destruct T as (H1 & H2 & H3 & H4 & H5 & H6 & H7 & H8 & H9 & H10). unfold dyn. cbn [b_enc b_grow b_ec b_inv b_size b_input_freed b_left b_data b_capacity b_owns set_size set_inv set_cells]. rewrite H8, H9. assert (Lf : length (firstn r us) = r) by (rewrite firstn_length; lia). rewrite Lf.
    do 3 (split; [assumption|]). do 2 (split; [reflexivity|]). split; [auto|]. split; [exact H7|]. right. exists true, cs. split; [reflexivity|]. split; [auto|]. split; [reflexivity|]. split; [lia|]. split; [exact H10|]. split; [lia|]. rewrite <- Fc. rewrite firstn_firstn. f_equal. lia. }
  destruct (dynamic_finish e _ _ _ nt D1) as (c & data & cap & after & E2 & Q1 & Q2). exists c, data, cap, after. split; [exact Lp|]. split; [exact E2|]. split; [exact Q1|]. destruct Q2 as [(Q2 & Q3 & Q4 & Q5 & Q6)|Q2]; [left|right; exact Q2].
  split; [exact Q2|]. split; [|split; [rewrite Q4, firstn_length; lia|split; assumption]]. rewrite Q3, negb_false_iff, Nat.eqb_eq. split; [intros ->; destruct Lp as (_ & P & _); rewrite firstn_all in P; exact P|intros P; apply (longest_whole _ _ _ Lp P)].
Qed.
Theorem dynamic_utf8_error : forall us rep nt enc e input size, octets us -> us <> [] -> (size <= length input)%nat -> ~ well_formed utf8_seq us -> handed F8 us enc (firstn size input) e ->
  exists c after, tmu_utf8_convert_from_bytes_dynamic fresh input size enc V_error rep nt = Some (c, Null, 0%nat, Kept after) /\ v_enc c = e /\ v_ec c = EINVAL /\ v_inv c = true /\ v_size c = 0%nat /\ length after = length input /\ firstn (length us) after = us.
Proof using All.
  intros us rep nt enc e input size U Hb Hs Nw H. destruct (dynamic_taken us enc _ e V_error rep nt input size Hb ltac:(discriminate) Hs eq_refl H) as (o & cs & T & Lc & Fc & E). rewrite E. clear E.
  assert (Hz : b_size o = length us) by apply T. assert (Hcells : cells o = cs) by (unfold cells; replace (b_data o) with (Block true cs) by (symmetry; apply T); reflexivity).
  unfold tmu_output_validate_inplace. rewrite Hz, Hcells, Fc. destruct (utf8_valid_range_spec us U) as (r & Er & Lp). rewrite Er. destruct (Nat.eqb_spec r (length us)) as [Q|Q]; [exfalso; apply Nw; destruct Lp as (_ & P & _); rewrite Q, firstn_all in P; exact P|].
  cbn [b_ec set_size set_ec ok_or_range]. rewrite andb_false_r. cbn [b_ec set_size set_ec set_inv errc_eqb b_enc b_inv b_input_freed]. replace (b_input_freed o) with false by (symmetry; apply T). eexists _, cs. split; [replace (cells _) with cs by (rewrite <- Hcells; reflexivity); reflexivity|]. cbn [v_enc v_ec v_inv v_size]. split; [apply T|]. auto.
Qed.
End Dynamic.
