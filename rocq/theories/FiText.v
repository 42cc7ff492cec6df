(** Reading a file as text, forms other than UTF-8: the string is in a block of its own. *)
From Coq Require Import Arith NArith ZArith List Bool Lia.
From Verif Require Import Base CodecModel CodecProofs UniModel UniSpec UniText BytesModel BytesSpec BytesProofs BytesTop BytesDynTop BytesProps FiModel FiSpec FiRead.
Import ListNotations.
Local Open Scope N_scope.

(** The stream does not write into the block of the input. *)
Definition apart (o : bstream) : Prop := is_input (b_data o) = false.
Section Apart.
Variable fresh : nat -> nat -> option (list N).
Lemma apart_cells o c : apart o -> apart (set_cells o c).
Proof using. unfold apart, set_cells. cbn [b_data]. destruct (b_data o) as [|[] ?]; auto. Qed.
Lemma apart_destroy o : apart (tmu_destroy_output o). Proof using. reflexivity. Qed.
Ltac parts := repeat match goal with
  | H : Some _ = Some _ |- _ => injection H as H; subst
  | H : (_, _) = (_, _) |- _ => injection H as H; subst
  | H : None = Some _ |- _ => discriminate H
  | H : assert_ ?b _ = Some _ |- _ => unfold assert_ in H; destruct b
  | H : (if ?b then _ else _) = _ |- _ => destruct b eqn:?
  | H : match ?b with _ => _ end = _ |- _ => destruct b eqn:?
  end.
Lemma apart_alloc o n b o' : tmu_alloc_output_stream fresh o n = (b, o') -> apart o -> apart o'.
Proof using. unfold tmu_alloc_output_stream. intros H A. parts; try exact A; reflexivity. Qed.
Lemma apart_grow o n b o' : tmu_output_grow fresh o n = Some (b, o') -> apart o'.
Proof using. unfold tmu_output_grow. intros H. cbv zeta in H. parts; reflexivity. Qed.
Lemma apart_codepoint o cp b o' : tmu_output_append_codepoint fresh o cp = Some (b, o') -> apart o -> apart o'.
Proof using.
  unfold tmu_output_append_codepoint. intros H A. cbv zeta in H. destruct (tmu_utf8_encode cp (cells o) _ _) as [[size c]|]; [|discriminate]. cbv beta iota in H.
  assert (A2 : apart (set_necessary (set_cells o c) (b_necessary o + size))) by (apply apart_cells; exact A). set (o2 := set_necessary _ _) in *. clearbody o2.
  destruct (errc_eqb _ _); [|injection H as _ <-; exact A2]. destruct (_ <? _)%nat; [|injection H as _ <-; exact A2]. destruct (b_grow o2); [|injection H as _ <-; exact A2].
  destruct (tmu_output_grow fresh o2 size) as [[ok o3]|] eqn:G; [|discriminate]. apply apart_grow in G. cbv beta iota in H. destruct ok; [|injection H as _ <-; exact G].
  destruct (tmu_utf8_encode cp (cells o3) _ _) as [[size' c']|]; [|discriminate]. cbv beta iota in H. unfold assert_ in H. destruct (_ <=? _)%nat; [|discriminate]. injection H as _ <-. apply (apart_cells o3 c' G).
Qed.
Lemma apart_str o t b o' : tmu_output_append_str fresh o t = Some (b, o') -> apart o -> apart o'.
Proof using.
  unfold tmu_output_append_str. intros H A. cbv zeta in H. unfold assert_ at 1 in H. destruct (0 <? _)%nat; [|discriminate]. cbn beta in H.
  assert (A2 : apart (set_necessary o (b_necessary o + length t))) by exact A. set (o2 := set_necessary _ _) in *. clearbody o2.
  assert (Put : forall o, apart o -> assert_ (length t <=? b_capacity o - b_size o)%nat (c <- write_list (cells o) (b_size o) t ;; Some (true, set_size (set_cells o c) (b_size o + length t))) = Some (b, o') -> apart o').
  { clear H. intros o0 A0 X. unfold assert_ in X. destruct (_ <=? _)%nat; [|discriminate]. destruct (write_list _ _ _); [|discriminate]. cbv beta iota in X. injection X as _ <-. apply (apart_cells o0 l A0). }
  destruct (errc_eqb _ _); [|injection H as _ <-; exact A2]. destruct (_ <? _)%nat; [|exact (Put _ A2 H)]. destruct (b_grow o2); [|injection H as _ <-; exact A2].
  destruct (tmu_output_grow fresh o2 (length t)) as [[ok o3]|] eqn:G; [|discriminate]. apply apart_grow in G. cbv beta iota in H. destruct ok; [exact (Put _ G H)|injection H as _ <-; exact G].
Qed.
Definition stream_of (r : step) : bstream := match r with Go o => o | Stop o => o end.
Lemma apart_handle v rep cp o r : handle fresh v rep cp o = Some r -> apart o -> apart (stream_of r).
Proof using.
  unfold handle. intros H A. destruct (tmu_is_valid_codepoint cp).
  - destruct (tmu_output_append_codepoint fresh o cp) as [[ok o2]|] eqn:E; [|discriminate]. injection H as <-. apply (apart_codepoint _ _ _ _ E) in A. destruct ok; exact A.
  - destruct v; try (injection H as <-; first [exact A|reflexivity]).
    destruct (tmu_output_append_str fresh (set_inv o true) rep) as [[ok o2]|] eqn:E; [|discriminate]. injection H as <-. apply (apart_str _ _ _ _ E) in A. destruct ok; exact A.
Qed.
Lemma apart_16 ext v rep : forall n bytes o more r, (length bytes <= n)%nat -> utf16_loop fresh ext v rep bytes o = Some (more, r) -> apart o -> apart (stream_of r).
Proof using.
  induction n as [|n IH]; intros bytes o more r L H A; destruct bytes as [|b0 [|b1 rest]]; cbn [utf16_loop] in H; try (injection H as <- <-; exact A); try (cbn in L; lia).
  assert (One : forall cp rest2, (length rest2 <= n)%nat -> match handle fresh v rep cp o with Some r => match r with Go o => utf16_loop fresh ext v rep rest2 o | Stop o => Some (rest2, Stop o) end | None => None end = Some (more, r) -> apart (stream_of r)).
  { intros cp rest2 L2 X. destruct (handle fresh v rep cp o) as [r2|] eqn:E; [|discriminate]. apply (apart_handle _ _ _ _ _ E) in A. destruct r2; [exact (IH _ _ _ _ L2 X A)|injection X as _ <-; exact A]. }
  cbn [length] in L. destruct (is_lead _); [|exact (One _ rest ltac:(lia) H)]. destruct rest as [|c0 [|c1 rest2]]; [exact (One _ [] ltac:(cbn; lia) H)|exact (One _ [c0] ltac:(cbn in *; lia) H)|exact (One _ rest2 ltac:(cbn in *; lia) H)].
Qed.
Lemma apart_32 ext v rep : forall n bytes o more r, (length bytes <= n)%nat -> utf32_loop fresh ext v rep bytes o = Some (more, r) -> apart o -> apart (stream_of r).
Proof using.
  induction n as [|n IH]; intros bytes o more r L H A; destruct bytes as [|b0 [|b1 [|b2 [|b3 rest]]]]; cbn [utf32_loop] in H; try (injection H as <- <-; exact A); try (cbn in L; lia).
  destruct (handle fresh v rep _ o) as [r2|] eqn:E; [|discriminate]. apply (apart_handle _ _ _ _ _ E) in A. destruct r2; [refine (IH _ _ _ _ _ H A); cbn in L; lia|injection H as _ <-; exact A].
Qed.
Lemma apart_terminate o b o' : terminate fresh o = Some (b, o') -> apart o -> apart o'.
Proof using. unfold terminate. intros H A. destruct (tmu_output_append_codepoint fresh o 0) as [[ok o2]|] eqn:E; [|discriminate]. injection H as <- <-. apply (apart_codepoint _ _ _ _ E) in A. destruct ok; exact A. Qed.
Lemma apart_end nt more r o : loop_end fresh nt (more, r) = Some o -> apart (stream_of r) -> apart o.
Proof using.
  unfold loop_end. intros H A. destruct r as [o2|o2]; cbn [stream_of] in A; [|injection H as <-; exact A]. destruct (_ && _); [injection H as <-; reflexivity|]. destruct (_ && _); [|injection H as <-; exact A].
  destruct (terminate fresh o2) as [[ok o3]|] eqn:E; [|discriminate]. injection H as <-. exact (apart_terminate _ _ _ E A).
Qed.
Definition tidy (loop : validate -> list N -> list N -> bstream -> option (list N * step)) : Prop := forall v rep bytes o more r, loop v rep bytes o = Some (more, r) -> apart o -> apart (stream_of r).
Lemma apart_convert loop v rep nt bytes o o' : tidy loop -> convert_bytes fresh loop v rep nt bytes o = Some o' -> apart o -> apart o'.
Proof using.
  intros T H A. unfold convert_bytes, assert_ in H. destruct (match v with V_replace => _ | _ => _ end); [|discriminate]. destruct (tmu_alloc_output_stream fresh o _) as [ok o2] eqn:E. apply (apart_alloc _ _ _ _ E) in A. destruct ok; [|injection H as <-; exact A].
  destruct (loop v rep bytes o2) as [[more r]|] eqn:E2; [|discriminate]. apply (T _ _ _ _ _ _ E2) in A. exact (apart_end _ _ _ _ H A).
Qed.
Lemma apart_internal bytes enc v rep nt o b o' : tmu_convert_bytes_to_utf8_internal fresh bytes enc v rep nt o = Some (b, o') -> apart o -> apart o'.
Proof using.
  intros H A. unfold tmu_convert_bytes_to_utf8_internal, assert_ in H. destruct (match v with V_replace => _ | _ => _ end); [|discriminate]. cbv zeta in H.
  assert (T16 : forall ext, tidy (utf16_loop fresh ext)) by (intros ext v0 rep0 bs o0 more r; apply (apart_16 ext v0 rep0 (length bs)); lia).
  assert (T32 : forall ext, tidy (utf32_loop fresh ext)) by (intros ext v0 rep0 bs o0 more r; apply (apart_32 ext v0 rep0 (length bs)); lia).
  destruct bytes as [|x bytes].
  - destruct nt; [|injection H as _ <-; exact A]. destruct (terminate fresh o) as [[ok o2]|] eqn:E; [|discriminate]. apply (apart_terminate _ _ _ E) in A. destruct ok; injection H as _ <-; exact A.
  - set (bs := x :: bytes) in *. clearbody bs.
    destruct enc; repeat match type of H with (if ?c then _ else _) = _ => destruct c end; try (injection H as _ <-; exact A);
    match type of H with context [convert_bytes fresh ?loop v rep nt ?b ?o0] => destruct (convert_bytes fresh loop v rep nt b o0) as [o2|] eqn:E; [|discriminate]; apply apart_convert in E; [injection H as _ <-; exact E|first [apply T16|apply T32]|exact A] end.
Qed.
Lemma kept_apart input size enc v rep nt c data cap cells : tmu_utf8_convert_from_bytes_dynamic fresh input size enc v rep nt = Some (c, data, cap, Kept cells) -> is_input data = false.
Proof using.
  intros H. unfold tmu_utf8_convert_from_bytes_dynamic, assert_ in H. destruct (size <=? length input)%nat; [|discriminate]. cbv zeta in H.
  destruct (tmu_convert_bytes_to_utf8_internal fresh _ enc v rep nt _) as [[conv o]|] eqn:E; [|discriminate]. apply apart_internal in E; [|reflexivity]. cbv beta iota in H. destruct (errc_eqb (b_ec o) OK).
  - destruct conv; [injection H as _ <- _ _; exact E|]. destruct (if starts utf8_bom _ then _ else _) as [o2|]; [|discriminate]. cbv beta iota in H. destruct (tmu_output_validate_inplace fresh v rep o2) as [o3|]; [|discriminate]. cbv beta iota in H.
    destruct (if nt && _ then _ else _) as [o4|]; [|discriminate]. cbv beta iota in H. destruct (errc_eqb (b_ec o4) OK); [discriminate H|]. injection H as _ <- _ _. reflexivity.
  - destruct (match b_data o with Null => _ | _ => _ end); [|discriminate]. destruct (b_size o =? 0)%nat; [|discriminate]. destruct (b_capacity o =? 0)%nat; [|discriminate]. injection H as _ <- _ _. reflexivity.
Qed.
End Apart.

(** A file in UTF-16 or UTF-32, well-formed or not. *)
Theorem read_other_forms : forall fuel mem p f us rest v rep enc e s bs, calm s -> found s p = Some (File bs) -> (length bs < fuel)%nat ->
  (forall k n c, mem k n = Some c -> length c = n) -> f <> F8 -> Forall (fun u => u < unit_bound f) us -> (length rest < width f)%nat -> no_cut f us -> valid_rep v rep -> (v = V_replace -> rep <> []) ->
  serialise f us ++ rest <> [] -> handed f (serialise f us ++ rest) enc bs e ->
  exists conv c s', tmu_read_file_as_utf8_ex fuel mem p enc v rep s = Some (F_OK, Some conv, c, s') /\ v_enc conv = e /\ o_tree s' = o_tree s /\ o_handles s' = o_handles s /\ o_live s' = (o_live s + owned c)%nat /\
    ((v_ec conv = ENOMEM /\ c = no_contents /\ exists k n, mem k n = None) \/
     ((v_inv conv = false <-> well_formed (seq_of f) us) /\
      ((v = V_error -> well_formed (seq_of f) us) /\ rest = [] /\ v_ec conv = OK /\
         (exists t more, replaced (seq_of f) utf8_seq (replacement v rep) us t /\ f_size c = length t /\ f_data c = Some (t ++ 0 :: more) /\ length (t ++ 0 :: more) = f_capacity c) \/
       (v = V_error /\ ~ well_formed (seq_of f) us \/ rest <> []) /\ v_ec conv = EINVAL /\ c = no_contents))).
Proof.
  intros fuel mem p f us rest v rep enc e s bs C F Fu Ml Nf Ub Lr Nc Vr Rp Ne H. unfold tmu_read_file_as_utf8_ex.
  replace (match v, rep with V_replace, [] => V_skip | _, _ => v end) with v by (destruct v, rep; try reflexivity; exfalso; apply Rp; reflexivity).
  destruct (read_file_spec fuel p s) as (c & ec & s1 & -> & R1 & R2 & R3 & R4 & R5); [intros b X; rewrite F in X; injection X as <-; exact Fu|].
  specialize (R5 C). rewrite F in R5. subst ec. destruct (R4 eq_refl) as (b & X & Hz & Hb). rewrite F in X. injection X as <-. cbv beta iota. change (F_OK =? 0) with true. cbv beta iota.
  assert (Nb : bs <> []) by (inversion H; subst; [exact Ne|intros Y; apply app_eq_nil in Y as [_ Y]; exact (Ne Y)|exact Ne]).
  assert (exists cells, f_data c = Some cells /\ length cells = f_capacity c /\ firstn (length bs) cells = bs) as (cells & D & Lc & Fc) by (destruct bs; [congruence|exact Hb]). clear Hb.
  rewrite D. assert (Le : (f_size c <= length cells)%nat) by (rewrite Hz, <- Fc; rewrite firstn_length; lia).
  destruct (C84_other_forms_partial mem f us rest v rep true enc e cells (f_size c) Ml Nf Ub Lr Nc Vr Ne Le) as (conv & data & cap & Q & V1 & V2); [rewrite Hz, Fc; exact H|]. pose proof (kept_apart _ _ _ _ _ _ _ _ _ _ _ Q) as Ap. rewrite Q. clear Q. cbv beta iota.
  assert (Ow : o_live s1 = S (o_live s)) by (rewrite R3; unfold owned; rewrite D; lia).
  assert (0 < f_capacity c)%nat as Pc by (rewrite <- Lc; destruct cells; [destruct bs; [congruence|discriminate Fc]|cbn; lia]).
  assert (Fin : forall s2, o_live s2 <> 0%nat -> exists s', (' (_, s0) <- tmu_destroy_contents c s2 ;; Some s0) = Some s' /\ o_tree s' = o_tree s2 /\ o_handles s' = o_handles s2 /\ S (o_live s') = o_live s2).
  { intros s2 Nz. unfold tmu_destroy_contents. rewrite D. destruct (Nat.ltb_spec 0 (f_capacity c)); [|lia]. unfold free. destruct (o_live s2); [congruence|]. cbv beta iota. eexists. split; [reflexivity|]. repeat split. }
  destruct data as [|taken cells'].
  - destruct (Fin s1 ltac:(lia)) as (s' & Q & F1 & F2 & F3). rewrite Q. cbv beta iota. exists conv, (FContents None (v_size conv) cap), s'. split; [reflexivity|]. split; [exact V1|]. split; [congruence|]. split; [congruence|]. split; [cbn [owned f_data]; lia|].
    destruct V2 as [(K & (_ & K2 & K3) & K4)|[K V2]]; [left; split; [exact K|]; split; [rewrite K2, K3; reflexivity|exact K4]|right]. split; [exact K|].
    destruct V2 as [(_ & _ & _ & t & _ & _ & [_ [more Y]])|(J & J2 & (_ & K2 & K3))]; [cbn in Y; destruct t; discriminate Y|]. right. split; [exact J|]. split; [exact J2|]. rewrite K2, K3. reflexivity.
  - cbn [is_input] in Ap. destruct taken; [discriminate Ap|]. destruct (Fin (live_up s1) ltac:(cbn; lia)) as (s' & Q & F1 & F2 & F3). cbn [o_tree o_handles o_live live_up] in F1, F2, F3. rewrite Q. cbv beta iota. exists conv, (FContents (Some cells') (v_size conv) cap), s'.
    split; [reflexivity|]. split; [exact V1|]. split; [congruence|]. split; [congruence|]. split; [cbn [owned f_data]; lia|].
    destruct V2 as [(_ & (Y & _) & _)|[K V2]]; [discriminate Y|]. right. split; [exact K|].
    destruct V2 as [(J1 & J2 & J3 & t & J4 & J5 & [J6 [more J7]])|(_ & _ & (Y & _))]; [|discriminate Y]. left. split; [exact J1|]. split; [exact J2|]. split; [exact J3|]. exists t, more. unfold mem_cells in J6, J7. cbn [app] in J7. cbn [f_size f_data f_capacity]. rewrite <- J7. auto.
Qed.
