(** Conversion of bytes into an allocated string. *)
From Coq Require Import Arith NArith ZArith List Bool Lia.
From Coq Require Import ZifyBool ZifyNat ZifyN.
From Verif Require Import Base CodecModel CodecProofs UniModel UniSpec UniProofs UniValid UniConv BytesModel BytesSpec BytesProofs.
Import ListNotations.
Local Open Scope N_scope.

Lemma firstn_splice : forall c p ch, (p + length ch <= length c)%nat -> firstn (p + length ch) (splice c p ch) = firstn p c ++ ch.
Proof.
  intros c p ch L. unfold splice. rewrite app_assoc. rewrite firstn_app. rewrite app_length, firstn_length. replace (p + length ch - (Nat.min p (length c) + length ch))%nat with 0%nat by lia. rewrite firstn_O, app_nil_r.
  apply firstn_all2. rewrite app_length, firstn_length. lia.
Qed.
Section Dynamic.
Variable fresh : nat -> nat -> option (list N).
Hypothesis fresh_length : forall k n c, fresh k n = Some c -> length c = n.
Variable inp : bool.   (* whether the stream may hold the block of the input *)
Variable e : encoding.
Definition dyn (o : bstream) (bs : list N) (i : bool) : Prop :=
  b_enc o = e /\ b_grow o = true /\ b_ec o = OK /\ b_inv o = i /\ b_size o = length bs /\ (b_input_freed o = true -> inp = true) /\ b_left o = [] /\
  ((b_data o = Null /\ b_capacity o = 0%nat /\ b_owns o = false /\ bs = []) \/
   exists k c, b_data o = Block k c /\ (k = true -> inp = true) /\ length c = b_capacity o /\ (0 < b_capacity o)%nat /\ b_owns o = true /\ (length bs <= length c)%nat /\ firstn (length bs) c = bs).
Definition oom (o : bstream) : Prop :=
  b_enc o = e /\ b_ec o = ENOMEM /\ b_data o = Null /\ b_size o = 0%nat /\ b_capacity o = 0%nat /\ (b_input_freed o = true -> inp = true) /\ exists k n, fresh k n = None.
Lemma dyn_cells : forall o bs i, dyn o bs i -> length (cells o) = b_capacity o /\ firstn (length bs) (cells o) = bs /\ (length bs <= b_capacity o)%nat.
Proof using All.
  intros o bs i (H1 & H2 & H3 & H4 & H5 & H6 & H7 & [(D1 & D2 & D3 & ->)|(k & c & D1 & D2 & D3 & D4 & D5 & D6 & D7)]); unfold cells; rewrite D1.
  - rewrite D2. repeat split. apply Nat.le_refl.
  - split; [exact D3|]. split; [exact D7|]. lia.
Qed.
Lemma dyn_grow : forall o bs i n, dyn o bs i -> (b_capacity o < length bs + n)%nat -> exists ok o', tmu_output_grow fresh o n = Some (ok, o') /\ if ok then dyn o' bs i /\ (length bs + n <= b_capacity o')%nat else oom o'.
Proof using All.
  intros o bs i n H L. pose proof (dyn_cells o bs i H) as (Lc & Fc & Lb). destruct H as (H1 & H2 & H3 & H4 & H5 & H6 & H7 & D). unfold tmu_output_grow, assert_. rewrite H2, H3, H5. rewrite (proj2 (Nat.ltb_lt _ _) L). cbn [errc_eqb].
  set (m := Nat.max (b_capacity o + b_capacity o / 2) (b_capacity o + n)). assert (Hm : (b_capacity o + n <= m)%nat) by (unfold m; lia). clearbody m. destruct (fresh (b_requests o) m) as [c|] eqn:Ef.
  - pose proof (fresh_length _ _ _ Ef) as Lf. destruct D as [(D1 & D2 & D3 & ->)|(k & c0 & D1 & D2 & D3 & D4 & D5 & D6 & D7)].
    + rewrite D1, D3. unfold cells. rewrite D1. cbn [length firstn write_list]. eexists true, _. split; [reflexivity|]. split; [|cbn [length b_capacity]; lia]. unfold dyn. cbn [b_enc b_grow b_ec b_inv b_size b_input_freed b_left b_data b_capacity b_owns].
      do 7 (split; [first [assumption|reflexivity]|]). right. exists false, c. cbn [length] in *. split; [reflexivity|]. split; [discriminate|]. split; [exact Lf|]. split; [lia|]. split; [reflexivity|]. split; [lia|reflexivity].
    + rewrite D1, D5. rewrite (proj2 (Nat.ltb_lt _ _) D4). eexists true, _. split; [reflexivity|]. split; [|cbn [b_capacity]; lia]. unfold dyn. cbn [b_enc b_grow b_ec b_inv b_size b_input_freed b_left b_data b_capacity b_owns].
      do 5 (split; [first [assumption|reflexivity]|]). split; [intros Q; apply orb_true_iff in Q as [Q|Q]; auto|]. split; [exact H7|]. right. eexists false, _. split; [reflexivity|]. split; [discriminate|].
      assert (La : length (c0 ++ skipn (length c0) c) = m) by (rewrite app_length, skipn_length; lia). split; [exact La|]. split; [lia|]. split; [reflexivity|]. split; [lia|].
      rewrite firstn_app. replace (length bs - length c0)%nat with 0%nat by lia. rewrite firstn_O, app_nil_r. exact D7.
  - assert (G : exists ok o', Some (false, tmu_destroy_output (BStream (b_data o) (length bs) (b_necessary o) (b_capacity o) true (b_owns o) ENOMEM (b_enc o) (b_inv o) (S (b_requests o)) (b_input_freed o) (b_left o))) = Some (ok, o') /\ if ok then dyn o' bs i /\ (length bs + n <= b_capacity o')%nat else oom o').
    { eexists false, _. split; [reflexivity|]. unfold oom, tmu_destroy_output. cbn [b_enc b_ec b_data b_size b_capacity b_input_freed b_owns]. split; [exact H1|]. do 4 (split; [reflexivity|]). split; [|eauto].
      intros Q. apply orb_true_iff in Q as [Q|Q]; [auto|]. apply andb_true_iff in Q as [Q1 Q2]. destruct D as [(D1 & _)|(k & c0 & D1 & D2 & _)]; rewrite D1 in Q2; [discriminate|]. destruct k; [auto|discriminate]. }
    destruct D as [(D1 & D2 & D3 & ->)|(k & c0 & D1 & D2 & D3 & D4 & D5 & D6 & D7)].
    + rewrite D1 in *. exact G.
    + rewrite D1, D5 in *. rewrite (proj2 (Nat.ltb_lt _ _) D4). exact G.
Qed.
Lemma dyn_put : forall o bs i ch n, dyn o bs i -> (length bs + length ch <= b_capacity o)%nat -> (ch <> [] -> exists k c, b_data o = Block k c) ->
  dyn (set_size (set_cells (set_necessary o n) (splice (cells o) (length bs) ch)) (length bs + length ch)) (bs ++ ch) i.
Proof using All.
  intros o bs i ch n H L B. pose proof (dyn_cells o bs i H) as (Lc & Fc & Lb). destruct H as (H1 & H2 & H3 & H4 & H5 & H6 & H7 & D). unfold dyn. cbn [b_enc b_grow b_ec b_inv b_size b_input_freed b_left b_data b_capacity b_owns set_size set_cells set_necessary].
  do 4 (split; [assumption|]). split; [rewrite app_length; reflexivity|]. do 2 (split; [assumption|]). destruct D as [(D1 & D2 & D3 & ->)|(k & c0 & D1 & D2 & D3 & D4 & D5 & D6 & D7)].
  - left. rewrite D1. split; [reflexivity|]. split; [exact D2|]. split; [exact D3|]. destruct ch; [reflexivity|]. cbn [length] in L. lia.
  - right. unfold cells in *. rewrite D1 in *. eexists k, _. split; [reflexivity|]. split; [exact D2|]. split; [rewrite splice_length; lia|]. split; [exact D4|]. split; [exact D5|]. split; [rewrite splice_length, app_length; lia|].
    rewrite app_length, firstn_splice by lia. rewrite D7. reflexivity.
Qed.
Lemma dyn_has_block : forall o bs i n, dyn o bs i -> (0 < n)%nat -> (length bs + n <= b_capacity o)%nat -> exists k c, b_data o = Block k c.
Proof using All. intros o bs i n (H1 & H2 & H3 & H4 & H5 & H6 & H7 & [(D1 & D2 & D3 & ->)|(k & c0 & D1 & _)]) L L2; [cbn [length] in L2; lia|eauto]. Qed.
Lemma dyn_same : forall o bs i n, dyn o bs i -> dyn (set_necessary o n) bs i.
Proof using All. intros o bs i n H. unfold dyn in *. cbn [b_enc b_grow b_ec b_inv b_size b_input_freed b_left b_data b_capacity b_owns set_necessary]. exact H. Qed.
Lemma set_cells_same : forall o, set_cells o (cells o) = o.
Proof using All. intros [[|k c] ? ? ? ? ? ? ? ? ? ? ?]; reflexivity. Qed.
Lemma dyn_cp : forall o bs i v ch, dyn o bs i -> utf8_seq v ch -> exists ok o', tmu_output_append_codepoint fresh o v = Some (ok, o') /\ if ok then dyn o' (bs ++ ch) i else oom o'.
Proof using All.
  intros o bs i v ch H S. pose proof (dyn_cells o bs i H) as (Lc & Fc & Lb). assert (Hz : b_size o = length bs) by apply H. assert (He : b_ec o = OK) by apply H. assert (Hg : b_grow o = true) by apply H. unfold tmu_output_append_codepoint. rewrite Hz.
  destruct (utf8_encode_spec v (cells o) (length bs) (b_capacity o - length bs) (seq_scalar v ch S) ltac:(lia)) as (ch' & S' & E). rewrite (seq_fun v ch' ch S' S) in E. rewrite E. pose proof (utf8_ne v ch S) as Ne.
  cbn [b_ec set_necessary set_cells]. rewrite He. cbn [errc_eqb]. destruct (Nat.ltb_spec (b_capacity o - length bs) (length ch)) as [R|R].
  - cbn [b_grow set_necessary set_cells]. rewrite Hg. rewrite set_cells_same. destruct (dyn_grow (set_necessary o (b_necessary o + length ch)) bs i (length ch) (dyn_same _ _ _ _ H) ltac:(cbn [b_capacity set_necessary]; lia)) as (ok & o' & Eg & P). rewrite Eg. destruct ok; [|eexists false, _; split; [reflexivity|exact P]].
    destruct P as [P Pc]. pose proof (dyn_cells o' bs i P) as (Lc' & Fc' & Lb'). assert (Hz' : b_size o' = length bs) by apply P. rewrite Hz'.
    destruct (utf8_encode_spec v (cells o') (length bs) (b_capacity o' - length bs) (seq_scalar v ch S) ltac:(lia)) as (ch'' & S'' & E''). rewrite (seq_fun v ch'' ch S'' S) in E''. rewrite E''. unfold assert_. rewrite (proj2 (Nat.leb_le (length ch) _)) by lia.
    rewrite (proj2 (Nat.ltb_ge _ _)) by lia. eexists true, _. split; [reflexivity|]. pose proof (dyn_put o' bs i ch (b_necessary o') P ltac:(lia) ltac:(intros _; apply (dyn_has_block o' bs i (length ch) P); lia)) as Q. destruct o'; exact Q.
  - eexists true, _. split; [reflexivity|]. cbn [b_size set_necessary set_cells]. rewrite Hz. apply dyn_put; [exact H|lia|]. intros _. apply (dyn_has_block o bs i (length ch) H); lia.
Qed.
Lemma dyn_str : forall o bs i str, dyn o bs i -> str <> [] -> exists ok o', tmu_output_append_str fresh o str = Some (ok, o') /\ if ok then dyn o' (bs ++ str) i else oom o'.
Proof using All.
  intros o bs i ch H Ne. pose proof (dyn_cells o bs i H) as (Lc & Fc & Lb). assert (Hz : b_size o = length bs) by apply H. assert (He : b_ec o = OK) by apply H. assert (Hg : b_grow o = true) by apply H. unfold tmu_output_append_str. rewrite Hz.
  assert (Ln : (0 < length ch)%nat) by (destruct ch; [congruence|cbn [length]; lia]). unfold assert_. rewrite (proj2 (Nat.ltb_lt _ _) Ln).
  cbn [b_ec set_necessary set_cells]. rewrite He. cbn [errc_eqb]. destruct (Nat.ltb_spec (b_capacity o - length bs) (length ch)) as [R|R].
  - cbn [b_grow set_necessary set_cells]. rewrite Hg. destruct (dyn_grow (set_necessary o (b_necessary o + length ch)) bs i (length ch) (dyn_same _ _ _ _ H) ltac:(cbn [b_capacity set_necessary]; lia)) as (ok & o' & Eg & P). rewrite Eg. destruct ok; [|eexists false, _; split; [reflexivity|exact P]].
    destruct P as [P Pc]. pose proof (dyn_cells o' bs i P) as (Lc' & Fc' & Lb'). assert (Hz' : b_size o' = length bs) by apply P. rewrite Hz'. rewrite (proj2 (Nat.leb_le (length ch) _)) by lia. rewrite write_list_splice by lia.
    eexists true, _. split; [reflexivity|]. pose proof (dyn_put o' bs i ch (b_necessary o') P ltac:(lia) ltac:(intros _; apply (dyn_has_block o' bs i (length ch) P); lia)) as Q. destruct o'; exact Q.
  - cbn [b_size b_capacity set_necessary]. rewrite Hz. rewrite (proj2 (Nat.leb_le (length ch) _)) by lia. replace (cells (set_necessary o (b_necessary o + length ch))) with (cells o) by reflexivity. rewrite write_list_splice by lia. eexists true, _. split; [reflexivity|].
    apply dyn_put; [exact H|lia|]. intros _. apply (dyn_has_block o bs i (length ch) H); lia.
Qed.
Lemma dyn_inv : forall o bs i, dyn o bs i -> dyn (set_inv o true) bs true.
Proof using All. intros o bs i H. unfold dyn in *. cbn [b_enc b_grow b_ec b_inv b_size b_input_freed b_left b_data b_capacity b_owns set_inv]. tauto. Qed.
Definition dyn_error (o : bstream) (i : bool) : Prop :=
  b_enc o = e /\ b_ec o = EINVAL /\ b_inv o = i /\ b_data o = Null /\ b_size o = 0%nat /\ b_capacity o = 0%nat /\ (b_input_freed o = true -> inp = true).
Lemma dyn_destroy : forall o bs i, dyn o bs i -> dyn_error (tmu_destroy_output (set_ec o EINVAL)) i.
Proof using All.
  intros o bs i (H1 & H2 & H3 & H4 & H5 & H6 & H7 & D). unfold dyn_error, tmu_destroy_output. cbn [b_enc b_ec b_inv b_data b_size b_capacity b_input_freed b_owns set_ec]. do 6 (split; [first [assumption|reflexivity]|]).
  intros Q. apply orb_true_iff in Q as [Q|Q]; [auto|]. apply andb_true_iff in Q as [Q1 Q2]. destruct D as [(D1 & _)|(k & c0 & D1 & D2 & _)]; rewrite D1 in Q2; [discriminate|]. destruct k; [auto|discriminate].
Qed.
(** The string handed out: the octets [bs], then the terminator if one was asked for; nothing allocated for an empty string without one. *)
Definition string_out (o : bstream) (bs : list N) (nt : bool) (i : bool) : Prop :=
  b_enc o = e /\ b_ec o = OK /\ b_inv o = i /\ b_size o = length bs /\ (b_input_freed o = true -> inp = true) /\ length (cells o) = b_capacity o /\
  (length (bs ++ if nt then [0%N] else []) <= b_capacity o)%nat /\ firstn (length (bs ++ if nt then [0] else [])) (cells o) = bs ++ (if nt then [0] else []) /\
  (b_data o = Null -> b_capacity o = 0%nat) /\ (b_owns o = match b_data o with Null => false | _ => true end).
Lemma dyn_string : forall o bs i, dyn o bs i -> string_out o bs false i.
Proof using All.
  intros o bs i H. pose proof (dyn_cells o bs i H) as (Lc & Fc & Lb). destruct H as (H1 & H2 & H3 & H4 & H5 & H6 & H7 & D). unfold string_out. rewrite app_nil_r. do 8 (split; [assumption|]). destruct D as [(D1 & D2 & D3 & ->)|(k & c0 & D1 & D2 & D3 & D4 & D5 & D6 & D7)]; rewrite D1; [auto|split; [discriminate|exact D5]].
Qed.
Lemma dyn_terminate : forall o bs i, dyn o bs i -> exists ok o', terminate fresh o = Some (ok, o') /\ if ok then string_out o' bs true i else oom o'.
Proof using All.
  intros o bs i H. unfold terminate. destruct (dyn_cp o bs i 0 [0] H seq_zero) as (ok & o' & E & P). rewrite E. destruct ok; [|eexists false, _; split; [reflexivity|exact P]]. eexists true, _. split; [reflexivity|].
  pose proof (dyn_cells o' _ i P) as (Lc & Fc & Lb). destruct P as (H1 & H2 & H3 & H4 & H5 & H6 & H7 & D). unfold string_out. cbn [b_enc b_ec b_inv b_size b_input_freed b_data b_capacity b_owns set_size]. replace (cells (set_size o' (pred (b_size o')))) with (cells o') by reflexivity.
  do 3 (split; [assumption|]). split; [rewrite H5, app_length; cbn [length]; lia|]. do 4 (split; [assumption|]). destruct D as [(D1 & D2 & D3 & D4)|(k & c0 & D1 & D2 & D3 & D4 & D5 & D6 & D7)]; rewrite D1; [auto|split; [discriminate|exact D5]].
Qed.
(** The conversion of code values into an allocated string. *)
Definition allocated (v : validate) (rep : list N) (nt : bool) (cps rest : list N) (o : bstream) : Prop :=
  oom o \/
  (v = V_error /\ ~ Forall scalar cps /\ dyn_error o true) \/
  ((v = V_error -> Forall scalar cps) /\ exists bs, rendered (replacement v rep) cps bs /\
    match rest with [] => string_out o bs nt (existsb bad cps) | _ => dyn_error o (existsb bad cps) end).
Lemma loop_end_dyn : forall nt rest o bs i, dyn o bs i -> exists o', loop_end fresh nt (rest, Go o) = Some o' /\ (oom o' \/ match rest with [] => string_out o' bs nt i | _ => dyn_error o' i end).
Proof using All.
  intros nt rest o bs i H. unfold loop_end. assert (He : b_ec o = OK) by apply H. rewrite He. destruct rest as [|x rest]; cbn [negb andb errc_eqb ok_or_range].
  - destruct nt; cbn [andb].
    + destruct (dyn_terminate o bs i H) as (ok & o' & E & P). rewrite E. destruct ok; eauto.
    + exists o. split; [reflexivity|]. right. apply dyn_string. exact H.
  - eexists. split; [reflexivity|]. right. apply (dyn_destroy o bs i H).
Qed.
Lemma convert_dyn : forall loop cps rest bytes,
  (forall v rep o, exists left, loop v rep bytes o = match handles fresh v rep cps o with None => None | Some (Go o') => Some (rest, Go o') | Some (Stop o') => Some (left o', Stop o') end) ->
  forall v rep nt o, (v = V_replace -> rep <> []) -> dyn o [] false -> b_data o = Null -> bytes <> [] ->
  exists o', convert_bytes fresh loop v rep nt bytes o = Some o' /\ allocated v rep nt cps rest o'.
Proof using All.
  intros loop cps rest bytes HL v rep nt o Hr H Hn Hb. unfold convert_bytes, assert_. replace (match v, rep with V_replace, [] => false | _, _ => true end) with true by (destruct v, rep; try reflexivity; exfalso; apply Hr; reflexivity).
  assert (Lb : (0 < length bytes)%nat) by (destruct bytes; [congruence|cbn [length]; lia]). assert (A : exists ok o', tmu_alloc_output_stream fresh o (length bytes + length bytes / 2) = (ok, o') /\ if ok then dyn o' [] false else oom o').
  { destruct H as (H1 & H2 & H3 & H4 & H5 & H6 & H7 & D). unfold tmu_alloc_output_stream. rewrite H2. destruct D as [(D1 & D2 & D3 & _)|(k & c0 & D1 & _)]; [|congruence]. rewrite D2. set (m := (length bytes + length bytes / 2)%nat). assert (Hm : (0 < m)%nat) by (unfold m; lia). clearbody m.
    rewrite (proj2 (Nat.ltb_lt _ _) Hm). cbn [andb]. destruct (fresh (b_requests o) m) as [c|] eqn:Ef.
    - eexists true, _. split; [reflexivity|]. pose proof (fresh_length _ _ _ Ef) as Lf. unfold dyn. cbn [b_enc b_grow b_ec b_inv b_size b_input_freed b_left b_data b_capacity b_owns length]. do 7 (split; [first [assumption|reflexivity]|]). right. exists false, c. cbn [firstn]. split; [reflexivity|]. split; [discriminate|]. split; [exact Lf|]. split; [exact Hm|]. split; [reflexivity|]. split; [lia|reflexivity].
    - eexists false, _. split; [reflexivity|]. unfold oom. cbn [b_enc b_ec b_data b_size b_capacity b_input_freed]. do 6 (split; [first [assumption|reflexivity]|]). eauto. }
  destruct A as (ok & o1 & EA & PA). rewrite EA. destruct ok; [|exists o1; split; [reflexivity|left; exact PA]]. destruct (HL v rep o1) as [left EL]. rewrite EL. clear EL HL EA Hn H o. rename o1 into o. rename PA into H.
  assert (G : forall r bs, rendered r cps bs -> r = replacement v rep -> (v = V_skip /\ r = [] \/ v = V_replace /\ r = rep /\ rep <> [] \/ v = V_error /\ Forall scalar cps) ->
    exists o', (r0 <- match handles fresh v rep cps o with Some (Go o') => Some (rest, Go o') | Some (Stop o') => Some (left o', Stop o') | None => None end;; loop_end fresh nt r0) = Some o' /\ allocated v rep nt cps rest o').
  { intros r bs R Er M. destruct (handles_spec fresh dyn oom dyn_cp dyn_str dyn_inv r rep cps bs R v M o [] false H) as (s & Es & P). rewrite Es. destruct s as [o'|o'].
    - destruct (loop_end_dyn nt rest o' _ _ P) as (o2 & E2 & P2). rewrite E2. exists o2. split; [reflexivity|]. destruct P2 as [P2|P2]; [left; exact P2|]. right. right. split; [destruct M as [[-> _]|[[-> _]|[_ Q]]]; [discriminate|discriminate|auto]|]. exists bs. rewrite <- Er. split; [exact R|]. exact P2.
    - exists o'. split; [reflexivity|]. left. exact P. }
  destruct (rendered_exists (replacement v rep) cps) as [bs R]. destruct v.
  - apply (G _ bs R eq_refl). auto.
  - apply (G _ bs R eq_refl). right. left. auto.
  - destruct (scalars_dec cps) as [Sc|Sc].
    + apply (G _ bs R eq_refl). auto.
    + destruct (handles_error fresh dyn oom dyn_cp dyn_inv dyn_error dyn_destroy rep cps Sc o [] false H) as (o' & Es & P). rewrite Es. exists o'. split; [reflexivity|]. destruct P as [P|P]; [right; left; auto|left; exact P].
Qed.
End Dynamic.
