(** The id allocators: what a client can rely on. *)
From Coq Require Import ZArith List Bool Lia ZifyBool ZifyNat.
From Verif Require Import Base IdModel IdProofs IdGen IdIter.
Import ListNotations.
Local Open Scope Z_scope.

(** * C49: plain ids *)
Fixpoint play (dbg : bool) (c : client) (ops : list op) : option client :=
  match ops with [] => Some c | o :: r => c' <- exec dbg c o ;; play dbg c' r end.

Lemma history_elem : forall dbg initial elements c, 1 <= initial -> 4 <= elements -> initial * elements < 2 ^ 31 ->
  history dbg initial elements c -> asize (a c) = elements.
Proof.
  intros dbg initial elements c H1 H2 H3 H. induction H as [a0 E|c o c' H IH D E].
  - unfold fixed_new in E. rewrite check_true in E by lia. destruct (Z.leb_spec initial 0); [lia|].
    rewrite int32_small in E by lia. inversion E; subst a0. reflexivity.
  - pose proof (history_inv dbg initial elements c H1 H2 H3 H) as I. rewrite <- IH. destruct o as [ro|id|id v]; cbn [exec allowed] in *.
    + destruct (IdProofs.create_eq dbg c ro I D) as (a' & id & Ea & A1 & _). rewrite Ea in E. destruct (id =? 0); inversion E; subst c'; exact A1.
    + rewrite (destroy_eq dbg c id I D) in E. inversion E; subst c'. reflexivity.
    + destruct (id_bounds c id I ltac:(apply in_or_app; now left)) as (X1 & X2 & X3 & X4 & X5). rewrite X4 in E.
      unfold store in E. rewrite X5 in E. inversion E; subst c'. reflexivity.
Qed.

(** The live ids are distinct, every one resolves, and their storage is inside of the memory and disjoint. *)
Theorem C49_ids_partial : forall dbg initial elements c, 1 <= initial -> 4 <= elements -> initial * elements < 2 ^ 31 ->
  history dbg initial elements c ->
  NoDup (live c) /\
  (forall id, In id (live c) -> exists off, fixed_data (a c) id = Some off /\ 0 <= off /\ off + elements <= cap (a c) * elements) /\
  (forall id1 id2 off1 off2, In id1 (live c) -> In id2 (live c) -> id1 <> id2 ->
     fixed_data (a c) id1 = Some off1 -> fixed_data (a c) id2 = Some off2 -> off1 + elements <= off2 \/ off2 + elements <= off1).
Proof.
  intros dbg initial elements c H1 H2 H3 H. pose proof (history_inv dbg initial elements c H1 H2 H3 H) as I.
  pose proof (history_elem dbg initial elements c H1 H2 H3 H) as Ee. split; [|split].
  - pose proof (i_nodup _ I) as Nd. clear - Nd. induction (live c) as [|x l IH]; [constructor|]. cbn [app] in Nd. apply NoDup_cons_iff in Nd as [N1 N2].
    constructor; [|auto]. intros Q. apply N1. apply in_or_app. now left.
  - intros id Hid. destruct (id_bounds c id I ltac:(apply in_or_app; now left)) as (X1 & X2 & X3 & X4 & X5). rewrite Ee in *.
    exists ((id - 1) * elements). split; [exact X4|]. split; [exact X2|]. pose proof (i_size _ I). nia.
  - intros x y o1 o2 Hx Hy Hn E1 E2. destruct (id_bounds c x I ltac:(apply in_or_app; now left)) as (_ & _ & _ & X4 & _).
    destruct (id_bounds c y I ltac:(apply in_or_app; now left)) as (_ & _ & _ & Y4 & _). rewrite Ee in *.
    assert (o1 = (x - 1) * elements) by congruence. assert (o2 = (y - 1) * elements) by congruence. subst. nia.
Qed.
(** Creating never fails while a destroyed id is left: the latest one is handed out again and no memory is
    taken. Otherwise the id is new, or 0 if the memory could not be extended. *)
Theorem C49_create_partial : forall dbg initial elements c realloc_ok, 1 <= initial -> 4 <= elements -> initial * elements < 2 ^ 31 ->
  history dbg initial elements c -> allowed c (Create realloc_ok) ->
  exists a' id, fixed_create dbg (a c) realloc_ok = Some (a', id) /\ ~ In id (live c) /\
    match freed c with
    | x :: _ => id = x /\ cap a' = cap (a c)
    | [] => id = 0 /\ realloc_ok = false /\ a' = a c \/ 0 < id /\ cap (a c) <= cap a'
    end.
Proof.
  intros dbg initial elements c ro H1 H2 H3 H D. pose proof (history_inv dbg initial elements c H1 H2 H3 H) as I.
  destruct (IdProofs.create_eq dbg c ro I D) as (a' & id & Ea & A1 & A2 & A3 & R). exists a', id. split; [exact Ea|].
  assert (Ni : forall x, In x (live c) -> 1 <= x <= size (a c)) by (intros x Hx; apply (i_ids _ I); apply in_or_app; now left).
  pose proof (i_nodup _ I) as Nd. pose proof (i_size _ I) as Es.
  destruct (freed c) as [|x r] eqn:Ef.
  - destruct R as (F & [(-> & R1 & R2)|(-> & R1 & R2 & R3 & R4)]).
    + split; [intros Q; apply Ni in Q; lia|]. right. lia.
    + split; [intros Q; apply Ni in Q; lia|]. left. split; [reflexivity|]. split; [exact R4|].
      destruct a', (a c). cbn in *. congruence.
  - destruct R as (-> & R1 & R2 & R3). split; [|auto]. apply NoDup_remove_2 in Nd. intros Q. apply Nd. apply in_or_app. now left.
Qed.
(** A live id keeps its storage and its contents through every call that does not write to it. *)
Theorem C49_stable_partial : forall dbg initial elements c o c' id, 1 <= initial -> 4 <= elements -> initial * elements < 2 ^ 31 ->
  history dbg initial elements c -> allowed c o -> exec dbg c o = Some c' ->
  In id (live c) -> o <> Destroy id -> (forall v, o <> Poke id v) ->
  In id (live c') /\ fixed_data (a c') id = fixed_data (a c) id /\
  exists off, fixed_data (a c) id = Some off /\ heap (a c') off = heap (a c) off.
Proof.
  intros dbg initial elements c o c' id H1 H2 H3 H D E L Nd Np. pose proof (history_inv dbg initial elements c H1 H2 H3 H) as I.
  pose proof (step_inv dbg c o c' I D E) as I'.
  pose proof (history_elem dbg initial elements c H1 H2 H3 H) as Ee.
  pose proof (history_elem dbg initial elements c' H1 H2 H3 (H_step dbg initial elements c o c' H D E)) as Ee'.
  assert (L' : In id (live c') /\ heap (a c') ((id - 1) * elements) = heap (a c) ((id - 1) * elements)).
  { destruct o as [ro|x|x v]; cbn [exec allowed] in *.
    - destruct (IdProofs.create_eq dbg c ro I D) as (a' & y & Ea & A1 & A2 & A3 & R). rewrite Ea in E.
      destruct (y =? 0); inversion E; subst c'; cbn [live a]; (split; [try (right; exact L); exact L|now rewrite A2]).
    - rewrite (destroy_eq dbg c x I D) in E. inversion E; subst c'. cbn [live a heap]. split.
      + apply in_in_remove; [congruence|exact L].
      + rewrite Ee. apply heap_set_other. intros Q. apply off_inj in Q; [congruence|lia].
    - destruct (id_bounds c x I ltac:(apply in_or_app; now left)) as (X1 & X2 & X3 & X4 & X5). rewrite X4 in E.
      unfold store in E. rewrite X5 in E. inversion E; subst c'. cbn [live a heap]. split; [exact L|].
      rewrite Ee. apply heap_set_other. intros Q. apply off_inj in Q; [|lia]. apply (Np v). congruence. }
  destruct L' as [L' Hh]. split; [exact L'|].
  destruct (id_bounds c id I ltac:(apply in_or_app; now left)) as (_ & _ & _ & X4 & _).
  destruct (id_bounds c' id I' ltac:(apply in_or_app; now left)) as (_ & _ & _ & Y4 & _). rewrite Ee in X4. rewrite Ee' in Y4.
  split; [congruence|]. exists ((id - 1) * elements). split; [exact X4|exact Hh].
Qed.
(** Every allowed call runs through without assertion or access outside of the memory. *)
Theorem C49_no_assertion_partial : forall dbg initial elements c o, 1 <= initial -> 4 <= elements -> initial * elements < 2 ^ 31 ->
  history dbg initial elements c -> allowed c o -> exists c', exec dbg c o = Some c'.
Proof.
  intros dbg initial elements c o H1 H2 H3 H D. exact (exec_total dbg c o (history_inv dbg initial elements c H1 H2 H3 H) D).
Qed.
Example C49_case : exists c, history true 2 8 c /\ live c = [2; 4; 3] /\ freed c = [1].
Proof.
  assert (X : forall ops c, history true 2 8 c -> forall c', play true c ops = Some c' ->
    (fix ok (c : client) (ops : list op) : Prop :=
       match ops with [] => True | o :: r => allowed c o /\ match exec true c o with Some c1 => ok c1 r | None => True end end) c ops ->
    history true 2 8 c').
  { induction ops as [|o r IH]; intros c H c' E D; cbn [play] in E; [inversion E; subst; exact H|].
    destruct D as [D1 D2]. destruct (exec true c o) as [c1|] eqn:E1; [|discriminate E].
    apply (IH c1); [eapply H_step; eassumption|exact E|exact D2]. }
  eexists. split; [eapply (X [Create true; Create true; Create true; Create true; Destroy 1; Destroy 2; Create false]
     (Client (Ids 0 2 (-1) 8 (fun _ => None)) [] [])); [apply H_new; reflexivity|vm_compute; reflexivity|]|split; reflexivity].
  vm_compute. repeat split; try discriminate; auto.
Qed.

(** Offsets are computed in 32 bits: with elements of 2^30 octets the fifth id has the storage of the first. *)
Theorem C49_refuted : exists a0 c, fixed_new true 1 (2 ^ 30) true = Some a0 /\
  play true (Client a0 [] []) [Create true; Create true; Create true; Create true; Create true] = Some c /\
  live c = [5; 4; 3; 2; 1] /\ fixed_data (a c) 5 = fixed_data (a c) 1 /\ fixed_data (a c) 1 = Some 0.
Proof.
  exists (Ids 0 1 (-1) (2 ^ 30) (fun _ => None)), (Client (Ids 5 6 (-1) (2 ^ 30) (fun _ => None)) [5; 4; 3; 2; 1] []).
  repeat split; vm_compute; reflexivity.
Qed.
(** An id that was never handed out can resolve, even to the storage of a live one. *)
Theorem C49_foreign_refuted : exists a0 c, fixed_new true 1 4 true = Some a0 /\
  play true (Client a0 [] []) [Create true] = Some c /\ live c = [1] /\
  fixed_data (a c) (2 ^ 31 + 1) = Some 0 /\ fixed_data (a c) 1 = Some 0.
Proof.
  exists (Ids 0 1 (-1) 4 (fun _ => None)), (Client (Ids 1 1 (-1) 4 (fun _ => None)) [1] []). repeat split; vm_compute; reflexivity.
Qed.
(** An allocator created with an initial capacity of zero is of no use: create runs into an assertion. *)
Theorem C49_empty_refuted : exists a0, fixed_new true 0 8 true = Some a0 /\ fixed_create true a0 true = None.
Proof. exists (Ids 0 0 (-1) 8 (fun _ => None)). split; reflexivity. Qed.

(** * C50: generational ids *)
Fixpoint gplay (dbg : bool) (c : gclient) (ops : list gop) : option gclient :=
  match ops with [] => Some c | o :: r => c' <- gexec dbg c o ;; gplay dbg c' r end.

(** In every history (whatever ids are destroyed, live or not), every 32 bit number may be asked for; exactly
    the ids of slots used for the first time and not destroyed since resolve, each to a slot of its own. *)
Theorem C50_resolves_partial : forall dbg initial elements c id, 1 <= initial -> 4 <= elements -> initial * elements < 2 ^ 31 ->
  ghistory dbg initial elements c -> 0 <= id < 2 ^ 32 ->
  exists r, gen_base (g c) id = Some r /\ (r <> None <-> In id (glive c)) /\
    forall off, r = Some off -> 0 <= off /\ off + asize (g c) <= cap (g c) * asize (g c).
Proof.
  intros dbg initial elements c id H1 H2 H3 H Hid. pose proof (ghistory_inv dbg initial elements c H1 H2 H3 H) as I.
  destruct (base_eq c id I Hid) as [(L & Hi & E)|(L & E)]; rewrite E; eexists; (split; [reflexivity|]).
  - split; [split; [auto|discriminate]|]. intros off Eo. inversion Eo; subst off.
    assert (0 <= h_id id) by (unfold h_id; apply Z.mod_pos_bound; lia). pose proof (g_size _ I). pose proof (g_elem _ I). nia.
  - split; [split; [congruence|contradiction]|]. discriminate.
Qed.
Theorem C50_distinct_partial : forall dbg initial elements c id1 id2 off1 off2, 1 <= initial -> 4 <= elements -> initial * elements < 2 ^ 31 ->
  ghistory dbg initial elements c -> In id1 (glive c) -> In id2 (glive c) -> id1 <> id2 ->
  gen_base (g c) id1 = Some (Some off1) -> gen_base (g c) id2 = Some (Some off2) ->
  off1 + asize (g c) <= off2 \/ off2 + asize (g c) <= off1.
Proof.
  intros dbg initial elements c x y o1 o2 H1 H2 H3 H Lx Ly Hn E1 E2. pose proof (ghistory_inv dbg initial elements c H1 H2 H3 H) as I.
  pose proof (g_slots _ I) as Hs. pose proof (g_elem _ I).
  destruct (g_live _ I x Lx) as (i & Hi & ->). destruct (g_live _ I y Ly) as (j & Hj & ->).
  destruct (first_fields i ltac:(lia)) as (_ & F2 & _ & F4). destruct (first_fields j ltac:(lia)) as (_ & G2 & _ & G4).
  destruct (base_eq c (first_id i) I ltac:(lia)) as [(_ & _ & B1)|(B1 & _)]; [|contradiction].
  destruct (base_eq c (first_id j) I ltac:(lia)) as [(_ & _ & B2)|(B2 & _)]; [|contradiction]. rewrite F2 in B1. rewrite G2 in B2.
  assert (o1 = i * asize (g c)) by congruence. assert (o2 = j * asize (g c)) by congruence.
  assert (i <> j) by congruence. subst. nia.
Qed.
(** A destroyed id never resolves again, whatever happens later. *)
Theorem C50_stale_partial : forall dbg initial elements c ops c' id, 1 <= initial -> 4 <= elements -> initial * elements < 2 ^ 31 ->
  ghistory dbg initial elements c -> 0 <= id < 2 ^ 32 -> h_id id < size (g c) -> ~ In id (glive c) ->
  (fix ok (c : gclient) (ops : list gop) : Prop :=
     match ops with [] => True | o :: r => gallowed c o /\ match gexec dbg c o with Some c1 => ok c1 r | None => True end end) c ops ->
  gplay dbg c ops = Some c' -> gen_base (g c') id = Some None.
Proof.
  intros dbg initial elements c ops c' id H1 H2 H3 H Hid. revert c H.
  induction ops as [|o r IH]; intros c H Hs L D E; cbn [gplay] in E.
  - inversion E; subst c'. pose proof (ghistory_inv dbg initial elements c H1 H2 H3 H) as I.
    destruct (base_eq c id I Hid) as [(Q & _)|(_ & Q)]; [contradiction|exact Q].
  - destruct D as [D1 D2]. destruct (gexec dbg c o) as [c1|] eqn:E1; [|discriminate E].
    apply (IH c1); [eapply G_step; eassumption| | |exact D2|exact E].
    + pose proof (ghistory_inv dbg initial elements c H1 H2 H3 H) as I. destruct o as [ro|x]; cbn [gexec] in E1.
      * destruct (gen_create dbg (g c) ro) as [[g' y]|] eqn:Eg; [|discriminate E1].
        destruct (IdGen.create_eq dbg c ro g' y I D1 Eg) as [(-> & -> & _)|[(N0 & R1 & j & R2 & ->)|(Ei & cp & R1 & R2 & ->)]].
        -- cbn in E1. inversion E1; subst c1. exact Hs.
        -- destruct (y =? 0); [|cbn [size] in E1; rewrite Z.eqb_refl in E1]; inversion E1; subst c1; exact Hs.
        -- destruct (y =? 0); [inversion E1; subst c1; cbn [g size]; lia|]. cbn [size] in E1.
           destruct (size (g c) + 1 =? size (g c)); inversion E1; subst c1; cbn [g size]; lia.
      * unfold gen_destroy in E1. cbn [gallowed] in D1.
        destruct (base_eq c x I D1) as [(Q & Hi & Eb)|(Q & Eb)]; rewrite Eb in E1; [|inversion E1; subst c1; exact Hs].
        unfold gen_push in E1. destruct (load (g c) (u32 (h_id x * asize (g c)))) as [hd|]; [|discriminate E1].
        unfold check, assert_ in E1. assert (E2 : exists k, c1 = GClient k (remove Z.eq_dec x (glive c)) (grecycled c) /\ size k = size (g c)).
        { unfold store in E1. destruct dbg; [destruct (hd =? x); [|discriminate E1]|];
            (destruct (inside_heap (g c) (u32 (h_id x * asize (g c)))); [|discriminate E1]); inversion E1; eexists; (split; [reflexivity|reflexivity]). }
        destruct E2 as (k & -> & Ek). cbn [g]. lia.
    + pose proof (ghistory_inv dbg initial elements c H1 H2 H3 H) as I. pose proof (g_slots _ I) as Hl. destruct o as [ro|x]; cbn [gexec] in E1.
      * destruct (gen_create dbg (g c) ro) as [[g' y]|] eqn:Eg; [|discriminate E1].
        destruct (IdGen.create_eq dbg c ro g' y I D1 Eg) as [(-> & -> & _)|[(N0 & R1 & j & R2 & ->)|(Ei & cp & R1 & R2 & ->)]].
        -- cbn in E1. inversion E1; subst c1. exact L.
        -- destruct (y =? 0); [|cbn [size] in E1; rewrite Z.eqb_refl in E1]; inversion E1; subst c1; exact L.
        -- destruct (y =? 0); [inversion E1; subst c1; exact L|]. cbn [size] in E1.
           destruct (size (g c) + 1 =? size (g c)); inversion E1; subst c1; cbn [glive]; [exact L|].
           intros [Q|Q]; [|contradiction]. destruct D1 as [D1 _]. pose proof (g_size _ I).
           destruct (first_fields (size (g c)) ltac:(lia)) as (_ & F2 & _). rewrite <- Ei, Q in F2. lia.
      * destruct (gen_destroy dbg (g c) x) as [g'|]; [|discriminate E1]. inversion E1; subst c1. cbn [glive].
        intros Q. apply in_remove in Q. tauto.
Qed.
Example C50_case : exists c, ghistory true 2 8 c /\ glive c = [first_id 2; first_id 1] /\
  gen_base (g c) (first_id 0) = Some None /\ gen_base (g c) (first_id 2) = Some (Some 16).
Proof.
  exists (GClient (Ids 3 6 0 8 (heap_set (heap_set (heap_set (heap_set (fun _ => None) 0 (first_id 0)) 8 (first_id 1)) 0 (h_make 1 (u32 (-1)) false)) 16 (first_id 2)))
            [first_id 2; first_id 1] []). split; [|repeat split; vm_compute; reflexivity].
  apply G_step with (c := GClient (Ids 2 2 0 8 (heap_set (heap_set (heap_set (fun _ => None) 0 (first_id 0)) 8 (first_id 1)) 0 (h_make 1 (u32 (-1)) false))) [first_id 1] [])
    (o := GCreate true); [|cbn; lia|reflexivity].
  apply G_step with (c := GClient (Ids 2 2 (-1) 8 (heap_set (heap_set (fun _ => None) 0 (first_id 0)) 8 (first_id 1))) [first_id 1; first_id 0] [])
    (o := GDestroy (first_id 0)); [|vm_compute; split; [discriminate|reflexivity]|reflexivity].
  apply G_step with (c := GClient (Ids 1 2 (-1) 8 (heap_set (fun _ => None) 0 (first_id 0))) [first_id 0] []) (o := GCreate true); [|cbn; lia|reflexivity].
  apply G_step with (c := GClient (Ids 0 2 (-1) 8 (fun _ => None)) [] []) (o := GCreate true); [|cbn; lia|reflexivity].
  apply G_new. reflexivity.
Qed.

(** No id that is handed out for a slot used before ever resolves. *)
Theorem C50_recycled_refuted : forall dbg initial elements c id, 1 <= initial -> 4 <= elements -> initial * elements < 2 ^ 31 ->
  ghistory dbg initial elements c -> In id (grecycled c) -> 0 <= id < 2 ^ 32 -> gen_base (g c) id = Some None.
Proof.
  intros dbg initial elements c id H1 H2 H3 H L Hid. pose proof (ghistory_inv dbg initial elements c H1 H2 H3 H) as I.
  destruct (base_eq c id I Hid) as [(Q & _)|(_ & Q)]; [|exact Q]. exfalso.
  apply (g_rec _ I) in L. destruct (g_live _ I id Q) as (i & Hi & ->). pose proof (g_slots _ I).
  destruct (first_fields i ltac:(lia)) as (F1 & _). congruence.
Qed.
(** Two elements, the second one destroyed: the next id is for its slot and does not resolve; the call to create after that
    runs into an assertion (or reads outside of the memory). *)
Theorem C50_refuted : exists g0 c id, gen_new 2 8 true = Some g0 /\
  gplay true (GClient g0 [] []) [GCreate true; GCreate true; GDestroy (first_id 1); GCreate true] = Some c /\
  grecycled c = [id] /\ id = h_make 1 1 true /\ gen_base (g c) id = Some None /\
  gen_create true (g c) true = None /\ gen_create false (g c) true = None.
Proof.
  exists (Ids 0 2 (-1) 8 (fun _ => None)),
    (GClient (Ids 2 2 (2 ^ 23 - 1) 8 (heap_set (heap_set (heap_set (fun _ => None) 0 (first_id 0)) 8 (first_id 1)) 8 (h_make 1 (u32 (-1)) false))) [first_id 0] [h_make 1 1 true]), (h_make 1 1 true).
  repeat split; try (vm_compute; reflexivity).
Qed.
(** After 2^23 elements create hands out the id of the first one a second time. *)
Theorem C50_exhausted_refuted : forall dbg, exists g0 g1, created dbg 1 8 g0 /\ gen_base g0 (first_id 0) = Some (Some 0) /\
  gen_create dbg g0 true = Some (g1, first_id 0).
Proof.
  intros dbg. destruct (created_all dbg (2 ^ 23 - 1) ltac:(lia) ltac:(lia)) as (g0 & C & S0 & A0 & F0 & B0 & H0).
  assert (Es : size g0 = 2 ^ 23) by lia. exists g0.
  assert (Ec : exists g1, gen_create dbg g0 true = Some (g1, first_id 0)).
  { unfold gen_create. rewrite check_true by lia. unfold gen_pop. rewrite F0. cbn [Z.ltb Z.compare negb Z.eqb]. unfold grow.
    set (a2 := if (cap g0 <=? size g0) && true then _ else _). cbv zeta.
    assert (A : size a2 = size g0 /\ asize a2 = 8 /\ size g0 < cap a2 < 2 ^ 26).
    { unfold a2. destruct (Z.leb_spec (cap g0) (size g0)) as [G|G]; cbn [andb]; [|repeat split; lia].
      destruct (next_capacity_bounds (cap g0) ltac:(lia)) as [N1 N2]. cbn [size cap free asize heap]. rewrite s32_small by lia. repeat split; lia. }
    clearbody a2. destruct A as (A1 & A3 & A5). rewrite A1, A3, Es.
    destruct (Z.ltb_spec (2 ^ 23) (cap a2)); [|lia]. rewrite int32_small by lia. unfold store, inside_heap. rewrite A3.
    assert (T : (0 <=? 2 ^ 23 * 8) && (2 ^ 23 * 8 + 4 <=? cap a2 * 8) = true) by lia. rewrite T. cbn [size cap free asize heap].
    rewrite int32_small by lia. eexists. reflexivity. }
  destruct Ec as [g1 Ec]. exists g1. split; [exact C|]. split; [|exact Ec].
  unfold gen_base. change (h_occupied (first_id 0)) with true. cbn [negb]. change (s32 (h_id (first_id 0))) with 0.
  destruct (Z.leb_spec (size g0) 0); [lia|]. change (h_id (first_id 0)) with 0. cbn [Z.mul]. change (u32 0) with 0.
  unfold load, inside_heap. assert (T : (0 <=? 0) && (0 + 4 <=? cap g0 * asize g0) = true) by lia. rewrite T, H0, Z.eqb_refl. reflexivity.
Qed.

(** * C91: element storage *)

(** If the size of an element is a multiple of its alignment and of 4, its storage is behind the header
    of its slot, ends in front of the next header, and is aligned. *)
Theorem C91_element_storage_partial : forall data element_size k i, 0 <= k -> 0 < element_size ->
  element_size mod slot_alignment (2 ^ k) = 0 -> data mod slot_alignment (2 ^ k) = 0 -> 0 <= i ->
  let base j := data + j * slot_size element_size (2 ^ k) in
  base i + 4 <= body data element_size (2 ^ k) i /\
  body data element_size (2 ^ k) i + element_size <= base (i + 1) /\
  body data element_size (2 ^ k) i mod 2 ^ k = 0.
Proof.
  intros data es k i Hk He Ee Ed Hi base. destruct (body_place data es k i Hk He Ee Ed Hi) as (B1 & B2 & B3).
  split; [exact B1|]. split; [exact B2|].
  destruct (slot_size_eq es k Hk) as [_ E2]. rewrite E2 in B3.
  apply Z.mod_divide in B3; [|apply Z.pow_nonzero; lia]. apply Z.mod_divide; [apply Z.pow_nonzero; lia|].
  eapply Z.divide_trans; [|exact B3]. exists (2 ^ (Z.max k 2 - k)). rewrite <- Z.pow_add_r by lia. f_equal. lia.
Qed.
Example C91_case : map (body 4096 12 (2 ^ 2)) [0; 1; 2] = [4100; 4116; 4132] /\ map (body 4096 48 (2 ^ 4)) [0; 1] = [4112; 4176].
Proof. split; reflexivity. Qed.
(** Elements of one octet: the second element lies in the header of the third. *)
Theorem C91_refuted : exists data element_size k, 0 < element_size /\ data mod 16 = 0 /\ element_size mod 2 ^ k = 0 /\
  let header j := data + j * slot_size element_size (2 ^ k) in
  header 2 <= body data element_size (2 ^ k) 1 < header 2 + 4.
Proof. exists 4096, 1, 0. repeat split; vm_compute; congruence. Qed.

(** * C92: iteration *)

(** The increment goes from any slot but the last to the next live element, or to the end if there is none. *)
Theorem C92_next_partial : forall dbg initial elements c i, 1 <= initial -> 4 <= elements -> initial * elements < 2 ^ 31 ->
  ghistory dbg initial elements c -> 0 <= i -> i + 1 < size (g c) ->
  exists it, iter_next dbg (g c) (at_slot c i) = Some it /\ first_from c (i + 1) it.
Proof.
  intros dbg initial elements c i H1 H2 H3 H Hi Hl.
  exact (iter_next_first dbg c i (ghistory_inv dbg initial elements c H1 H2 H3 H) Hi Hl).
Qed.
Theorem C92_begin_partial : forall dbg initial elements c, 1 <= initial -> 4 <= elements -> initial * elements < 2 ^ 31 ->
  ghistory dbg initial elements c -> size (g c) = 0 \/ alive c 0 \/ 2 <= size (g c) ->
  exists it, iter_begin dbg (g c) = Some it /\ first_from c 0 it.
Proof.
  intros dbg initial elements c H1 H2 H3 H Hc. exact (iter_begin_first dbg c (ghistory_inv dbg initial elements c H1 H2 H3 H) Hc).
Qed.
Theorem C92_end_partial : forall dbg initial elements c, 1 <= initial -> 4 <= elements -> initial * elements < 2 ^ 31 ->
  ghistory dbg initial elements c -> size (g c) * asize (g c) < 2 ^ 31 -> iter_end (g c) = Some (at_slot c (size (g c))).
Proof.
  intros dbg initial elements c H1 H2 H3 H Hb. pose proof (ghistory_inv dbg initial elements c H1 H2 H3 H) as I.
  pose proof (g_size _ I). pose proof (g_elem _ I). unfold iter_end, at_slot. rewrite int32_small by nia. rewrite Z.sub_diag. reflexivity.
Qed.
Example C92_case : exists h, let c := GClient (Ids 3 6 0 8 h) [first_id 2; first_id 1] [] in
  iter_begin true (g c) = Some (at_slot c 1) /\ iter_next true (g c) (at_slot c 1) = Some (at_slot c 2) /\
  iter_id (g c) (at_slot c 2) = Some (first_id 2) /\ iter_end (g c) = Some (at_slot c 3).
Proof.
  exists (heap_set (heap_set (heap_set (heap_set (fun _ => None) 0 (first_id 0)) 8 (first_id 1)) 0 (h_make 1 (u32 (-1)) false)) 16 (first_id 2)).
  repeat split; vm_compute; reflexivity.
Qed.
(** Whenever the last slot holds a live element, leaving it reads memory that holds no element: no loop over the elements comes
    to its end. *)
Theorem C92_refuted : forall dbg initial elements c, 1 <= initial -> 4 <= elements -> initial * elements < 2 ^ 31 ->
  ghistory dbg initial elements c -> alive c (size (g c) - 1) ->
  iter_next dbg (g c) (at_slot c (size (g c) - 1)) = None.
Proof.
  intros dbg initial elements c H1 H2 H3 H [L _]. apply iter_next_last; [exact (ghistory_inv dbg initial elements c H1 H2 H3 H)|lia].
Qed.

Print Assumptions C49_ids_partial.
Print Assumptions C49_create_partial.
Print Assumptions C49_stable_partial.
Print Assumptions C49_no_assertion_partial.
Print Assumptions C49_refuted.
Print Assumptions C49_foreign_refuted.
Print Assumptions C49_empty_refuted.
Print Assumptions C50_resolves_partial.
Print Assumptions C50_distinct_partial.
Print Assumptions C50_stale_partial.
Print Assumptions C50_recycled_refuted.
Print Assumptions C50_refuted.
Print Assumptions C50_exhausted_refuted.
Print Assumptions C91_element_storage_partial.
Print Assumptions C91_refuted.
Print Assumptions C92_next_partial.
Print Assumptions C92_begin_partial.
Print Assumptions C92_end_partial.
Print Assumptions C92_refuted.
