(** Generational ids under every history of a client. *)
From Coq Require Import ZArith List Bool Lia ZifyBool.
From Verif Require Import Base IdModel IdProofs.
Import ListNotations.
Local Open Scope Z_scope.

(** ** Headers *)
Lemma make_fields : forall g i o, 0 <= g < 2 ^ 8 -> 0 <= i < 2 ^ 23 ->
  h_gen (h_make g i o) = g /\ h_id (h_make g i o) = i /\ h_occupied (h_make g i o) = o /\ 0 <= h_make g i o < 2 ^ 32.
Proof.
  intros g i o Hg Hi. unfold h_gen, h_id, h_occupied, h_make.
  rewrite (Z.mod_small g), (Z.mod_small i) by lia.
  assert (E1 : (g * 2 ^ 24 + (if o then 2 ^ 23 else 0) + i) / 2 ^ 24 = g).
  { symmetry. apply Z.div_unique with ((if o then 2 ^ 23 else 0) + i); [destruct o; lia|ring]. }
  assert (E2 : (g * 2 ^ 24 + (if o then 2 ^ 23 else 0) + i) / 2 ^ 23 = 2 * g + (if o then 1 else 0)).
  { symmetry. apply Z.div_unique with i; [lia|]. destruct o; ring. }
  assert (E3 : (g * 2 ^ 24 + (if o then 2 ^ 23 else 0) + i) mod 2 ^ 23 = i).
  { symmetry. apply Z.mod_unique with (2 * g + (if o then 1 else 0)); [lia|]. destruct o; ring. }
  split; [exact E1|]. split; [exact E3|]. split; [|destruct o; lia]. rewrite E2.
  replace (2 * g + (if o then 1 else 0)) with ((if o then 1 else 0) + g * 2) by ring. rewrite Z.mod_add by lia. destruct o; reflexivity.
Qed.
(** The id of the first use of slot [i]. *)
Definition first_id (i : Z) : Z := h_make 0 i true.
Lemma first_fields : forall i, 0 <= i < 2 ^ 23 ->
  h_gen (first_id i) = 0 /\ h_id (first_id i) = i /\ h_occupied (first_id i) = true /\ 0 < first_id i < 2 ^ 32.
Proof.
  intros i H. unfold first_id. destruct (make_fields 0 i true ltac:(lia) H) as (A & B & C & D). repeat split; try assumption; try lia.
  unfold h_make. pose proof (Z.mod_pos_bound i (2 ^ 23) ltac:(lia)). change (0 mod 2 ^ 8 * 2 ^ 24) with 0. lia.
Qed.

(** ** The client *)
Inductive gop := GCreate (realloc_ok : bool) | GDestroy (id : Z).
(** Ids of new slots that were not destroyed; ids that were handed out for a slot used before. *)
Record gclient := GClient { g : ids; glive : list Z; grecycled : list Z }.

Definition gexec (dbg : bool) (c : gclient) (o : gop) : option gclient :=
  match o with
  | GCreate realloc_ok =>
    ' (g', id) <- gen_create dbg (g c) realloc_ok ;;
    Some (if id =? 0 then GClient g' (glive c) (grecycled c)
          else if size g' =? size (g c) then GClient g' (glive c) (id :: grecycled c)
          else GClient g' (id :: glive c) (grecycled c))
  | GDestroy id => g' <- gen_destroy dbg (g c) id ;; Some (GClient g' (remove Z.eq_dec id (glive c)) (grecycled c))
  end.
(** Fewer than 2^23 slots and all of the memory below 2^31 octets; any id may be destroyed. *)
Definition gallowed (c : gclient) (o : gop) : Prop :=
  match o with
  | GCreate _ => size (g c) + 1 < 2 ^ 23 /\ (size (g c) + 1) * asize (g c) <= 2 ^ 31
  | GDestroy id => 0 <= id < 2 ^ 32
  end.
Inductive ghistory (dbg : bool) (initial elements : Z) : gclient -> Prop :=
| G_new g0 : gen_new initial elements true = Some g0 -> ghistory dbg initial elements (GClient g0 [] [])
| G_step c o c' : ghistory dbg initial elements c -> gallowed c o -> gexec dbg c o = Some c' -> ghistory dbg initial elements c'.

Definition slot (a : ids) (i : Z) : option Z := heap a (i * asize a).
Definition vacant (a : ids) (i : Z) : Prop := 0 <= i < size a /\ exists bits, slot a i = Some bits /\ h_occupied bits = false.
Definition link (a : ids) (j : Z) : Prop := j = 2 ^ 23 - 1 \/ vacant a j.
Record ginv (c : gclient) : Prop := {
  g_elem : 4 <= asize (g c);
  g_size : 0 <= size (g c) <= cap (g c);
  g_cap : 0 < cap (g c);
  g_slots : size (g c) < 2 ^ 23;
  g_bytes : size (g c) * asize (g c) <= 2 ^ 31;
  g_rest : forall x, size (g c) * asize (g c) <= x -> heap (g c) x = None;
  g_free : free (g c) = -1 \/ link (g c) (free (g c));
  g_nodup : NoDup (glive c);
  g_live : forall id, In id (glive c) -> exists i, 0 <= i < size (g c) /\ id = first_id i;
  g_slot : forall i, 0 <= i < size (g c) ->
    (slot (g c) i = Some (first_id i) /\ In (first_id i) (glive c)) \/
    (~ In (first_id i) (glive c) /\ exists bits, slot (g c) i = Some bits /\ h_occupied bits = false /\ h_gen bits = 1 /\ link (g c) (h_id bits));
  g_rec : forall id, In id (grecycled c) -> h_gen id = 1 }.

Lemma slot_inside : forall c i, ginv c -> 0 <= i < size (g c) -> 0 <= i * asize (g c) < 2 ^ 31 /\ inside_heap (g c) (i * asize (g c)) = true.
Proof.
  intros c i I H. pose proof (g_elem _ I). pose proof (g_size _ I). pose proof (g_bytes _ I).
  assert (0 <= i * asize (g c) /\ i * asize (g c) + asize (g c) <= size (g c) * asize (g c)) by nia.
  assert (size (g c) * asize (g c) <= cap (g c) * asize (g c)) by nia. unfold inside_heap. lia.
Qed.

(** Exactly the live ids resolve; every id may be asked for. *)
Lemma base_eq : forall c id, ginv c -> 0 <= id < 2 ^ 32 ->
  (In id (glive c) /\ h_id id < size (g c) /\ gen_base (g c) id = Some (Some (h_id id * asize (g c)))) \/
  (~ In id (glive c) /\ gen_base (g c) id = Some None).
Proof.
  intros c id I Hid. pose proof (g_slots _ I) as Hs. unfold gen_base.
  assert (Bi : 0 <= h_id id < 2 ^ 23) by (unfold h_id; apply Z.mod_pos_bound; lia).
  assert (Nl : h_occupied id = false \/ size (g c) <= h_id id -> ~ In id (glive c)).
  { intros Q L. apply (g_live _ I) in L as (i & Hi & ->). destruct (first_fields i ltac:(lia)) as (F1 & F2 & F3 & F4).
    rewrite F2, F3 in Q. destruct Q as [Q|Q]; [discriminate Q|lia]. }
  destruct (h_occupied id) eqn:Eo; cbn [negb]; [|right; split; [apply Nl; now left|reflexivity]].
  rewrite s32_small by lia. destruct (Z.leb_spec (size (g c)) (h_id id)) as [G|G]; [right; split; [apply Nl; now right|reflexivity]|].
  destruct (slot_inside c (h_id id) I ltac:(lia)) as [B1 B2]. rewrite u32_small by lia. unfold load. rewrite B2.
  destruct (g_slot _ I (h_id id) ltac:(lia)) as [[S1 S2]|(S1 & bits & S2 & S3 & S4 & S5)]; unfold slot in *.
  - rewrite S1. destruct (Z.eqb_spec (first_id (h_id id)) id) as [E|E].
    + left. rewrite E in S2. auto.
    + right. split; [|reflexivity]. intros L. apply (g_live _ I) in L as (i & Hi & Ei).
      destruct (first_fields i ltac:(lia)) as (_ & F2 & _). apply E. rewrite Ei, F2. reflexivity.
  - rewrite S2. destruct (Z.eqb_spec bits id) as [E|E]; [congruence|]. right. split; [|reflexivity].
    intros L. apply S1. apply (g_live _ I) in L as L'. destruct L' as (i & Hi & Ei).
    destruct (first_fields i ltac:(lia)) as (_ & F2 & _). rewrite Ei, F2, <- Ei. exact L.
Qed.

Lemma link_mono : forall a a' j, link a j -> asize a' = asize a -> size a <= size a' ->
  (forall i, vacant a i -> vacant a' i) -> link a' j.
Proof. intros a a' j [H|H] E1 E2 H'; [now left|right; auto]. Qed.

Lemma create_eq : forall dbg c ro g' id, ginv c -> gallowed c (GCreate ro) -> gen_create dbg (g c) ro = Some (g', id) ->
  (* failure *)
  (id = 0 /\ g' = g c /\ ro = false /\ size (g c) = cap (g c)) \/
  (* a slot used before *)
  (id <> 0 /\ h_gen id = 1 /\ exists j, link (g c) j /\ g' = Ids (size (g c)) (cap (g c)) j (asize (g c)) (heap (g c))) \/
  (* a new slot *)
  (id = first_id (size (g c)) /\ exists cp, size (g c) < cp /\ cap (g c) <= cp /\
     g' = Ids (size (g c) + 1) cp (free (g c)) (asize (g c)) (heap_set (heap (g c)) (size (g c) * asize (g c)) id)).
Proof.
  intros dbg c ro g' id I [D1 D2] E. pose proof (g_elem _ I) as E4. pose proof (g_size _ I) as Es. pose proof (g_cap _ I) as Ec.
  unfold gen_create in E. rewrite check_true in E by lia. unfold gen_pop in E.
  destruct (Z.ltb_spec 0 (free (g c))) as [F|F].
  - right. left. destruct (g_free _ I) as [Q|Q]; [lia|].
    assert (E' : (off <- int32 (free (g c) * asize (g c)) ;; header <- load (g c) off ;;
       Some (Ids (size (g c)) (cap (g c)) (h_id header) (asize (g c)) (heap (g c)), h_make (h_gen header) (u32 (free (g c))) true)) <> None /\
       (free (g c) <= size (g c) \/ dbg = false)).
    { unfold check, assert_ in E. destruct dbg; [destruct (Z.leb_spec (free (g c)) (size (g c)))|];
        [split; [intros X; rewrite X in E; discriminate E|now left]|discriminate E|split; [intros X; rewrite X in E; discriminate E|now right]]. }
    destruct E' as [E' Ed].
    assert (Ev : vacant (g c) (free (g c))).
    { destruct Q as [Q|Q]; [|exact Q]. exfalso. apply E'. rewrite Q. unfold int32.
      destruct ((- 2 ^ 31 <=? (2 ^ 23 - 1) * asize (g c)) && ((2 ^ 23 - 1) * asize (g c) <? 2 ^ 31)); [|reflexivity].
      unfold load. rewrite (g_rest _ I) by nia. destruct (inside_heap _ _); reflexivity. }
    destruct Ev as (V1 & bits & V2 & V3). destruct (slot_inside c (free (g c)) I V1) as [B1 B2].
    assert (Hb : h_gen bits = 1 /\ link (g c) (h_id bits)).
    { destruct (g_slot _ I (free (g c)) V1) as [[S1 S2]|(S1 & b & S2 & S3 & S4 & S5)].
      - rewrite S1 in V2. inversion V2; subst bits. destruct (first_fields (free (g c)) ltac:(lia)) as (_ & _ & F3 & _). congruence.
      - rewrite S2 in V2. inversion V2; subst b. auto. }
    rewrite check_true in E by lia. rewrite int32_small in E by lia. unfold load in E. rewrite B2 in E. unfold slot in V2. rewrite V2 in E.
    destruct Hb as [Hg Hl]. rewrite Hg in E. rewrite u32_small in E by (pose proof (g_slots _ I); lia).
    destruct (make_fields 1 (free (g c)) true ltac:(lia) ltac:(pose proof (g_slots _ I); lia)) as (M1 & M2 & M3 & M4).
    destruct (Z.eqb_spec (h_make 1 (free (g c)) true) 0) as [Z0|Z0]; [rewrite Z0 in M1; discriminate M1|]. cbn [negb] in E.
    assert (Ei : id = h_make 1 (free (g c)) true) by congruence. split; [congruence|]. split; [congruence|].
    exists (h_id bits). split; [exact Hl|]. congruence.
  - cbn [negb Z.eqb] in E. unfold grow in E. set (a2 := if (cap (g c) <=? size (g c)) && ro then _ else _) in E. cbv zeta in E.
    assert (A : size a2 = size (g c) /\ free a2 = free (g c) /\ asize a2 = asize (g c) /\ heap a2 = heap (g c) /\ cap (g c) <= cap a2 /\
                (size (g c) < cap a2 \/ (a2 = g c /\ ro = false /\ size (g c) = cap (g c)))).
    { unfold a2. destruct (Z.leb_spec (cap (g c)) (size (g c))) as [G|G]; [|cbn [andb]; repeat split; lia].
      destruct ro; cbn [andb]; [|repeat split; try lia; right; repeat split; lia].
      destruct (next_capacity_bounds (cap (g c)) ltac:(lia)) as [N1 N2]. cbn [size cap free asize heap]. rewrite s32_small by lia. repeat split; lia. }
    clearbody a2. destruct A as (A1 & A2 & A3 & A4 & A5 & A6). rewrite A1, A3 in E.
    destruct (Z.ltb_spec (size (g c)) (cap a2)) as [G|G].
    + right. right. assert (B : 0 <= size (g c) * asize (g c) /\ size (g c) * asize (g c) + asize (g c) <= cap a2 * asize (g c)) by nia.
      rewrite int32_small in E by lia. unfold store in E.
      assert (T : inside_heap a2 (size (g c) * asize (g c)) = true) by (unfold inside_heap; rewrite A3; lia). rewrite T in E.
      cbn [size cap free asize heap] in E. rewrite int32_small in E by lia.
      split; [unfold first_id; congruence|]. exists (cap a2). split; [exact G|]. split; [exact A5|].
      assert (Ei : id = h_make 0 (size (g c)) true) by congruence. rewrite Ei. congruence.
    + left. destruct A6 as [A6|(-> & A7 & A8)]; [lia|]. assert (id = 0) by congruence. assert (g' = g c) by congruence. auto.
Qed.

Lemma gstep_inv : forall dbg c o c', ginv c -> gallowed c o -> gexec dbg c o = Some c' -> ginv c'.
Proof.
  intros dbg c o c' I D E. pose proof (g_elem _ I) as E4. pose proof (g_size _ I) as Es. pose proof (g_cap _ I) as Ec.
  pose proof (g_slots _ I) as Hs. pose proof (g_bytes _ I) as Hb.
  destruct o as [ro|id]; cbn [gexec] in E.
  - destruct (gen_create dbg (g c) ro) as [[g' id]|] eqn:Eg; [|discriminate E].
    destruct (create_eq dbg c ro g' id I D Eg) as [(-> & -> & R1 & R2)|[(N0 & R1 & j & R2 & ->)|(Ei & cp & R1 & R2 & R3)]].
    + cbn in E. inversion E; subst c'. destruct c. exact I.
    + destruct (Z.eqb_spec id 0); [congruence|]. cbn [size] in E. rewrite Z.eqb_refl in E. inversion E; subst c'. clear E.
      constructor; cbn [g glive grecycled size cap free asize heap]; try assumption.
      * exact (g_rest _ I).
      * right. destruct R2 as [R2|R2]; [now left|right; exact R2].
      * exact (g_nodup _ I).
      * exact (g_live _ I).
      * intros i Hi. destruct (g_slot _ I i Hi) as [Q|(Q1 & bits & Q2 & Q3 & Q4 & Q5)]; [left; exact Q|].
        right. split; [exact Q1|]. exists bits. repeat split; assumption.
      * intros x [<-|Hx]; [exact R1|exact (g_rec _ I x Hx)].
    + destruct D as [D1 D2]. destruct (first_fields (size (g c)) ltac:(lia)) as (F1 & F2 & F3 & F4).
      destruct (Z.eqb_spec id 0); [lia|].
      assert (Esz : size g' = size (g c) + 1) by (rewrite R3; reflexivity). rewrite Esz in E.
      destruct (Z.eqb_spec (size (g c) + 1) (size (g c))); [lia|]. inversion E; subst c'. clear E.
      assert (Ls : forall i, 0 <= i < size (g c) -> slot g' i = slot (g c) i).
      { intros i Hi. rewrite R3. unfold slot. cbn [heap asize]. apply heap_set_other. nia. }
      assert (Lv : forall i, vacant (g c) i -> vacant g' i).
      { intros i (V1 & bits & V2 & V3). split; [lia|]. exists bits. rewrite Ls by assumption. auto. }
      assert (Ll : forall k, link (g c) k -> link g' k) by (intros k [Q|Q]; [now left|right; auto]).
      assert (Nin : ~ In (first_id (size (g c))) (glive c)).
      { intros Q. apply (g_live _ I) in Q as (i & Hi & Q). destruct (first_fields i ltac:(lia)) as (_ & G2 & _). rewrite <- Q, F2 in G2. lia. }
      constructor; cbn [g glive grecycled].
      * rewrite R3. exact E4.
      * rewrite R3. cbn [size cap]. lia.
      * rewrite R3. cbn [cap]. lia.
      * lia.
      * rewrite R3. cbn [size asize]. lia.
      * rewrite R3. cbn [size asize heap]. intros x Hx. rewrite heap_set_other by nia. apply (g_rest _ I). nia.
      * assert (Ef : free g' = free (g c)) by (rewrite R3; reflexivity). rewrite Ef. destruct (g_free _ I) as [Q|Q]; [now left|right; auto].
      * constructor; [rewrite Ei; exact Nin|exact (g_nodup _ I)].
      * intros x [<-|Hx]; [exists (size (g c)); split; [lia|exact Ei]|]. destruct (g_live _ I x Hx) as (i & Hi & ->). exists i. split; [lia|reflexivity].
      * intros i Hi. rewrite Esz in Hi. destruct (Z.eq_dec i (size (g c))) as [->|Hn].
        -- left. split; [rewrite R3; unfold slot; cbn [heap asize]; rewrite heap_set_same; congruence|now left].
        -- rewrite Ls by lia. destruct (g_slot _ I i ltac:(lia)) as [[Q1 Q2]|(Q1 & bits & Q2 & Q3 & Q4 & Q5)]; [left; split; [exact Q1|now right]|].
           right. split; [|exists bits; repeat split; auto]. intros [Q|Q]; [|contradiction].
           destruct (first_fields i ltac:(lia)) as (_ & G2 & _). rewrite <- Q, Ei, F2 in G2. lia.
      * exact (g_rec _ I).
  - cbn [gallowed] in D. unfold gen_destroy in E.
    destruct (base_eq c id I D) as [(L & Hi & Eb)|(L & Eb)]; rewrite Eb in E.
    2: { inversion E; subst c'. rewrite notin_remove by exact L. destruct c. exact I. }
    destruct (g_live _ I id L) as (i & Hi' & ->). destruct (first_fields i ltac:(lia)) as (F1 & F2 & F3 & F4). rewrite F2 in *.
    destruct (slot_inside c i I Hi') as [B1 B2]. unfold gen_push in E. rewrite F2 in E. rewrite u32_small in E by lia.
    assert (Sl : slot (g c) i = Some (first_id i)) by (destruct (g_slot _ I i Hi') as [[Q _]|[Q _]]; [exact Q|contradiction]).
    unfold load in E. rewrite B2 in E. unfold slot in Sl. rewrite Sl in E. rewrite check_true in E by apply Z.eqb_refl.
    unfold store in E. rewrite B2, F1 in E. cbn [size cap free asize heap] in E. inversion E; subst c'. clear E.
    set (nb := h_make (0 + 1) (u32 (free (g c))) false).
    assert (Fr : exists k, u32 (free (g c)) mod 2 ^ 23 = k /\ 0 <= k < 2 ^ 23 /\ link (g c) k /\ nb = h_make 1 k false).
    { exists (u32 (free (g c)) mod 2 ^ 23). pose proof (Z.mod_pos_bound (u32 (free (g c))) (2 ^ 23) ltac:(lia)) as Bm.
      split; [reflexivity|]. split; [exact Bm|]. split.
      - destruct (g_free _ I) as [Q|Q]; [rewrite Q; left; reflexivity|]. destruct Q as [Q|Q]; [rewrite Q; left; reflexivity|].
        destruct Q as [Q1 Q2]. rewrite u32_small, Z.mod_small by lia. right. split; assumption.
      - unfold nb, h_make. rewrite Z.mod_mod by lia. reflexivity. }
    destruct Fr as (k & _ & Bk & Lk & Enb). destruct (make_fields 1 k false ltac:(lia) Bk) as (N1 & N2 & N3 & N4). rewrite <- Enb in N1, N2, N3.
    set (g' := Ids (size (g c)) (cap (g c)) i (asize (g c)) (heap_set (heap (g c)) (i * asize (g c)) nb)).
    assert (Ls : forall j, j <> i -> slot g' j = slot (g c) j).
    { intros j Hj. unfold slot, g'. cbn [heap asize]. apply heap_set_other. intros Q. apply Hj. apply Z.mul_reg_r in Q; lia. }
    assert (Li : slot g' i = Some nb) by (unfold slot, g'; cbn [heap asize]; apply heap_set_same).
    assert (Lv : forall j, vacant (g c) j -> vacant g' j).
    { intros j (V1 & bits & V2 & V3). split; [exact V1|]. destruct (Z.eq_dec j i) as [->|Hj]; [exists nb; auto|]. exists bits. rewrite Ls by assumption. auto. }
    assert (Vi : vacant g' i) by (split; [exact Hi'|exists nb; auto]).
    assert (Ll : forall q, link (g c) q -> link g' q) by (intros q [Q|Q]; [now left|right; auto]).
    constructor; cbn [g glive grecycled]; try assumption.
    + intros x Hx. unfold g'. cbn [heap]. cbn [size asize g'] in Hx. rewrite heap_set_other by nia. apply (g_rest _ I). exact Hx.
    + right. right. exact Vi.
    + pose proof (g_nodup _ I) as Nd. pose proof (NoDup_remove_app (glive c) [] (first_id i)) as X. rewrite app_nil_r in X.
      specialize (X Nd L). apply NoDup_remove_1 in X. now rewrite app_nil_r in X.
    + intros x Hx. apply in_remove in Hx as [Hx _]. exact (g_live _ I x Hx).
    + intros j Hj. cbn [size] in Hj. destruct (Z.eq_dec j i) as [->|Hn].
      * right. split; [apply remove_In|]. exists nb. split; [exact Li|]. split; [exact N3|]. split; [exact N1|]. rewrite N2. auto.
      * rewrite Ls by assumption. destruct (g_slot _ I j Hj) as [[Q1 Q2]|(Q1 & bits & Q2 & Q3 & Q4 & Q5)].
        -- left. split; [exact Q1|]. apply in_in_remove; [|exact Q2]. intros Q. apply Hn.
           assert (Hj' : 0 <= j < 2 ^ 23) by (clear - Hj Hs; lia).
           destruct (first_fields j Hj') as (_ & G2 & _). rewrite Q, F2 in G2. congruence.
        -- right. split; [intros Q; apply Q1; apply in_remove in Q; tauto|]. exists bits. repeat split; auto.
    + exact (g_rec _ I).
Qed.

Lemma ghistory_inv : forall dbg initial elements c, 1 <= initial -> 4 <= elements -> initial * elements < 2 ^ 31 ->
  ghistory dbg initial elements c -> ginv c.
Proof.
  intros dbg initial elements c H1 H2 H3 H. induction H as [g0 E|c o c' H IH D E].
  - unfold gen_new in E. destruct (Z.leb_spec initial 0); [lia|]. rewrite int32_small in E by lia. inversion E; subst g0.
    constructor; cbn [g glive grecycled size cap free asize heap];
      [lia|lia|lia|lia|lia|reflexivity|now left|constructor|intros x []|intros i Hi; lia|intros x []].
  - now apply (gstep_inv dbg c o c').
Qed.
