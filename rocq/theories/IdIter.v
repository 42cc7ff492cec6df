(** Iteration over generational ids, the place of elements in memory, and running out of ids. *)
From Coq Require Import ZArith List Bool Lia ZifyBool ZifyNat.
From Verif Require Import Base IdModel IdProofs IdGen.
Import ListNotations.
Local Open Scope Z_scope.

(** ** Iteration *)
Definition alive (c : gclient) (i : Z) : Prop := 0 <= i < size (g c) /\ In (first_id i) (glive c).
(** The iterator at slot [i]. *)
Definition at_slot (c : gclient) (i : Z) : iter := It (i * asize (g c)) (size (g c) - i).
(** [it] is at the first live slot from [i] on, or at the end if there is none. *)
Definition first_from (c : gclient) (i : Z) (it : iter) : Prop :=
  (exists j, i <= j /\ alive c j /\ (forall k, i <= k < j -> ~ alive c k) /\ it = at_slot c j) \/
  ((forall k, i <= k -> ~ alive c k) /\ it = at_slot c (size (g c))).

Lemma load_slot : forall c i, ginv c -> 0 <= i < size (g c) ->
  exists bits, load (g c) (i * asize (g c)) = Some bits /\ (h_occupied bits = true <-> alive c i).
Proof.
  intros c i I H. destruct (slot_inside c i I H) as [B1 B2]. unfold load. rewrite B2.
  pose proof (g_slots _ I) as Hs. destruct (first_fields i ltac:(lia)) as (F1 & F2 & F3 & F4).
  destruct (g_slot _ I i H) as [[Q1 Q2]|(Q1 & bits & Q2 & Q3 & Q4 & Q5)]; unfold slot in *.
  - exists (first_id i). split; [exact Q1|]. split; intros _; [split; assumption|exact F3].
  - exists bits. split; [exact Q2|]. split; [congruence|]. intros [_ L]. contradiction.
Qed.

Lemma iter_loop_first : forall c fuel i, ginv c -> 0 <= i < size (g c) -> size (g c) - i < Z.of_nat fuel ->
  exists it, iter_loop fuel (g c) (i * asize (g c)) (size (g c) - i) = Some it /\ first_from c i it.
Proof.
  intros c fuel. induction fuel as [|fuel IH]; intros i I Hi Hf; [lia|]. cbn [iter_loop].
  destruct (load_slot c i I Hi) as (bits & -> & Ho). pose proof (g_slots _ I) as Hs.
  destruct (h_occupied bits).
  - exists (at_slot c i). split; [reflexivity|]. left. exists i. split; [lia|]. split; [now apply Ho|]. split; [intros k Hk; lia|reflexivity].
  - assert (Na : ~ alive c i) by (intros Q; apply Ho in Q; discriminate Q).
    rewrite int32_small by lia. replace (i * asize (g c) + asize (g c)) with ((i + 1) * asize (g c)) by ring.
    destruct (Z.eqb_spec (size (g c) - i - 1) 0) as [E|E].
    + exists (at_slot c (size (g c))). split; [unfold at_slot; f_equal; f_equal; [f_equal; lia|lia]|]. right. split; [|reflexivity].
      intros k Hk [K1 K2]. apply Na. assert (k = i) by lia. subst k. split; assumption.
    + replace (size (g c) - i - 1) with (size (g c) - (i + 1)) by ring.
      destruct (IH (i + 1) I ltac:(lia) ltac:(lia)) as (it & -> & F). exists it. split; [reflexivity|].
      destruct F as [(j & J1 & J2 & J3 & J4)|[F1 F2]].
      * left. exists j. split; [lia|]. split; [exact J2|]. split; [|exact J4]. intros k Hk.
        destruct (Z.eq_dec k i) as [->|Hn]; [exact Na|]. apply J3. lia.
      * right. split; [|exact F2]. intros k Hk. destruct (Z.eq_dec k i) as [->|Hn]; [exact Na|]. apply F1. lia.
Qed.

Lemma iter_next_first : forall dbg c i, ginv c -> 0 <= i -> i + 1 < size (g c) ->
  exists it, iter_next dbg (g c) (at_slot c i) = Some it /\ first_from c (i + 1) it.
Proof.
  intros dbg c i I H0 H1. pose proof (g_slots _ I) as Hs. pose proof (g_size _ I). unfold iter_next, at_slot. cbn [it_off it_size].
  rewrite check_true by lia. rewrite int32_small by lia.
  replace (i * asize (g c) + asize (g c)) with ((i + 1) * asize (g c)) by ring.
  replace (size (g c) - i - 1) with (size (g c) - (i + 1)) by ring. apply iter_loop_first; [assumption|lia|]. lia.
Qed.
(** From the last slot the increment looks at memory that holds no element. *)
Lemma iter_next_last : forall dbg c, ginv c -> 1 <= size (g c) -> iter_next dbg (g c) (at_slot c (size (g c) - 1)) = None.
Proof.
  intros dbg c I H. pose proof (g_slots _ I) as Hs. unfold iter_next, at_slot. cbn [it_off it_size].
  rewrite check_true by lia. rewrite int32_small by lia. cbn [iter_loop].
  replace ((size (g c) - 1) * asize (g c) + asize (g c)) with (size (g c) * asize (g c)) by ring.
  unfold load. rewrite (g_rest _ I) by lia. destruct (inside_heap _ _); reflexivity.
Qed.
Lemma iter_begin_first : forall dbg c, ginv c -> size (g c) = 0 \/ alive c 0 \/ 2 <= size (g c) ->
  exists it, iter_begin dbg (g c) = Some it /\ first_from c 0 it.
Proof.
  intros dbg c I H. unfold iter_begin. destruct (Z.eqb_spec (size (g c)) 0) as [E|E].
  - exists (It 0 0). split; [reflexivity|]. right. split; [intros k Hk [Q _]; lia|]. unfold at_slot. rewrite E. reflexivity.
  - destruct H as [H|H]; [congruence|]. pose proof (g_size _ I) as Es.
    destruct (load_slot c 0 I ltac:(lia)) as (bits & Eb & Ho). replace (0 * asize (g c)) with 0 in Eb by ring. rewrite Eb.
    destruct (h_occupied bits).
    + exists (at_slot c 0). split; [unfold at_slot; do 2 f_equal; ring|]. left. exists 0. split; [lia|]. split; [now apply Ho|].
      split; [intros k Hk; lia|reflexivity].
    + assert (Na : ~ alive c 0) by (intros Q; apply Ho in Q; discriminate Q). destruct H as [H|H]; [contradiction|].
      destruct (iter_next_first dbg c 0 I ltac:(lia) ltac:(lia)) as (it & Ei & F). unfold at_slot in Ei.
      rewrite Z.sub_0_r in Ei. replace (0 * asize (g c)) with 0 in Ei by ring. rewrite Ei. exists it. split; [reflexivity|].
      destruct F as [(j & J1 & J2 & J3 & J4)|[F1 F2]].
      * left. exists j. split; [lia|]. split; [exact J2|]. split; [|exact J4]. intros k Hk.
        destruct (Z.eq_dec k 0) as [->|Hn]; [exact Na|]. apply J3. lia.
      * right. split; [|exact F2]. intros k Hk. destruct (Z.eq_dec k 0) as [->|Hn]; [exact Na|]. apply F1. lia.
Qed.

(** ** The place of an element *)
Lemma offset_to_spec : forall x al, 0 < al -> 0 <= offset_to x al < al /\ (x + offset_to x al) mod al = 0.
Proof.
  intros x al H. unfold offset_to. split; [apply Z.mod_pos_bound; lia|].
  rewrite Z.add_mod_idemp_r by lia. replace (x + (al - x)) with al by ring. apply Z.mod_same. lia.
Qed.
Lemma offset_to_4 : forall k, 2 <= k -> 4 + offset_to 4 (2 ^ k) = 2 ^ k.
Proof.
  intros k H. unfold offset_to. assert (4 <= 2 ^ k) by (change 4 with (2 ^ 2); apply Z.pow_le_mono_r; lia).
  destruct (Z.eq_dec (2 ^ k) 4) as [E|E]; [rewrite E; reflexivity|]. rewrite Z.mod_small by lia. lia.
Qed.
Lemma slot_size_eq : forall es k, 0 <= k -> slot_size es (2 ^ k) = es + slot_alignment (2 ^ k) /\ slot_alignment (2 ^ k) = 2 ^ Z.max k 2.
Proof.
  intros es k H. unfold slot_size, slot_alignment. destruct (Z.lt_ge_cases k 2) as [G|G].
  - assert (E : k = 0 \/ k = 1) by lia. destruct E as [-> | ->]; split; reflexivity.
  - rewrite offset_to_4 by assumption. assert (4 <= 2 ^ k) by (change 4 with (2 ^ 2); apply Z.pow_le_mono_r; lia).
    rewrite !Z.max_l by lia. split; reflexivity.
Qed.
Lemma body_place : forall data es k i, 0 <= k -> 0 < es -> es mod slot_alignment (2 ^ k) = 0 -> data mod slot_alignment (2 ^ k) = 0 -> 0 <= i ->
  data + i * slot_size es (2 ^ k) + 4 <= body data es (2 ^ k) i /\
  body data es (2 ^ k) i + es <= data + (i + 1) * slot_size es (2 ^ k) /\
  body data es (2 ^ k) i mod slot_alignment (2 ^ k) = 0.
Proof.
  intros data es k i Hk He Ee Ed Hi. unfold body. destruct (slot_size_eq es k Hk) as [E1 E2].
  assert (A4 : 4 <= slot_alignment (2 ^ k)) by (unfold slot_alignment; lia).
  set (al := slot_alignment (2 ^ k)) in *. rewrite E1.
  assert (Eb : (data + i * (es + al)) mod al = 0).
  { apply Z.mod_divide in Ee; [|lia]. apply Z.mod_divide in Ed; [|lia]. apply Z.mod_divide; [lia|].
    destruct Ee as [q ->], Ed as [r ->]. exists (r + i * (q + 1)). ring. }
  set (b := data + i * (es + al)) in *.
  destruct (offset_to_spec (b + 4) al ltac:(lia)) as [O1 O2].
  assert (Eo : 4 + offset_to (b + 4) al = al).
  { unfold offset_to in *. apply Z.mod_divide in Eb; [|lia]. destruct Eb as [q Eq].
    replace (al - (b + 4)) with ((al - 4) + (- q) * al) by (rewrite Eq; ring). rewrite Z.mod_add by lia. rewrite Z.mod_small by lia. lia. }
  split; [lia|]. split; [|exact O2]. replace (data + (i + 1) * (es + al)) with (b + (es + al)) by (unfold b; ring). lia.
Qed.

(** ** More than 2^23 slots *)
Inductive created (dbg : bool) (initial elements : Z) : ids -> Prop :=
| C_new g0 : gen_new initial elements true = Some g0 -> created dbg initial elements g0
| C_step g0 g1 id : created dbg initial elements g0 -> gen_create dbg g0 true = Some (g1, id) -> created dbg initial elements g1.

Lemma created_all : forall dbg n, 0 <= n -> n <= 2 ^ 23 - 1 ->
  exists g0, created dbg 1 8 g0 /\ size g0 = n + 1 /\ asize g0 = 8 /\ free g0 = -1 /\ n + 1 <= cap g0 < 2 ^ 25 /\ heap g0 0 = Some (first_id 0).
Proof.
  intros dbg n Hn. pattern n. apply natlike_ind; [| |exact Hn]; clear n Hn.
  - intros _. eexists. split.
    + eapply C_step; [apply C_new; reflexivity|]. unfold gen_create, gen_pop. cbn [cap free size]. rewrite check_true by reflexivity. cbn. reflexivity.
    + cbn. repeat split; lia.
  - intros n Hn IH Hb. destruct IH as (g0 & C & S0 & A0 & F0 & B0 & H0); [lia|].
    assert (Ec : exists g1, gen_create dbg g0 true = Some (g1, h_make 0 (size g0) true) /\ size g1 = size g0 + 1 /\ asize g1 = 8 /\ free g1 = -1 /\
                   size g0 + 1 <= cap g1 < 2 ^ 25 /\ heap g1 0 = Some (first_id 0)).
    { unfold gen_create. rewrite check_true by lia. unfold gen_pop. rewrite F0. cbn [Z.ltb Z.compare negb Z.eqb]. unfold grow.
      set (a2 := if (cap g0 <=? size g0) && true then _ else _). cbv zeta.
      assert (A : size a2 = size g0 /\ free a2 = -1 /\ asize a2 = 8 /\ heap a2 = heap g0 /\ size g0 < cap a2 < 2 ^ 25).
      { unfold a2. destruct (Z.leb_spec (cap g0) (size g0)) as [G|G]; cbn [andb]; [|repeat split; lia].
        destruct (next_capacity_bounds (cap g0) ltac:(lia)) as [N1 N2]. cbn [size cap free asize heap]. rewrite s32_small by lia. repeat split; lia. }
      clearbody a2. destruct A as (A1 & A2 & A3 & A4 & A5). rewrite A1, A3.
      destruct (Z.ltb_spec (size g0) (cap a2)); [|lia]. rewrite int32_small by lia. unfold store, inside_heap. rewrite A3.
      assert (T : (0 <=? size g0 * 8) && (size g0 * 8 + 4 <=? cap a2 * 8) = true) by lia. rewrite T. cbn [size cap free asize heap].
      rewrite int32_small by lia. eexists. split; [reflexivity|]. cbn [size cap free asize heap]. repeat split; try lia.
      rewrite A4. rewrite heap_set_other by lia. exact H0. }
    destruct Ec as (g1 & Ec & R1 & R2 & R3 & R4 & R5). exists g1. split; [eapply C_step; [exact C|exact Ec]|]. repeat split; try assumption; lia.
Qed.
