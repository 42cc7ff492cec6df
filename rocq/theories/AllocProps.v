(** The stack and monotonic allocators: what a client can rely on. *)
From Coq Require Import Arith NArith ZArith List Bool Lia ZifyBool ZifyNat ZifyN.
From Verif Require Import Base AllocModel AllocSpec AllocProofs AllocClient AllocLifo AllocMono.
Import ListNotations.
Local Open Scope N_scope.

Definition mem0 : N -> N := fun _ => 0.
Fixpoint play (dbg : bool) (c : client) (ops : list op) : option client :=
  match ops with [] => Some c | o :: r => c' <- exec dbg mem0 c o ;; play dbg c' r end.

(** * C46: blocks are inside of the buffer, aligned and disjoint *)
Theorem C46_blocks_partial : forall dbg ptr capacity c, 1 <= ptr -> 1 <= capacity -> ptr + capacity < W64 ->
  history dbg ptr capacity c -> usable ptr (ptr + capacity) (live c).
Proof.
  intros dbg ptr capacity c H1 H2 H3 H. pose proof (history_inv dbg ptr capacity c H1 H2 H3 H) as (I1 & I2 & I3 & I4 & _).
  apply stacked_usable. apply stacked_mono with (ptr + sz (st c)); [exact I4|]. destruct I3 as (_ & _ & _ & J). lia.
Qed.
(** No call but a free out of order runs into an assertion. *)
Theorem C46_no_assertion_partial : forall dbg ptr capacity mem c o, 1 <= ptr -> 1 <= capacity -> ptr + capacity < W64 ->
  history dbg ptr capacity c -> allowed c o -> (forall i, o <> Free i) -> exists c', exec dbg mem c o = Some c'.
Proof.
  intros dbg ptr capacity mem c o H1 H2 H3 H D F.
  exact (exec_total dbg ptr capacity mem c o (history_inv dbg ptr capacity c H1 H2 H3 H) D F).
Qed.

Definition start (ptr capacity : N) : client := Client (Stack ptr 0 capacity 0) [] false.
Example C46_case : exists c, history true 4 64 c /\ live c = [Block 16 9 8; Block 8 8 8; Block 4 3 1].
Proof.
  exists (Client (Stack 4 21 64 1) [Block 16 9 8; Block 8 8 8; Block 4 3 1] false). split; [|reflexivity].
  assert (P8 : pow2 8) by (exists 3; split; [lia|reflexivity]). assert (P1 : pow2 1) by (exists 0; split; [lia|reflexivity]).
  apply H_step with (c := Client (Stack 4 20 64 1) [Block 16 8 8; Block 8 8 8; Block 4 3 1] false) (o := Realloc 0 9) (mem := mem0);
    [| |vm_compute; reflexivity].
  2: { cbn. repeat split; [lia|now left|]. intros b E. inversion E. cbn. lia. }
  apply H_step with (c := Client (Stack 4 12 64 1) [Block 8 8 8; Block 4 3 1] false) (o := Alloc 8 8) (mem := mem0);
    [|cbn; split; [exact P8|lia]|vm_compute; reflexivity].
  apply H_step with (c := Client (Stack 4 3 64 1) [Block 4 3 1] false) (o := Alloc 8 8) (mem := mem0);
    [|cbn; split; [exact P8|lia]|vm_compute; reflexivity].
  apply H_step with (c := start 4 64) (o := Alloc 3 1) (mem := mem0);
    [|cbn; split; [exact P1|lia]|vm_compute; reflexivity].
  apply H_create. reflexivity.
Qed.

(** Growing an older block after a free can run over a younger one: the padding of the freed block
    lets the older one pass for the most recent. No assertion notices. *)
Theorem C46_refuted : exists c, play true (start 8 64) [Alloc 1 1; Alloc 7 1; Alloc 8 8; Free 0; Realloc 1 4] = Some c /\
  live c = [Block 9 7 1; Block 8 4 1] /\ ~ ForallOrdPairs disjoint (live c).
Proof.
  exists (Client (Stack 8 11 64 8) [Block 9 7 1; Block 8 4 1] true). split; [vm_compute; reflexivity|]. split; [reflexivity|].
  cbn [live]. intros H. inversion H as [|x l F]; subst. inversion F as [|y m D]; subst. unfold disjoint, b_end in D. cbn in D. lia.
Qed.
(** On a fresh allocator every call to reallocate (even of nothing) runs into an assertion. *)
Theorem C46_fresh_realloc_refuted : exists s, stack_create true 8 64 = Some s /\
  reallocate_bytes true s mem0 0 0 16 8 = None /\ reallocate_bytes_in_place true s 8 0 16 = None.
Proof. exists (Stack 8 0 64 0). repeat split; vm_compute; reflexivity. Qed.

(** * C47: releasing in reverse order *)

(** Any nesting of scopes, each one allocating a block and freeing it at its end, runs through
    (also with assertions on) as long as neighbouring scopes do not decrease the alignment. After it
    the allocator has its old end, or its old end aligned for the last scope: allocations with at least that
    alignment get the blocks they would have got before, and the block that was most recent before is
    so again. *)
Theorem C47_scopes_partial : forall dbg f s, stack_ok s -> rising (cap s) 1 f ->
  exists s', run dbg f s = Some s' /\ p s' = p s /\ cap s' = cap s /\
    (forall a size, pow2 a -> last_align 1 f <= a -> cap s + a + size <= W64 ->
       option_map snd (allocate_bytes dbg s' size a) = option_map snd (allocate_bytes dbg s size a)) /\
    (s' = s \/ exists a, pow2 a /\ a <= last_align 1 f /\ sz s' = sz s + pad (p s + sz s) a) /\
    (forall q n, lpa s = 1 -> q + n = p s + sz s -> is_most_recent_allocation dbg s' q n = Some true).
Proof.
  intros dbg f s H Hr. destruct (run_released dbg f s 1 s H Hr (or_introl eq_refl)) as (s' & E & R).
  exists s'. split; [exact E|]. destruct (released_cap _ _ _ R) as [Ep Ec]. split; [exact Ep|]. split; [exact Ec|]. split; [|split].
  - intros a size Pa Ha Hn. exact (released_alloc dbg s _ s' a size H R Pa Ha Hn).
  - destruct R as [->|(R1 & R2 & R3 & R4 & R5 & R6)]; [now left|]. right. exists (lpa s'). auto.
  - intros q n L Q. apply (released_recent dbg s _ s' q n H L Q R).
Qed.
(** Scopes whose blocks start where the allocator ends give everything back. *)
Theorem C47_scopes_exact_partial : forall dbg f s, stack_ok s -> rising (cap s) 1 f ->
  (p s + sz s) mod last_align 1 f = 0 -> exists s', run dbg f s = Some s' /\ p s' = p s /\ cap s' = cap s /\ sz s' = sz s.
Proof.
  intros dbg f s H Hr Ha. destruct (run_released dbg f s 1 s H Hr (or_introl eq_refl)) as (s' & E & R).
  exists s'. split; [exact E|]. destruct (released_cap _ _ _ R) as [Ep Ec]. split; [exact Ep|]. split; [exact Ec|].
  destruct R as [->|(R1 & R2 & R3 & R4 & R5 & R6)]; [reflexivity|].
  assert (Pt : forall g lo, pow2 lo -> rising (cap s) lo g -> pow2 (last_align lo g)).
  { induction g as [|n a i IHi nx IHn]; intros lo Pl; cbn [rising last_align]; [auto|]. intros (Pa & _ & _ & _ & Hx). exact (IHn a Pa Hx). }
  pose proof (Pt f 1 ltac:(exists 0; split; [lia|reflexivity]) Hr) as Pm.
  pose proof (pow2_divide _ _ R3 Pm R4) as D. destruct (pow2_pos _ R3) as [L1 _]. destruct (pow2_pos _ Pm) as [M1 _].
  rewrite R5, pad_aligned_0; [lia|exact L1|]. apply N.mod_divide in Ha; [|lia]. apply N.mod_divide in D; [|lia].
  apply N.mod_divide; [lia|]. eapply N.divide_trans; eassumption.
Qed.
Example C47_case : stack_ok (Stack 5 2 64 1) /\
  rising 64 1 (Scope 3 2 (Scope 8 8 Done (Scope 1 8 Done Done)) (Scope 5 4 (Scope 1 1 Done Done) Done)) /\
  run true (Scope 3 2 (Scope 8 8 Done (Scope 1 8 Done Done)) (Scope 5 4 (Scope 1 1 Done Done) Done)) (Stack 5 2 64 1)
    = Some (Stack 5 3 64 4).
Proof.
  assert (P8 : pow2 8) by (exists 3; split; [lia|reflexivity]). assert (P1 : pow2 1) by (exists 0; split; [lia|reflexivity]).
  assert (P4 : pow2 4) by (exists 2; split; [lia|reflexivity]). assert (P2 : pow2 2) by (exists 1; split; [lia|reflexivity]).
  split; [unfold stack_ok; cbn; lia|]. split; [cbn; intuition lia|vm_compute; reflexivity].
Qed.

(** The most recent block grows (or shrinks) in place exactly if the rest of the buffer is enough. *)
Theorem C47_grow_in_place_partial : forall dbg s size a s1 q n new, stack_ok s -> pow2 a -> cap s + a + size <= W64 ->
  allocate_bytes dbg s size a = Some (s1, Some (q, n)) -> cap s + new < W64 ->
  reallocate_bytes_in_place dbg s1 q n new =
    if new <=? size + (cap s - sz s1) then Some (Stack (p s) (sz s1 + new - size) (cap s) 1, true) else Some (s1, false).
Proof.
  intros dbg s size a s1 q n new H Pa Hn E Hw. rewrite (allocate_eq dbg s size a H Pa Hn) in E. cbv zeta in E.
  set (o := pad (p s + sz s) a) in *. clearbody o.
  destruct ((size =? 0) || (cap s <? sz s + o + size)) eqn:G; [discriminate E|].
  assert (Es : s1 = Stack (p s) (sz s + o + size) (cap s) 1) by congruence.
  assert (Eq : q = p s + sz s + o) by congruence. assert (En : n = size) by congruence. clear E. subst s1 q n.
  destruct H as (H1 & H2 & H3 & H4).
  rewrite grow_in_place; cbn [p sz cap lpa].
  - destruct (N.leb_spec (sz s + o + size + new - size) (cap s)), (N.leb_spec new (size + (cap s - (sz s + o + size)))); try lia; reflexivity.
  - unfold stack_ok. cbn [p sz cap]. repeat split; lia.
  - exists 0; split; [lia|reflexivity].
  - lia.
  - rewrite pad_1. lia.
  - lia.
Qed.
Example C47_grow_case : allocate_bytes true (Stack 4 0 64 0) 8 8 = Some (Stack 4 12 64 1, Some (8, 8)) /\
  reallocate_bytes_in_place true (Stack 4 12 64 1) 8 8 60 = Some (Stack 4 64 64 1, true) /\
  reallocate_bytes_in_place true (Stack 4 12 64 1) 8 8 61 = Some (Stack 4 12 64 1, false).
Proof. repeat split; vm_compute; reflexivity. Qed.

(** One allocation and its free do not restore the allocator: the padding in front of the block is lost. *)
Theorem C47_refuted : exists s s1 q n s2, stack_ok s /\
  allocate_bytes true s 1 8 = Some (s1, Some (q, n)) /\ free_bytes true s1 q n 8 = Some s2 /\
  remaining true s 1 = Some 64 /\ remaining true s2 1 = Some 60.
Proof.
  exists (Stack 4 0 64 0), (Stack 4 5 64 1), 8, 1, (Stack 4 4 64 8).
  split; [unfold stack_ok; cbn; lia|]. repeat split; vm_compute; reflexivity.
Qed.
(** Resizing the top block after a free makes its own free run into an assertion, although every free
    is in reverse order. *)
Theorem C47_resize_refuted :
  play true (start 8 64) [Alloc 1 1; Alloc 8 8; Free 0; Realloc 0 2] <> None /\
  play true (start 8 64) [Alloc 1 1; Alloc 8 8; Free 0; Realloc 0 2; Free 0] = None.
Proof. split; [vm_compute; discriminate|vm_compute; reflexivity]. Qed.
(** Likewise two blocks on top of another one, the second with a smaller alignment than the first. *)
Theorem C47_alignment_refuted :
  play true (start 8 64) [Alloc 1 1; Alloc 8 8; Free 0; Alloc 1 1; Free 0] <> None /\
  play true (start 8 64) [Alloc 1 1; Alloc 8 8; Free 0; Alloc 1 1; Free 0; Free 0] = None.
Proof. split; [vm_compute; discriminate|vm_compute; reflexivity]. Qed.

(** * C48: requests that do not fit *)
Theorem C48_oversized_partial : forall dbg s size a, stack_ok s -> pow2 a -> cap s + a + size <= W64 -> 1 <= size ->
  exists room, remaining dbg s a = Some room /\ room <= cap s - sz s /\
    (room < size -> allocate_bytes dbg s size a = Some (s, None)) /\
    (size <= room -> exists s' q, allocate_bytes dbg s size a = Some (s', Some (q, size)) /\
       q mod a = 0 /\ p s + sz s <= q < p s + sz s + a /\ remaining dbg s' 1 = Some (p s + cap s - (q + size))).
Proof.
  intros dbg s size a H Pa Hn Hs. rewrite (allocate_eq dbg s size a H Pa Hn). cbv zeta.
  destruct (pow2_pos _ Pa) as [A1 A2]. pose proof (pad_lt (p s + sz s) a A1) as L. pose proof (pad_aligned (p s + sz s) a A1) as E.
  pose proof H as (H1 & H2 & H3 & H4).
  assert (Er : remaining dbg s a = Some (if pad (p s + sz s) a <=? cap s - sz s then cap s - sz s - pad (p s + sz s) a else 0)).
  { unfold remaining. rewrite check_true by now apply ok_valid. rewrite end_eq by assumption.
    rewrite alignment_offset_eq by (assumption || lia). rewrite sub64_le by lia. reflexivity. }
  set (o := pad (p s + sz s) a) in *. clearbody o. rewrite Er. eexists. split; [reflexivity|].
  split; [destruct (N.leb_spec o (cap s - sz s)); lia|]. split; intros R.
  - destruct (N.leb_spec o (cap s - sz s)) as [G|G];
      (assert (T : (size =? 0) || (cap s <? sz s + o + size) = true) by lia); rewrite T; reflexivity.
  - destruct (N.leb_spec o (cap s - sz s)) as [G|G]; [|lia].
    assert (T : (size =? 0) || (cap s <? sz s + o + size) = false) by lia. rewrite T.
    exists (Stack (p s) (sz s + o + size) (cap s) 1), (p s + sz s + o). split; [reflexivity|]. split; [exact E|]. split; [lia|].
    assert (K : stack_ok (Stack (p s) (sz s + o + size) (cap s) 1)) by (unfold stack_ok; cbn [p sz cap]; repeat split; lia).
    unfold remaining. rewrite check_true by now apply ok_valid. rewrite end_eq by assumption. cbn [p sz cap].
    rewrite alignment_offset_eq; [|exists 0; split; [lia|reflexivity]|lia]. rewrite pad_1, sub64_le by lia.
    destruct (N.leb_spec 0 (cap s - (sz s + o + size))); [|lia]. f_equal. lia.
Qed.
Example C48_case : remaining true (Stack 4 3 64 1) 8 = Some 60 /\
  allocate_bytes true (Stack 4 3 64 1) 61 8 = Some (Stack 4 3 64 1, None) /\
  allocate_bytes true (Stack 4 3 64 1) 60 8 = Some (Stack 4 64 64 1, Some (8, 60)).
Proof. repeat split; vm_compute; reflexivity. Qed.
(** Near the top of size_t the sum wraps around and a request for nearly all of the address space is
    granted; the block handed out overlaps the blocks in front of it. *)
Theorem C48_refuted : exists s s1 q, allocate_bytes true s (2 ^ 64 - 8) 1 = Some (s1, Some (q, 2 ^ 64 - 8)) /\
  stack_ok s /\ remaining true s 1 = Some 48 /\ remaining true s1 1 = Some 56.
Proof.
  exists (Stack 4096 16 64 1), (Stack 4096 8 64 1), 4112. split; [vm_compute; reflexivity|].
  split; [unfold stack_ok; cbn; lia|split; vm_compute; reflexivity].
Qed.

(** * C88: reallocation keeps the contents *)
Theorem C88_realloc_contents : forall dbg ptr capacity mem c i b new, 1 <= ptr -> 1 <= capacity -> ptr + capacity < W64 ->
  history dbg ptr capacity c -> nth_error (live c) i = Some b -> allowed c (Realloc i new) ->
  exists s r mem', reallocate_bytes dbg (st c) mem (b_ptr b) (b_size b) new (b_align b) = Some (s, r, mem') /\
    match r with
    | Some (q, n) =>
      new <= n /\ (forall k, k < N.min (b_size b) n -> mem' (q + k) = mem (b_ptr b + k)) /\
      (forall j b' k, nth_error (live c) j = Some b' -> k < b_size b' -> mem' (b_ptr b' + k) = mem (b_ptr b' + k))
    | None => s = st c /\ mem' = mem
    end.
Proof.
  intros dbg ptr capacity mem c i b new H1 H2 H3 H Eb D. pose proof (history_inv dbg ptr capacity c H1 H2 H3 H) as I.
  destruct (exec_total dbg ptr capacity mem c (Realloc i new) I D ltac:(discriminate)) as [c' Ec].
  cbn [exec] in Ec. rewrite Eb in Ec. cbn [allowed] in D. destruct D as (Hn & Di & Hw). specialize (Hw b Eb).
  destruct (reallocate_bytes dbg (st c) mem (b_ptr b) (b_size b) new (b_align b)) as [[[s r] mem']|] eqn:E; [|discriminate Ec].
  exists s, r, mem'. split; [reflexivity|].
  pose proof (realloc_contents dbg ptr capacity mem c i b new s r mem' I Eb Hn Hw E) as R.
  destruct r as [[q n]|]; [|exact R]. destruct R as (R1 & R2 & R3 & R4). split; [exact R1|]. split; [exact R2|].
  intros j b' k Ej Hk. apply R3. intros [Q1 Q2]. destruct R4 as [R4|R4]; [congruence|].
  destruct I as (_ & _ & _ & I4 & _). destruct (stacked_nth _ _ _ _ _ I4 Ej) as (B1 & B2 & _). unfold b_end in B2. lia.
Qed.
(** A block below another one is moved, its three octets with it. *)
Example C88_case : exists s mem', reallocate_bytes true (Stack 4 8 64 1) (fun x => x * x) 4 3 9 4 = Some (s, Some (12, 9), mem') /\
  map mem' [12; 13; 14; 4; 5; 6; 8; 9] = [16; 25; 36; 16; 25; 36; 64; 81].
Proof.
  exists (Stack 4 17 64 1), (fun x => if (12 <=? x) && (x <? 12 + 3) then (4 + (x - 12)) * (4 + (x - 12)) else x * x).
  split; [reflexivity|vm_compute; reflexivity].
Qed.

(** * C89: the guard restores the allocator *)

(** Whatever calls are made in between, setting the saved state brings the allocator back exactly;
    the blocks that were live are so again. *)
Theorem C89_guard_restores : forall dbg ops c c', play dbg c ops = Some c' ->
  set_state (st c') (get_state (st c)) = st c.
Proof.
  assert (B : forall dbg ops c c', play dbg c ops = Some c' -> p (st c') = p (st c) /\ cap (st c') = cap (st c)).
  { intros dbg ops. induction ops as [|o r IH]; intros c c' E; cbn [play] in E; [inversion E; subst; auto|].
    destruct (exec dbg mem0 c o) as [c1|] eqn:E1; [|discriminate E]. apply exec_buffer in E1. destruct (IH _ _ E) as [Q1 Q2].
    destruct E1. split; congruence. }
  intros dbg ops c c' E. destruct (B _ _ _ _ E) as [Q1 Q2]. unfold set_state, get_state. cbn [fst snd]. rewrite Q1, Q2.
  destruct (st c); reflexivity.
Qed.
Example C89_case : exists c', play true (Client (Stack 8 3 64 1) [Block 8 3 1] false)
    [Alloc 8 8; Alloc 1 1; Free 0; Realloc 0 11; Alloc 4 4] = Some c' /\
  st c' = Stack 8 24 64 1 /\ set_state (st c') (get_state (Stack 8 3 64 1)) = Stack 8 3 64 1.
Proof. exists (Client (Stack 8 24 64 1) [Block 28 4 4; Block 16 11 8; Block 8 3 1] false). repeat split; vm_compute; reflexivity. Qed.

(** * C90: the monotonic allocator *)
Inductive mono_history (dbg : bool) (granularity : N) : mono -> list block -> Prop :=
| MH_create : mono_history dbg granularity (Mono [Some (Stack 0 0 0 0)] 0 granularity) []
| MH_step m live size a realloc_ok mapped m' r :
    mono_history dbg granularity m live -> mono_allowed m size a mapped ->
    mono_allocate dbg m size a realloc_ok mapped = Some (m', r) ->
    mono_history dbg granularity m' (match r with Some (q, n) => Block q n a :: live | None => live end).

Lemma mono_history_inv : forall dbg g m live, mono_history dbg g m live -> mono_inv m live.
Proof.
  intros dbg g m live H. induction H as [|m live size a ro mapped m' r H IH D E].
  - constructor; cbn [blocks current length]; [lia| | |constructor|constructor|constructor].
    + intros [|i] o E; [inversion E; subst o; eexists; split; [reflexivity|left; repeat split]|destruct i; discriminate E].
    + intros [|i] [|j] s t Ei Ej Hij; try congruence; [destruct j; discriminate Ej|destruct i; discriminate Ei|destruct i; discriminate Ei].
  - destruct (mono_step dbg m live size a ro mapped IH D) as (m1 & r1 & E1 & _ & R). rewrite E in E1.
    assert (m1 = m') by congruence. assert (r1 = r) by congruence. subst m1 r1. destruct r as [[q n]|]; [|exact R].
    destruct R as [-> R]. exact R.
Qed.
(** From a properly initialized allocator on, with mappings that are memory of their own: every block
    is inside of one mapping, aligned and disjoint from all others, whatever allocations fail. *)
Theorem C90_monotonic_partial : forall dbg granularity m live, mono_history dbg granularity m live ->
  Forall (fun b => exists s, In (Some s) (blocks m) /\ p s <> 0 /\ inside (p s) (p s + cap s) b) live /\
  Forall aligned live /\ ForallOrdPairs disjoint live.
Proof.
  intros dbg g m live H. pose proof (mono_history_inv dbg g m live H) as I.
  split; [|split; [exact (mi_aligned _ _ I)|exact (mi_disjoint _ _ I)]].
  eapply Forall_impl; [|exact (mi_live _ _ I)]. intros b (i & s & E & (K1 & K2 & K3 & K4) & O1 & O2).
  exists s. split; [eapply nth_error_In; exact E|]. split; [lia|]. unfold inside. lia.
Qed.
(** Allocation neither asserts nor touches memory that is not there. *)
Theorem C90_no_assertion_partial : forall dbg granularity m live size a realloc_ok mapped,
  mono_history dbg granularity m live -> mono_allowed m size a mapped ->
  exists m' r, mono_allocate dbg m size a realloc_ok mapped = Some (m', r).
Proof.
  intros dbg g m live size a ro mapped H D.
  destruct (mono_step dbg m live size a ro mapped (mono_history_inv dbg g m live H) D) as (m' & r & E & _). exists m', r. exact E.
Qed.
Example C90_case : exists m live, mono_history true 4096 m live /\
  live = [Block 4104 16 8; Block 65536 9000 16; Block 4096 5 4].
Proof.
  exists (Mono [Some (Stack 0 0 0 0); Some (Stack 4096 24 4096 1); Some (Stack 65536 9000 9000 1)] 1 4096), [Block 4104 16 8; Block 65536 9000 16; Block 4096 5 4].
  split; [|reflexivity].
  assert (P8 : pow2 8) by (exists 3; split; [lia|reflexivity]). assert (P4 : pow2 4) by (exists 2; split; [lia|reflexivity]).
  assert (P16 : pow2 16) by (exists 4; split; [lia|reflexivity]).
  apply (MH_step true 4096 (Mono [Some (Stack 0 0 0 0); Some (Stack 4096 5 4096 1); Some (Stack 65536 9000 9000 1)] 1 4096)
           [Block 65536 9000 16; Block 4096 5 4] 16 8 true 0 _ (Some (4104, 16))); [| |vm_compute; reflexivity].
  2: { unfold mono_allowed. cbn [block_size blocks]. split; [exact P8|]. repeat split; try lia; [|now left].
       intros [|[|[|i]]] s E; cbn in E; try (inversion E; subst s; cbn; lia). destruct i; discriminate E. }
  apply (MH_step true 4096 (Mono [Some (Stack 0 0 0 0); Some (Stack 4096 5 4096 1)] 1 4096)
           [Block 4096 5 4] 9000 16 true 65536 _ (Some (65536, 9000))); [| |vm_compute; reflexivity].
  2: { unfold mono_allowed. cbn [block_size blocks]. split; [exact P16|]. repeat split; try lia.
       - intros [|[|i]] s E; cbn in E; try (inversion E; subst s; cbn; lia). destruct i; discriminate E.
       - right. cbn. split; [lia|]. intros [|[|i]] s E; cbn in E; try (inversion E; subst s; unfold apart; cbn; lia). destruct i; discriminate E. }
  apply (MH_step true 4096 (Mono [Some (Stack 0 0 0 0)] 0 4096) [] 5 4 true 4096 _ (Some (4096, 5))); [apply MH_create| |vm_compute; reflexivity].
  unfold mono_allowed. cbn [block_size blocks]. split; [exact P4|]. repeat split; try lia.
  - intros [|i] s E; cbn in E; try (inversion E; subst s; cbn; lia). destruct i; discriminate E.
  - right. cbn. split; [lia|]. intros [|i] s E; cbn in E; try (inversion E; subst s; unfold apart; cbn; lia). destruct i; discriminate E.
Qed.
(** The constructor leaves the first allocator uninitialized; the first allocation reads it. *)
Theorem C90_refuted : forall dbg granularity size a realloc_ok mapped,
  mono_allocate dbg (mono_create granularity) size a realloc_ok mapped = None.
Proof. reflexivity. Qed.

Print Assumptions C46_blocks_partial.
Print Assumptions C46_no_assertion_partial.
Print Assumptions C46_refuted.
Print Assumptions C46_fresh_realloc_refuted.
Print Assumptions C47_scopes_partial.
Print Assumptions C47_scopes_exact_partial.
Print Assumptions C47_grow_in_place_partial.
Print Assumptions C47_refuted.
Print Assumptions C47_resize_refuted.
Print Assumptions C47_alignment_refuted.
Print Assumptions C48_oversized_partial.
Print Assumptions C48_refuted.
Print Assumptions C88_realloc_contents.
Print Assumptions C89_guard_restores.
Print Assumptions C90_monotonic_partial.
Print Assumptions C90_no_assertion_partial.
Print Assumptions C90_refuted.
