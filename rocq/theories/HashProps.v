(** C10-C15, C65, C66: properties of the hash map and the FNV-1a hash. *)
From Coq Require Import NArith List Bool Lia ZifyBool ZifyNat ZifyN Arith.
From Verif Require Import Base HashModel HashSpec HashProofs HashSparse.
Import ListNotations.
Local Open Scope N_scope.

Lemma write_same : forall A (l : list A) i x, nth_error l i = Some x -> write l i x = Some l.
Proof.
  induction l as [|a l IH]; intros [|i] x H; cbn in *; try discriminate; [congruence|]. rewrite (IH i x H). reflexivity.
Qed.

Section Props.
(** Any key and value type, any hash function defined on all keys but possibly the reserved one, any allocator that
    never grants 2^63 bytes at once. *)
Variable K V : Type.
Variable keq : K -> K -> bool.
Variable tomb : K.
Variable hash : K -> option N.
Variable copy_bytes : K -> option N.
Variable ksize vsize : N.
Variable grant : nat -> N -> bool.
Hypothesis keq_ok : forall a b, keq a b = true <-> a = b.
Hypothesis hash_ok : forall k, k <> tomb -> exists h, hash k = Some h.
Hypothesis ksize_ok : 1 <= ksize.
Hypothesis vsize_ok : 1 <= vsize.
Hypothesis grant_ok : forall i b, grant i b = true -> b < 2 ^ 63.

Notation "'!' f" := (f K V keq tomb hash copy_bytes ksize vsize grant keq_ok hash_ok ksize_ok vsize_ok grant_ok)
  (at level 9, f at level 8, only parsing).
Notation map := (map K V).
Notation wf := (wf K V keq tomb hash ksize vsize).
Notation occ := (occ K keq tomb).
Notation stored := (stored K V).
Notation create := (create K V tomb ksize vsize grant).
Notation insert := (insert K V keq tomb hash copy_bytes ksize vsize grant).
Notation insert_run := (insert_run K V keq tomb hash ksize vsize grant).
Notation find := (find K V keq hash).
Notation get := (get K V keq tomb).
Notation remove := (remove K V keq tomb hash).
Notation remove_index := (remove_index K V keq tomb).
Notation reach := (reach K V keq tomb hash copy_bytes ksize vsize grant).
Notation reach_any := (reach_any K V keq tomb hash copy_bytes ksize vsize grant).
Notation upd := (upd K V keq).
Notation del := (del K V keq).

(** ** C10 *)
Theorem C10_find : forall m t s k, reach m t s -> k <> tomb -> find m k = Ret (s k).
Proof using All.
  intros m t s k R T. destruct (! reach_rel m t s R) as (ks & vs & W & X & N & S).
  pose proof (! find_ok m ks vs k W T) as F. destruct (find m k) as [[v|]| |]; try contradiction.
  - apply S in F; [|exact T]. rewrite F. reflexivity.
  - destruct (s k) as [v|] eqn:E; [|reflexivity]. exfalso. apply (F v). apply S; assumption.
Qed.

Theorem C10_count : forall m t s, reach m t s -> size_is s (map_count K V m).
Proof using All.
  intros m t s R. destruct (! reach_rel m t s R) as (ks & vs & W & X & N & S).
  exists (filter (fun k => negb (is_tomb K keq tomb k)) ks). split; [apply (! uniq_nodup); apply (wf_uniq W)|]. split; [exact X|].
  intros k. rewrite filter_In, negb_true_iff. split.
  - intros [I T]. apply (! tomb_not) in T. destruct (! in_stored _ _ _ k W T I) as (v & Sv). apply S in Sv; [|exact T].
    congruence.
  - intros H. destruct (s k) as [v|] eqn:E; [|congruence]. assert (T : k <> tomb) by (intros ->; congruence).
    split; [|apply (! tomb_not); exact T]. apply S in E; [|exact T]. apply (! stored_in) in E. exact E.
Qed.

(** insert always returns (no failed assertion, no access outside of the arrays). *)
Theorem C10_insert_returns : forall m t s k v, reach_any m t s -> exists b m' t', insert m k v t = Ret (b, m', t').
Proof using All.
  intros m t s k v R. destruct (! reach_any_rel m t s R) as (ks & vs & W & N & S).
  destruct (! key_dec k tomb) as [->|T].
  - exists false, m, t. unfold HashModel.insert. rewrite (proj2 (! tomb_iff tomb) eq_refl). reflexivity.
  - pose proof (! insert_ok m ks vs k v t W T) as P. destruct (insert m k v t) as [[[b m'] t']| |]; [|contradiction|contradiction].
    exists b, m', t'. reflexivity.
Qed.

Theorem C10_remove : forall m t s k, reach m t s -> k <> tomb -> exists m', remove m k =
  Ret (match s k with Some _ => true | None => false end, m') /\ reach m' t (del s k).
Proof using All.
  intros m t s k R T. destruct (! reach_rel m t s R) as (ks & vs & W & X & N & S).
  pose proof (! remove_ok m ks vs k W T) as P. destruct (remove m k) as [[b m']| |] eqn:E; [|contradiction|contradiction].
  assert (Rd : reach m' t (del s k)) by (apply (R_remove _ _ _ _ _ _ _ _ _ m t s k b m' R T E)).
  exists m'. split; [|exact Rd]. f_equal. f_equal. destruct b.
  - destruct P as ((v & Sv) & _). apply S in Sv; [|exact T]. rewrite Sv. reflexivity.
  - destruct P as (_ & P). destruct (s k) as [v|] eqn:Es; [|reflexivity]. exfalso. apply (P v). apply S; assumption.
Qed.

Theorem C10_remove_index : forall m t s i, reach m t s -> 0 < map_count K V m ->
  match get m i with
  | Ret (Some (k, v)) => s k = Some v /\ exists m', remove_index m i = Ret (true, m') /\ reach m' t (del s k)
  | Ret None => remove_index m i = Ret (false, m)
  | _ => False
  end.
Proof using All.
  intros m t s i R Hc. destruct (! reach_rel m t s R) as (ks & vs & W & X & N & S).
  pose proof (! remove_index_ok m ks vs i W Hc) as P. pose proof (! get_ok m ks vs i W) as Q.
  destruct (get m i) as [[[k v]|]| |] eqn:G; try contradiction.
  - destruct Q as (T & _ & Q1 & Q2). split; [apply S; [exact T|exists (N.to_nat i); split; assumption]|].
    destruct (remove_index m i) as [[[] m']| |] eqn:E; try contradiction.
    + exists m'. split; [reflexivity|]. apply (R_remove_index _ _ _ _ _ _ _ _ _ m t s i k v true m' R G E).
    + destruct P as [_ P]. discriminate.
  - destruct (remove_index m i) as [[[] m']| |] eqn:E; try contradiction.
    + destruct P as (k & v & ks' & P & _). discriminate.
    + destruct P as [-> _]. reflexivity.
Qed.

(** ** C66: iterating over all slots visits every pair exactly once *)
Theorem C66_iteration : forall m t s, reach m t s ->
  (forall i, exists r, get m i = Ret r) /\
  (forall i k v, get m i = Ret (Some (k, v)) -> s k = Some v /\ i < map_capacity K V m) /\
  (forall k v, s k = Some v -> exists! i, get m i = Ret (Some (k, v))) /\
  (forall i j k v v', get m i = Ret (Some (k, v)) -> get m j = Ret (Some (k, v')) -> i = j).
Proof using All.
  intros m t s R. destruct (! reach_rel m t s R) as (ks & vs & W & X & N & S).
  assert (U : forall i j k v v', get m i = Ret (Some (k, v)) -> get m j = Ret (Some (k, v')) -> i = j).
  { intros i j k v v' A B. pose proof (! get_ok m ks vs i W) as Q. rewrite A in Q.
    pose proof (! get_ok m ks vs j W) as Q'. rewrite B in Q'. destruct Q as (T & _ & Q & _). destruct Q' as (_ & _ & Q' & _).
    apply N2Nat.inj. apply (wf_uniq W _ _ k T Q Q'). }
  split; [|split; [|split; [|exact U]]].
  - intros i. pose proof (! get_ok m ks vs i W) as Q. destruct (get m i) as [r| |]; [|contradiction|contradiction].
    exists r. reflexivity.
  - intros i k v A. pose proof (! get_ok m ks vs i W) as Q. rewrite A in Q. destruct Q as (T & L & Q1 & Q2).
    split; [|exact L]. apply S; [exact T|]. exists (N.to_nat i). split; assumption.
  - intros k v E. assert (T : k <> tomb) by (intros ->; congruence). apply S in E; [|exact T]. destruct E as (i & A & B).
    assert (G : get m (N.of_nat i) = Ret (Some (k, v))).
    { pose proof (! get_ok m ks vs (N.of_nat i) W) as Q. rewrite Nnat.Nat2N.id in Q.
      destruct (get m (N.of_nat i)) as [[[k' v']|]| |]; try contradiction.
      - destruct Q as (_ & _ & Q1 & Q2). congruence.
      - apply Q in A. congruence. }
    exists (N.of_nat i). split; [exact G|]. intros j Gj. apply (U _ _ k v v G Gj).
Qed.

(** ** C11 *)
(** Whatever failed: capacity, placement, uniqueness and load; and the count is exact without harmful failures. *)
Theorem C11_invariant : forall m t s, reach_any m t s ->
  (exists j, 4 <= j /\ map_capacity K V m = 2 ^ j) /\
  (forall i k v, get m i = Ret (Some (k, v)) -> exists h d, hash k = Some h /\ d < 16 /\ i = (h + d) mod map_capacity K V m) /\
  (forall i j k v v', get m i = Ret (Some (k, v)) -> get m j = Ret (Some (k, v')) -> i = j) /\
  4 * map_count K V m < 3 * map_capacity K V m.
Proof using All.
  intros m t s R. destruct (! reach_any_rel m t s R) as (ks & vs & W & N & S).
  split; [apply (wf_pow W)|]. split; [|split; [|apply (wf_load W)]].
  - intros i k v A. pose proof (! get_ok m ks vs i W) as Q. rewrite A in Q. destruct Q as (T & L & Q1 & Q2).
    destruct (wf_near W _ k T Q1) as (h & d & H1 & H2 & H3). exists h, d. rewrite N2Nat.id in H3. repeat split; assumption.
  - intros i j k v v' A B. pose proof (! get_ok m ks vs i W) as Q. rewrite A in Q.
    pose proof (! get_ok m ks vs j W) as Q'. rewrite B in Q'. destruct Q as (T & _ & Q & _). destruct Q' as (_ & _ & Q' & _).
    apply N2Nat.inj. apply (wf_uniq W _ _ k T Q Q').
Qed.

(** The count is the number of non-empty slots. *)
Theorem C11_count_exact_partial : forall m t s, reach m t s ->
  exists idx, NoDup idx /\ N.of_nat (length idx) = map_count K V m /\
    forall i, In i idx <-> exists k v, get m i = Ret (Some (k, v)).
Proof using All.
  intros m t s R. destruct (C10_count m t s R) as (l & Nl & Ll & Hl).
  destruct (C66_iteration m t s R) as (I1 & I2 & I3 & I4).
  assert (G : forall l, NoDup l -> (forall k, In k l -> s k <> None) -> exists idx, NoDup idx /\ length idx = length l /\
            forall i, In i idx <-> exists k v, In k l /\ get m i = Ret (Some (k, v))).
  { clear - I3 I4. induction l as [|a l IH]; intros N1 H1.
    - exists []. split; [constructor|]. split; [reflexivity|]. intros i. split; [intros []|]. intros (k & v & [] & _).
    - inversion N1; subst. destruct (IH H3 (fun k I => H1 k (or_intror I))) as (idx & A & B & C).
      specialize (H1 a (or_introl eq_refl)). destruct (s a) as [v|] eqn:Es; [|congruence].
      destruct (I3 a v Es) as (i & Gi & _). exists (i :: idx). split; [|split; [cbn; lia|]].
      + constructor; [|exact A]. intros I. apply C in I. destruct I as (k & v' & Ik & Gk). assert (k = a) by congruence. subst. contradiction.
      + intros j. split.
        * intros [<-|I]; [exists a, v; split; [left; reflexivity|exact Gi]|]. apply C in I. destruct I as (k & v' & Ik & Gk).
          exists k, v'. split; [right; exact Ik|exact Gk].
        * intros (k & v' & [->|Ik] & Gk); [left; apply (I4 _ _ _ _ _ Gi Gk)|right]. apply C. exists k, v'. split; assumption. }
  destruct (G l Nl (fun k => proj1 (Hl k))) as (idx & A & B & C). exists idx. split; [exact A|]. split; [lia|].
  intros i. rewrite C. split; [intros (k & v & _ & H); exists k, v; exact H|]. intros (k & v & H). exists k, v. split; [|exact H].
  apply Hl. destruct (I2 i k v H). congruence.
Qed.

(** ** C12 *)
(** Refused at the first attempt to grow (or when copying the key): the map is literally unchanged. *)
Theorem C12_first_refusal_partial : forall m t s k v m' t', reach m t s -> insert m k v t = Ret (false, m', t') ->
  (t' <= t + copies K copy_bytes k + 2)%nat -> m' = m.
Proof using All.
  intros m t s k v m' t' R E L. destruct (! reach_rel m t s R) as (ks & vs & W & X & N & S).
  apply (! insert_clean m ks vs k v t m' t' W E L).
Qed.

(** When the stored keys and the new one do not crowd (at this capacity and the next), every failed insertion is of
    that kind. *)
Theorem C12_sparse_partial : forall m t s k v m' t', reach m t s ->
  sparse hash (fun x => x = k \/ s x <> None) (map_capacity K V m) ->
  sparse hash (fun x => x = k \/ s x <> None) (2 * map_capacity K V m) ->
  insert m k v t = Ret (false, m', t') -> m' = m.
Proof using All.
  intros m t s k v m' t' R S1 S2 E. destruct (! reach_rel m t s R) as (ks & vs & W & X & N & S).
  destruct (! key_dec k tomb) as [->|T].
  - unfold HashModel.insert in E. rewrite (proj2 (! tomb_iff tomb) eq_refl) in E. congruence.
  - destruct (! sparse_insert _ m ks vs k v t W S1 S2 (or_introl eq_refl) T) as (b & m2 & t2 & E2 & L).
    + intros x I Tx. right. destruct (! in_stored _ _ _ x W Tx I) as (vx & Sx). apply S in Sx; [|exact Tx]. congruence.
    + assert (t2 = t') by congruence. subst t2. apply (! insert_clean m ks vs k v t m' t' W E L).
Qed.

(** In general entries may be lost, but no wrong value ever appears, in any history with any failures. *)
Theorem C12_no_wrong_value_partial : forall m t s k, reach_any m t s -> k <> tomb ->
  find m k = Ret None \/ (find m k = Ret (s k) /\ s k <> None).
Proof using All.
  intros m t s k R T. destruct (! reach_any_rel m t s R) as (ks & vs & W & N & S).
  pose proof (! find_ok m ks vs k W T) as F. destruct (find m k) as [[v|]| |]; try contradiction.
  - right. apply S in F; [|exact T]. rewrite F. split; [reflexivity|discriminate].
  - left. reflexivity.
Qed.

(** ** C13 *)
Theorem C13_insert_rejects_reserved : forall m v t, insert m tomb v t = Ret (false, m, t).
Proof using All.
  intros m v t. unfold HashModel.insert. rewrite (proj2 (! tomb_iff tomb) eq_refl). reflexivity.
Qed.
Theorem C13_reserved_never_stored : forall m t s i v, reach_any m t s -> get m i <> Ret (Some (tomb, v)).
Proof using All.
  intros m t s i v R E. destruct (! reach_any_rel m t s R) as (ks & vs & W & N & S).
  pose proof (! get_ok m ks vs i W) as Q. rewrite E in Q. destruct Q as [Q _]. congruence.
Qed.
Theorem C13_empty_partial : forall m t s, reach_any m t s -> map_count K V m = 0 ->
  find m tomb = Ret None /\ remove m tomb = Ret (false, m).
Proof using All.
  intros m t s R C. destruct (! reach_any_rel m t s R) as (ks & vs & W & N & S).
  unfold HashModel.find, HashModel.remove, find_index, check. rewrite (! wf_asserted m ks vs W).
  unfold map_count in C. rewrite C. split; reflexivity.
Qed.

Lemma occ_full : forall ks, ~ In tomb ks -> occ ks = N.of_nat (length ks).
Proof using All.
  induction ks as [|a ks IH]; intros H; [reflexivity|]. rewrite (! occ_cons). rewrite IH by (intros I; apply H; right; exact I).
  assert (T : a <> tomb) by (intros ->; apply H; left; reflexivity). rewrite (proj2 (! tomb_not a) T). cbn [length]. lia.
Qed.

(** If the reserved key has a hash (integer keys), removing it from a non-empty 16-slot map always claims success and
    makes the count wrong. *)
Theorem C13_reserved_removed_refuted : forall m t s h, reach m t s -> hash tomb = Some h -> map_capacity K V m = 16 ->
  0 < map_count K V m -> exists m', remove m tomb = Ret (true, m') /\ map_count K V m' = map_count K V m - 1 /\
    (forall k, k <> tomb -> s k <> None -> exists i v, get m' i = Ret (Some (k, v)) /\ s k = Some v).
Proof using All.
  intros m t s h R Hh Hc Hn. destruct (! reach_rel m t s R) as (ks & vs & W & X & N & S).
  unfold map_capacity, map_count in *. pose proof (wf_load W) as Ld. pose proof (wf_len W) as Ln.
  unfold HashModel.remove, find_index, check. rewrite (! wf_asserted m ks vs W).
  destruct (count m =? 0) eqn:E0; [lia|]. rewrite Hh. cbv zeta.
  destruct (wf_pow W) as (j & Hj & E).
  assert (Hm : N.land h (sub64 (capacity m) 1) <? capacity m = true).
  { apply N.ltb_lt. rewrite E. rewrite mask_mod by (rewrite <- E, Hc; lia). apply N.mod_lt. rewrite <- E. lia. }
  rewrite Hm.
  pose proof (! scan_ok m ks vs tomb h MAX_PROBE 0 W eq_refl) as Q. cbv zeta in Q.
  destruct (scan _ _ _ _ _ _ _ _) as [[i|]| |]; try contradiction.
  2:{ exfalso. assert (F : ~ In tomb ks).
      { intros I. apply In_nth_error in I. destruct I as (i & Ei).
        assert (Li : (i < length ks)%nat) by (apply nth_error_Some; congruence).
        apply (Q ((N.of_nat i + 16 - h mod 16) mod 16)); [pose proof (N.mod_lt (N.of_nat i + 16 - h mod 16) 16 ltac:(lia)); lia|].
        unfold slot. rewrite Hc in *. rewrite N.add_mod_idemp_r by lia.
        replace (h + (N.of_nat i + 16 - h mod 16)) with (N.of_nat i + (h / 16 + 1) * 16).
        - rewrite N.mod_add by lia. rewrite N.mod_small by lia. rewrite Nnat.Nat2N.id. exact Ei.
        - pose proof (N.mod_lt h 16 ltac:(lia)). pose proof (N.div_mod h 16 ltac:(lia)). lia. }
      apply occ_full in F. lia. }
  destruct Q as [Li Ei].
  unfold erase. rewrite (wf_keys W). cbn [store].
  rewrite (write_same _ _ _ _ Ei). rewrite (wf_vals W). cbn [load].
  destruct (nth_error vs (N.to_nat i)) as [ov|] eqn:Ev;
    [|apply nth_error_None in Ev; pose proof (wf_vlen W); assert (N.to_nat i < length ks)%nat by (apply nth_error_Some; congruence); lia].
  assert (Es : sub64 (count m) 1 = count m - 1).
  { unfold sub64. replace (count m + W64 - 1) with ((count m - 1) + 1 * W64) by lia. rewrite N.mod_add by lia. apply N.mod_small. lia. }
  eexists. split; [reflexivity|]. cbn [count]. split; [exact Es|].
  intros k T Hk. destruct (s k) as [v|] eqn:Esk; [|congruence]. apply S in Esk; [|exact T].
  pose proof Esk as Sv. destruct Esk as (a & Ea & Eb). exists (N.of_nat a), v. split; [|reflexivity].
  unfold HashModel.get, check. pose proof (! wf_asserted m ks vs W) as As. unfold asserted in As |- *.
  cbn [keys values count capacity non_null]. rewrite (wf_keys W), (wf_vals W) in As. cbn [non_null andb] in As |- *.
  assert (La : (a < length ks)%nat) by (apply nth_error_Some; congruence).
  rewrite Es. apply andb_true_iff in As. destruct As as [As1 As2]. rewrite As1. cbn [andb].
  destruct (count m - 1 <=? capacity m) eqn:Q1; [|lia]. destruct (N.of_nat a <? capacity m) eqn:Q2; [|lia].
  cbn [load]. rewrite Nnat.Nat2N.id, Ea, Eb. rewrite (proj2 (! tomb_not k) T). reflexivity.
Qed.

(** ** C14 *)
(** The result of insert does not depend on the recursion budget of the model: a call that would not terminate would
    exhaust every budget. *)
Theorem C14_insert_terminates : forall m t s k v, reach_any m t s -> k <> tomb ->
  exists r, r <> Fuel /\ r <> Ub /\ forall n, (FUEL <= n)%nat -> insert_run n true m k v t = r.
Proof using All.
  intros m t s k v R T. destruct (! reach_any_rel m t s R) as (ks & vs & W & N & S).
  pose proof (! insert_run_ok FUEL true m ks vs k v t W T ltac:(discriminate)) as P.
  assert (F : insert_run FUEL true m k v t <> Fuel).
  { intros E. rewrite E in P. cbn [ins_post] in P. unfold lack, FUEL in P. lia. }
  exists (insert_run FUEL true m k v t). split; [exact F|]. split; [intros E; rewrite E in P; exact P|].
  intros n Hn. replace n with ((n - FUEL) + FUEL)%nat by lia. apply insert_run_more. exact F.
Qed.

(** insert fails only if a request for memory was refused. *)
Theorem C14_failure_needs_refusal : forall m t s k v m' t', reach_any m t s -> k <> tomb ->
  insert m k v t = Ret (false, m', t') -> exists i bytes, (t <= i < t')%nat /\ grant i bytes = false.
Proof using All.
  intros m t s k v m' t' R T E. destruct (! reach_any_rel m t s R) as (ks & vs & W & N & S).
  pose proof (! insert_ok m ks vs k v t W T) as P. rewrite E in P. destruct P as (_ & ks' & vs' & _ & _ & P & _). exact P.
Qed.

(** When the keys do not crowd, insert makes at most one growth (two requests) and succeeds if they are granted. *)
Theorem C14_sparse_succeeds_partial : forall m t s k v, reach m t s -> k <> tomb ->
  sparse hash (fun x => x = k \/ s x <> None) (map_capacity K V m) ->
  sparse hash (fun x => x = k \/ s x <> None) (2 * map_capacity K V m) ->
  exists b m' t', insert m k v t = Ret (b, m', t') /\ (t' <= t + copies K copy_bytes k + 2)%nat /\
    (b = false -> exists i bytes, (t <= i < t')%nat /\ grant i bytes = false).
Proof using All.
  intros m t s k v R T S1 S2. destruct (! reach_rel m t s R) as (ks & vs & W & X & N & S).
  destruct (! sparse_insert _ m ks vs k v t W S1 S2 (or_introl eq_refl) T) as (b & m2 & t2 & E2 & L).
  - intros x I Tx. right. destruct (! in_stored _ _ _ x W Tx I) as (vx & Sx). apply S in Sx; [|exact Tx]. congruence.
  - exists b, m2, t2. split; [exact E2|]. split; [exact L|]. intros ->.
    apply (C14_failure_needs_refusal m t s k v m2 t2 (! reach_any_of _ _ _ R) T E2).
Qed.

(** Any 16 keys are sparse, at every capacity. *)
Theorem C14_sixteen_keys_sparse : forall (P : K -> Prop) l c, (length l <= 16)%nat -> (forall x, P x -> In x l) ->
  sparse hash P c.
Proof using All.
  intros P l c L Hl k h l' Pk Hh Nd Hx.
  apply Nat.le_trans with (length l); [|exact L]. apply NoDup_incl_length; [exact Nd|].
  intros x I. apply Hl. apply Hx. exact I.
Qed.

(** A history of insertions, all reported successful. *)
Fixpoint insert_all (m : map) (t : nat) (l : list (K * V)) : outcome (option (map * nat)) :=
  match l with
  | [] => Ret (Some (m, t))
  | (k, v) :: l' => ' (b, m', t') <~ insert m k v t ;; if b then insert_all m' t' l' else Ret None
  end.

Lemma insert_all_reach : forall l m t s m' t', reach m t s -> insert_all m t l = Ret (Some (m', t')) ->
  reach m' t' (fold_left (fun s kv => upd s (fst kv) (snd kv)) l s).
Proof using All.
  induction l as [|[k v] l IH]; intros m t s m' t' R E; cbn [insert_all fold_left fst snd] in *.
  - injection E as <- <-. exact R.
  - destruct (insert m k v t) as [[[b m1] t1]| |] eqn:Ei; try discriminate. destruct b; [|discriminate].
    apply (IH m1 t1 _ m' t'); [|exact E]. apply (R_insert _ _ _ _ _ _ _ _ _ m t s k v m1 t1 R Ei).
Qed.

Lemma fold_upd_keep : forall l (s : K -> option V) k, s k <> None -> fold_left (fun s kv => upd s (fst kv) (snd kv)) l s k <> None.
Proof using All.
  induction l as [|[a b] l IH]; intros s k H; cbn [fold_left fst snd]; [exact H|]. apply IH. unfold HashProofs.upd.
  destruct (keq k a); [discriminate|exact H].
Qed.
Lemma fold_upd_in : forall l (s : K -> option V) k, In k (List.map fst l) -> fold_left (fun s kv => upd s (fst kv) (snd kv)) l s k <> None.
Proof using All.
  induction l as [|[a b] l IH]; intros s k I; cbn [fold_left fst snd List.map] in *; [destruct I|].
  destruct I as [<-|I]; [|apply IH; exact I]. apply fold_upd_keep. unfold HashProofs.upd. rewrite (! keq_refl). discriminate.
Qed.

(** No map ever holds 17 keys with the same hash: whatever the allocator grants, inserting them fails. *)
Theorem C14_seventeen_equal_hashes_refuted : forall t m t' kvs h, create t = (m, t') -> capacity m <> 0 ->
  length kvs = 17%nat -> NoDup (List.map fst kvs) ->
  (forall k, In k (List.map fst kvs) -> k <> tomb /\ hash k = Some h) -> insert_all m t' kvs = Ret None.
Proof using All.
  intros t m t' kvs h Ec Hc Hl Nd Hh.
  assert (R0 : reach m t' (fun _ => None)) by (apply (R_create _ _ _ _ _ _ _ _ _ t m t' Ec Hc)).
  assert (Tot : forall l m t s, reach m t s -> exists r, insert_all m t l = Ret r).
  { clear - keq_ok hash_ok ksize_ok vsize_ok grant_ok. induction l as [|[k v] l IH]; intros m t s R; cbn [insert_all]; [eexists; reflexivity|].
    destruct (C10_insert_returns m t s k v (! reach_any_of _ _ _ R)) as (b & m' & t' & E). rewrite E. destruct b; [|eexists; reflexivity].
    apply (IH m' t' (upd s k v)). apply (R_insert _ _ _ _ _ _ _ _ _ m t s k v m' t' R E). }
  destruct (Tot kvs m t' _ R0) as (r & Er). rewrite Er. destruct r as [[m1 t1]|]; [|reflexivity]. exfalso.
  pose proof (insert_all_reach kvs m t' _ m1 t1 R0 Er) as R1. set (s1 := fold_left _ kvs _) in R1.
  destruct (! reach_rel _ _ _ R1) as (ks & vs & W & X & N & S). destruct (! cap_le m1 ks vs W) as [C1 C2].
  (* every key sits in one of the 16 slots of the common window *)
  set (win := List.map (fun d => slot (capacity m1) h (N.of_nat d)) (seq 0 16)).
  assert (Hw : forall k, In k (List.map fst kvs) -> exists i, In i win /\ nth_error ks i = Some k).
  { intros k I. destruct (Hh k I) as [T Hk]. pose proof (fold_upd_in kvs (fun _ => None) k I) as P. fold s1 in P.
    destruct (s1 k) as [v|] eqn:Ev; [|congruence]. apply S in Ev; [|exact T]. destruct Ev as (i & A & B).
    destruct (wf_near W i k T A) as (h' & d & H1 & H2 & H3). rewrite Hk in H1. injection H1 as <-.
    exists i. split; [|exact A]. unfold win. apply in_map_iff. exists (N.to_nat d). split; [|apply in_seq; lia].
    unfold slot. rewrite N2Nat.id, <- H3. apply Nnat.Nat2N.id. }
  assert (L : (length (List.map fst kvs) <= length (List.map (fun i => nth i ks tomb) win))%nat).
  { apply NoDup_incl_length; [exact Nd|]. intros k I. destruct (Hw k I) as (i & I1 & I2). apply in_map_iff. exists i.
    split; [apply nth_error_nth with (d := tomb) in I2; exact I2|exact I1]. }
  unfold win in L. rewrite !map_length, seq_length in L. lia.
Qed.

(** ** C65: creation and destruction *)
Theorem C65_destroy_reachable : forall m t s, reach_any m t s -> destroy K V m = Ret (Map Null Null 0 0).
Proof using All.
  intros m t s R. destruct (! reach_any_rel m t s R) as (ks & vs & W & N & S). apply (! destroy_ok m ks vs W).
Qed.
(** A map whose creation failed for lack of memory for the keys can be destroyed; if only the values could not be
    allocated, destroying the map frees the keys a second time. *)
Theorem C65_destroy_failed_partial : forall t, grant t (16 * ksize) = false ->
  exists m t', create t = (m, t') /\ capacity m = 0 /\ destroy K V m = Ret (Map Null Null 0 0).
Proof using All.
  intros t G. unfold HashModel.create, INITIAL_CAPACITY. rewrite G. eexists _, _. split; [reflexivity|]. split; reflexivity.
Qed.
Theorem C65_destroy_failed_refuted : forall t, grant t (16 * ksize) = true -> grant (S t) (16 * vsize) = false ->
  exists m t', create t = (m, t') /\ capacity m = 0 /\ destroy K V m = Ub.
Proof using All.
  intros t G1 G2. unfold HashModel.create, INITIAL_CAPACITY. rewrite G1, G2. eexists _, _. split; [reflexivity|]. split; reflexivity.
Qed.
End Props.

(** ** C15 *)
Lemma w64_add : forall a b c d, a = w64 c -> b = w64 d -> w64 (a + b) = w64 (c + d).
Proof. intros a b c d -> ->. unfold w64. symmetry. apply N.add_mod. discriminate. Qed.
Lemma fnv_step_spec : forall h b, fnv_step h b = (N.lxor h b * 1099511628211) mod 2 ^ 64.
Proof.
  intros h b. unfold fnv_step. cbv zeta. generalize (N.lxor h b). intros x.
  assert (E : forall k, shl64 x k = w64 (x * 2 ^ k)) by (intros k; unfold shl64; rewrite N.shiftl_mul_pow2; reflexivity).
  rewrite (w64_add _ _ _ _ (E 1) (E 4)).
  rewrite (w64_add _ _ _ _ eq_refl (E 5)), (w64_add _ _ _ _ eq_refl (E 7)), (w64_add _ _ _ _ eq_refl (E 8)), (w64_add _ _ _ _ eq_refl (E 40)).
  unfold w64. rewrite N.add_mod_idemp_r by discriminate. change (2 ^ 64) with 18446744073709551616. f_equal.
  change (2 ^ 1) with 2. change (2 ^ 4) with 16. change (2 ^ 5) with 32. change (2 ^ 7) with 128.
  change (2 ^ 8) with 256. change (2 ^ 40) with 1099511627776. lia.
Qed.

Lemma fnv_fold : forall data h, fold_left fnv_step data h = fnv1a_from h data.
Proof.
  induction data as [|b data IH]; intros h; [reflexivity|]. unfold fnv1a_from in *. cbn [fold_left]. rewrite fnv_step_spec. apply IH.
Qed.

Theorem C15_hash_is_fnv1a : forall data, tmh_hash data = fnv1a data.
Proof.
  intros data. unfold tmh_hash, tmh_hash_combine, fnv1a. destruct data as [|b data]; [reflexivity|]. apply fnv_fold.
Qed.
Theorem C15_combine_chains : forall a b, tmh_hash_combine b (tmh_hash a) = fnv1a (a ++ b).
Proof.
  intros a b. rewrite C15_hash_is_fnv1a. unfold fnv1a, fnv1a_from. rewrite fold_left_app.
  unfold tmh_hash_combine. destruct b as [|x b]; [reflexivity|]. apply fnv_fold.
Qed.
Theorem C15_string_hash : forall bytes rest, (forall b, In b bytes -> b <> 0) ->
  tmh_string_hash (bytes ++ 0 :: rest) = Some (fnv1a bytes).
Proof.
  intros bytes rest Hb. unfold tmh_string_hash, fnv1a. change FNV_INIT with 14695981039346656037. generalize 14695981039346656037.
  induction bytes as [|b bytes IH]; intros h; [reflexivity|]. cbn [app tmh_string_hash_combine].
  destruct (N.eqb_spec b 0) as [->|_]; [destruct (Hb 0 (or_introl eq_refl) eq_refl)|].
  rewrite IH by (intros x I; apply Hb; right; exact I). unfold fnv1a_from. cbn [fold_left]. rewrite fnv_step_spec. reflexivity.
Qed.
(** Published test vectors: "" , "a", "foobar". *)
Example C15_vectors : fnv1a [] = 0xcbf29ce484222325 /\ fnv1a [97] = 0xaf63dc4c8601ec8c /\
  fnv1a [102; 111; 111; 98; 97; 114] = 0x85944171f73967e8 /\
  tmh_string_hash [102; 111; 111; 98; 97; 114; 0; 7] = Some 0x85944171f73967e8.
Proof. repeat split; vm_compute; reflexivity. Qed.

(** ** Concrete maps: 4-byte unsigned keys with identity hash and reserved key 0. *)
Definition ik_grant (limit : nat) (i : nat) (b : N) : bool := (b <? 1000000) && Nat.ltb i limit.
Definition ik_create limit := create N N 0 4 4 (ik_grant limit).
Definition ik_insert limit := insert N N N.eqb 0 (fun k => Some k) (fun _ => None) 4 4 (ik_grant limit).
Definition ik_find := find N N N.eqb (fun k => Some k).
Definition ik_remove := remove N N N.eqb 0 (fun k => Some k).
Definition ik_insert_all limit := insert_all N N N.eqb 0 (fun k => Some k) (fun _ => None) 4 4 (ik_grant limit).
Definition ik_reach limit := reach N N N.eqb 0 (fun k => Some k) (fun _ => None) 4 4 (ik_grant limit).

Lemma ik_grant_ok : forall limit i b, ik_grant limit i b = true -> b < 2 ^ 63.
Proof. intros limit i b H. unfold ik_grant in H. change (2 ^ 63) with 9223372036854775808. lia. Qed.
Lemma ik_hash_ok : forall k : N, k <> 0 -> exists h, (fun k => Some k) k = Some h.
Proof. intros k _. exists k. reflexivity. Qed.

(** 40 keys, growing 16 -> 32 -> 64, then one removed: a reachable map of 39 entries. *)
Definition ik_keys : list (N * N) := List.map (fun i => (N.of_nat i * 7 + 1, N.of_nat i)) (seq 0 40).
Example C10_demo : exists m t s m' t', ik_create 99 0 = (m, t) /\ ik_insert_all 99 m t ik_keys = Ret (Some (m', t')) /\
  ik_reach 99 m' t' s /\ map_count N N m' = 40 /\ map_capacity N N m' = 64 /\ ik_find m' 36 = Ret (Some 5) /\ s 36 = Some 5 /\
  ik_find m' 35 = Ret None /\ exists m2, ik_remove m' 36 = Ret (true, m2) /\ ik_find m2 36 = Ret None /\ map_count N N m2 = 39.
Proof.
  do 2 eexists. exists (fold_left (fun s kv => upd N N N.eqb s (fst kv) (snd kv)) ik_keys (fun _ => None)).
  do 2 eexists. split; [vm_compute; reflexivity|]. split; [vm_compute; reflexivity|].
  split.
  - eapply (insert_all_reach N N N.eqb 0 (fun k => Some k) (fun _ => None) 4 4 (ik_grant 99) N.eqb_eq ik_hash_ok ltac:(lia) ltac:(lia) (ik_grant_ok 99) ik_keys).
    + eapply (R_create _ _ _ _ _ _ _ _ _ 0%nat); [vm_compute; reflexivity|discriminate].
    + vm_compute. reflexivity.
  - split; [reflexivity|]. split; [reflexivity|]. split; [vm_compute; reflexivity|]. split; [vm_compute; reflexivity|].
    split; [vm_compute; reflexivity|]. eexists. split; [vm_compute; reflexivity|]. split; vm_compute; reflexivity.
Qed.

(** C12: 16 keys with home slot 48 and 7 keys with home slot 63 of 64. Growing to 64 slots re-inserts the latter first,
    so the former overflow their window and a nested growth is needed; when that is refused, 22 of the 23 entries are
    gone while the count still says 23. *)
Definition clash_keys : list (N * N) :=
  List.map (fun i => (48 + 4096 * N.of_nat i, N.of_nat i)) (seq 0 16) ++ List.map (fun i => (63 + 4096 * N.of_nat i, N.of_nat i)) (seq 0 7).
Theorem C12_failed_insert_loses_entries_refuted : exists m t m1 t1 m2 t2,
  ik_create 6 0 = (m, t) /\ ik_insert_all 6 m t clash_keys = Ret (Some (m1, t1)) /\
  ik_insert 6 m1 5 5 t1 = Ret (false, m2, t2) /\ ik_find m1 48 = Ret (Some 0) /\ ik_find m2 48 = Ret None /\
  length (filter (fun kv => match ik_find m2 (fst kv) with Ret None => true | _ => false end) clash_keys) = 22%nat /\
  map_count N N m2 = 23.
Proof.
  do 6 eexists. split; [vm_compute; reflexivity|]. split; [vm_compute; reflexivity|]. split; [vm_compute; reflexivity|].
  split; [vm_compute; reflexivity|]. split; [vm_compute; reflexivity|]. split; vm_compute; reflexivity.
Qed.
(** A harmless refusal: the 12th insertion must grow and may not. *)
Example C12_demo : exists m t m1 t1, ik_create 2 0 = (m, t) /\ ik_insert_all 2 m t (firstn 10 ik_keys) = Ret (Some (m1, t1)) /\
  ik_insert_all 2 m t (firstn 11 ik_keys) <> Ret None /\ ik_insert_all 2 m t (firstn 12 ik_keys) = Ret None.
Proof.
  do 4 eexists. split; [vm_compute; reflexivity|]. split; [vm_compute; reflexivity|]. split; [vm_compute; discriminate|].
  vm_compute; reflexivity.
Qed.
(** C13: a non-empty map of 16 slots. *)
Example C13_demo : exists m t m1 t1 m2, ik_create 2 0 = (m, t) /\ ik_insert_all 2 m t [(7, 1); (9, 2)] = Ret (Some (m1, t1)) /\
  map_capacity N N m1 = 16 /\ ik_remove m1 0 = Ret (true, m2) /\ map_count N N m2 = 1 /\
  ik_find m2 7 = Ret (Some 1) /\ ik_find m2 9 = Ret (Some 2).
Proof.
  do 5 eexists. split; [vm_compute; reflexivity|]. split; [vm_compute; reflexivity|]. split; [reflexivity|].
  split; [vm_compute; reflexivity|]. split; [reflexivity|]. split; vm_compute; reflexivity.
Qed.
(** C14: seventeen keys with one hash exist (a constant hash); with the same 16 keys insertion succeeds. *)
Example C14_demo : exists m t m1 t1, create N N 0 4 4 (ik_grant 99) 0 = (m, t) /\
  insert_all N N N.eqb 0 (fun _ => Some 5) (fun _ => None) 4 4 (ik_grant 99) m t (List.map (fun i => (N.of_nat i, 0)) (seq 1 16)) = Ret (Some (m1, t1)) /\
  map_count N N m1 = 16.
Proof. do 4 eexists. split; [vm_compute; reflexivity|]. split; [vm_compute; reflexivity|]. reflexivity. Qed.
(** C65: an allocator that refuses the second request. *)
Example C65_demo : exists m, ik_create 1 0 = (m, 2%nat) /\ destroy N N m = Ub.
Proof. eexists. split; vm_compute; reflexivity. Qed.
(** String keys: a null pointer is the reserved key; asking for it in a non-empty map fails an assertion. *)
Definition sk_hash (k : option (list N)) : option N := match k with Some s => tmh_string_hash (s ++ [0]) | None => None end.
Lemma sk_hash_ok : forall k : option (list N), k <> None -> exists h, sk_hash k = Some h.
Proof.
  intros [s|] H; [|congruence]. cbn [sk_hash]. unfold tmh_string_hash. generalize FNV_INIT.
  induction s as [|b s IH]; intros h; cbn [app tmh_string_hash_combine]; [eexists; reflexivity|].
  destruct (b =? 0); [eexists; reflexivity|]. apply IH. discriminate.
Qed.

Print Assumptions C10_find.
Print Assumptions C10_count.
Print Assumptions C10_insert_returns.
Print Assumptions C10_remove.
Print Assumptions C10_remove_index.
Print Assumptions C66_iteration.
Print Assumptions C11_invariant.
Print Assumptions C11_count_exact_partial.
Print Assumptions C12_first_refusal_partial.
Print Assumptions C12_sparse_partial.
Print Assumptions C12_no_wrong_value_partial.
Print Assumptions C13_insert_rejects_reserved.
Print Assumptions C13_reserved_never_stored.
Print Assumptions C13_empty_partial.
Print Assumptions C13_reserved_removed_refuted.
Print Assumptions C14_insert_terminates.
Print Assumptions C14_failure_needs_refusal.
Print Assumptions C14_sparse_succeeds_partial.
Print Assumptions C14_sixteen_keys_sparse.
Print Assumptions C14_seventeen_equal_hashes_refuted.
Print Assumptions C65_destroy_reachable.
Print Assumptions C65_destroy_failed_partial.
Print Assumptions C65_destroy_failed_refuted.
Print Assumptions C15_hash_is_fnv1a.
Print Assumptions C15_combine_chains.
Print Assumptions C15_string_hash.
Print Assumptions C12_failed_insert_loses_entries_refuted.
