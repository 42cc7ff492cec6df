(** Invariant of the hash map and the effect of every operation on it. *)
From Coq Require Import NArith List Bool Lia ZifyBool ZifyNat ZifyN Arith.
From Verif Require Import Base HashModel.
Import ListNotations.
Local Open Scope N_scope.

Lemma write_nth : forall A (l : list A) i x, (i < length l)%nat ->
  exists l', write l i x = Some l' /\ length l' = length l /\
    forall j, nth_error l' j = if Nat.eqb j i then Some x else nth_error l j.
Proof.
  induction l as [|a l IH]; intros i x H; [cbn in H; lia|].
  destruct i as [|i]; cbn [write].
  - eexists. split; [reflexivity|]. split; [reflexivity|]. intros [|j]; reflexivity.
  - cbn [length] in H. destruct (IH i x ltac:(lia)) as (l' & E & L & F). rewrite E.
    eexists. split; [reflexivity|]. split; [cbn; lia|]. intros [|j]; [reflexivity|]. apply F.
Qed.

(** ** Masks *)
Lemma pow2_ge16 : forall j, 4 <= j -> 16 <= 2 ^ j.
Proof. intros j H. change 16 with (2 ^ 4). apply N.pow_le_mono_r; lia. Qed.

Lemma mask_mod : forall h j, 2 ^ j <= 2 ^ 63 -> N.land h (sub64 (2 ^ j) 1) = h mod 2 ^ j.
Proof.
  intros h j H. assert (P : 0 < 2 ^ j) by (apply N.neq_0_lt_0, N.pow_nonzero; lia).
  change (2 ^ 63) with 9223372036854775808 in H.
  replace (sub64 (2 ^ j) 1) with (N.ones j); [apply N.land_ones|].
  rewrite N.ones_equiv. unfold sub64.
  replace (2 ^ j + W64 - 1) with ((2 ^ j - 1) + 1 * W64) by lia. rewrite N.mod_add by lia.
  rewrite N.mod_small by lia. lia.
Qed.

Lemma slot_mod : forall h i j, 2 ^ j <= 2 ^ 63 -> i < 16 -> 4 <= j ->
  N.land (w64 (N.land h (sub64 (2 ^ j) 1) + i)) (sub64 (2 ^ j) 1) = (h + i) mod 2 ^ j.
Proof.
  intros h i j H Hi Hj. assert (P : 0 < 2 ^ j) by (apply N.neq_0_lt_0, N.pow_nonzero; lia).
  rewrite !mask_mod by assumption. unfold w64.
  pose proof (N.mod_lt h (2 ^ j) ltac:(lia)).
  rewrite (N.mod_small (_ + i)).
  - rewrite N.add_mod_idemp_l by lia. reflexivity.
  - change (2 ^ 63) with 9223372036854775808 in H. lia.
Qed.

Lemma pow2_test : forall j, 2 ^ j <= 2 ^ 63 -> tmh_is_power_of_two (2 ^ j) = true.
Proof.
  intros j H. unfold tmh_is_power_of_two. rewrite mask_mod by assumption.
  rewrite N.mod_same by (apply N.pow_nonzero; lia). reflexivity.
Qed.

(** ** The recursion budget does not influence the result *)
Section Budget.
Variable K V : Type.
Variable keq : K -> K -> bool.
Variable tomb : K.
Variable hash : K -> option N.
Variable ksize vsize : N.
Variable grant : nat -> N -> bool.
Notation map := (map K V).

Lemma rehash_mono : forall (f g : map -> K -> V -> nat -> outcome (bool * map * nat)),
  (forall m k v t, f m k v t <> Fuel -> g m k v t = f m k v t) ->
  forall n i old new t, rehash K V keq tomb f n i old new t <> Fuel ->
    rehash K V keq tomb g n i old new t = rehash K V keq tomb f n i old new t.
Proof.
  intros f g Hfg n. induction n as [|n IH]; intros i old new t H; cbn [rehash] in *; [reflexivity|].
  destruct (load (keys old) i) as [k| |]; [|reflexivity|reflexivity].
  destruct (is_tomb K keq tomb k); [apply IH; exact H|].
  destruct (load (values old) i) as [[v|]| |]; try reflexivity.
  destruct (f new k v t) as [[[b new'] t']| |] eqn:Ef.
  - rewrite Hfg by congruence. rewrite Ef. destruct b; [|reflexivity].
    destruct (store (keys old) i tomb); [|reflexivity|reflexivity]. apply IH. exact H.
  - rewrite Hfg by congruence. rewrite Ef. reflexivity.
  - exfalso. apply H. reflexivity.
Qed.

Lemma grow_mono : forall f g, (forall m k v t, f m k v t <> Fuel -> g m k v t = f m k v t) ->
  forall m t, grow K V keq tomb ksize vsize grant f m t <> Fuel ->
    grow K V keq tomb ksize vsize grant g m t = grow K V keq tomb ksize vsize grant f m t.
Proof.
  intros f g Hfg m t. unfold grow. cbv zeta. destruct (negb _ || negb _); [reflexivity|].
  unfold check. destruct (_ && _); [|reflexivity].
  set (new := Map _ _ _ _). intros H.
  rewrite (rehash_mono f g Hfg); [reflexivity|]. intros E. rewrite E in H. apply H. reflexivity.
Qed.

Lemma insert_run_mono : forall n entry m k v t, insert_run K V keq tomb hash ksize vsize grant n entry m k v t <> Fuel ->
  insert_run K V keq tomb hash ksize vsize grant (S n) entry m k v t =
  insert_run K V keq tomb hash ksize vsize grant n entry m k v t.
Proof.
  induction n as [|n IH]; intros entry m k v t H; [cbn in H; congruence|].
  set (S n) as sn in |- * at 1. cbn [insert_run] in H |- *. subst sn.
  set (f := fun m' k' v' t' => insert_run K V keq tomb hash ksize vsize grant n true m' k' v' t') in *.
  set (g := fun m' k' v' t' => insert_run K V keq tomb hash ksize vsize grant (S n) true m' k' v' t').
  assert (Hfg : forall m k v t, f m k v t <> Fuel -> g m k v t = f m k v t) by (intros; apply IH; assumption).
  assert (G : forall (r : outcome (bool * map * nat)),
     (' (b, m', t') <~ grow K V keq tomb ksize vsize grant f m t ;;
        if b then insert_run K V keq tomb hash ksize vsize grant n false m' k v t' else Ret (false, m', t')) <> Fuel ->
     (' (b, m', t') <~ grow K V keq tomb ksize vsize grant g m t ;;
        if b then insert_run K V keq tomb hash ksize vsize grant (S n) false m' k v t' else Ret (false, m', t')) =
     (' (b, m', t') <~ grow K V keq tomb ksize vsize grant f m t ;;
        if b then insert_run K V keq tomb hash ksize vsize grant n false m' k v t' else Ret (false, m', t'))).
  { intros _ Hn. rewrite (grow_mono f g Hfg) by (intros E; rewrite E in Hn; apply Hn; reflexivity).
    destruct (grow _ _ _ _ _ _ _ _ _ _) as [[[b m'] t']| |]; [|reflexivity|reflexivity].
    destruct b; [|reflexivity]. apply IH. exact Hn. }
  specialize (G Fuel). destruct entry.
  - unfold check in *. destruct (asserted K V m); [|reflexivity].
    destruct (is_tomb K keq tomb k); [reflexivity|]. destruct (too_full K V m).
    + apply G. exact H.
    + apply IH. exact H.
  - destruct (hash k) as [h|]; [|reflexivity]. unfold check in *. cbv zeta in *. destruct (_ <? _); [|reflexivity].
    destruct (probe _ _ _ _ _ _ _ _ _ _ _) as [[[fd ex] s]| |]; [|reflexivity|reflexivity].
    destruct fd; [reflexivity|]. apply G. exact H.
Qed.

Lemma insert_run_more : forall d n entry m k v t, insert_run K V keq tomb hash ksize vsize grant n entry m k v t <> Fuel ->
  insert_run K V keq tomb hash ksize vsize grant (d + n) entry m k v t =
  insert_run K V keq tomb hash ksize vsize grant n entry m k v t.
Proof.
  induction d as [|d IH]; intros n entry m k v t H; [reflexivity|].
  cbn [plus]. rewrite insert_run_mono; rewrite IH by exact H; [reflexivity|exact H].
Qed.
End Budget.

Section Proofs.
Variable K V : Type.
Variable keq : K -> K -> bool.
Variable tomb : K.
Variable hash : K -> option N.
Variable copy_bytes : K -> option N.
Variable ksize vsize : N.
Variable grant : nat -> N -> bool.
Hypothesis keq_ok : forall a b, keq a b = true <-> a = b.
Hypothesis hash_ok : forall k, k <> tomb -> exists h, hash k = Some h.
Hypothesis ksize_ok : 1 <= ksize.
Hypothesis vsize_ok : 1 <= vsize.
(** No allocator grants 2^63 bytes or more (PTRDIFF_MAX). *)
Hypothesis grant_ok : forall i b, grant i b = true -> b < 2 ^ 63.

Notation map := (map K V).
Notation is_tomb := (is_tomb K keq tomb).

Definition occ (ks : list K) : N := N.of_nat (length (filter (fun k => negb (is_tomb k)) ks)).

(** [k] is stored in a slot with value [v]. *)
Definition stored (ks : list K) (vs : list (option V)) (k : K) (v : V) : Prop :=
  exists i, nth_error ks i = Some k /\ nth_error vs i = Some (Some v).

Definition near (cap : N) (i : nat) (k : K) : Prop :=
  exists h d, hash k = Some h /\ d < 16 /\ N.of_nat i = (h + d) mod cap.

Record wf (m : map) (ks : list K) (vs : list (option V)) : Prop := Wf {
  wf_keys : keys m = Mem ks;
  wf_vals : values m = Mem vs;
  wf_len : N.of_nat (length ks) = capacity m;
  wf_vlen : length vs = length ks;
  wf_pow : exists j, 4 <= j /\ capacity m = 2 ^ j;
  wf_kbytes : capacity m * ksize < 2 ^ 63;
  wf_vbytes : capacity m * vsize < 2 ^ 63;
  wf_uniq : forall i j k, k <> tomb -> nth_error ks i = Some k -> nth_error ks j = Some k -> i = j;
  wf_near : forall i k, k <> tomb -> nth_error ks i = Some k -> near (capacity m) i k;
  wf_init : forall i k, k <> tomb -> nth_error ks i = Some k -> exists v, nth_error vs i = Some (Some v);
  wf_count : occ ks <= count m;
  wf_load : 4 * count m < 3 * capacity m }.

Lemma tomb_iff : forall k, is_tomb k = true <-> k = tomb.
Proof using All. intros k. apply keq_ok. Qed.
Lemma tomb_not : forall k, is_tomb k = false <-> k <> tomb.
Proof using All. intros k. rewrite <- tomb_iff. destruct (is_tomb k); split; congruence. Qed.
Lemma keq_not : forall a b, keq a b = false <-> a <> b.
Proof using All. intros a b. rewrite <- keq_ok. destruct (keq a b); split; congruence. Qed.
Lemma keq_refl : forall a, keq a a = true.
Proof using All. intros a. apply keq_ok. reflexivity. Qed.

Lemma cap_le : forall m ks vs, wf m ks vs -> 16 <= capacity m /\ capacity m < 2 ^ 63.
Proof using All.
  intros m ks vs W. destruct (wf_pow _ _ _ W) as (j & Hj & E). split; [rewrite E; apply pow2_ge16; assumption|].
  pose proof (wf_kbytes _ _ _ W). nia.
Qed.

Lemma occ_le : forall ks, occ ks <= N.of_nat (length ks).
Proof using All.
  intros ks. unfold occ. induction ks as [|k ks IH]; cbn [filter length]; [lia|].
  destruct (negb (is_tomb k)); cbn [length]; lia.
Qed.

Lemma occ_cons : forall k ks, occ (k :: ks) = (if is_tomb k then 0 else 1) + occ ks.
Proof using All. intros k ks. unfold occ. cbn [filter]. destruct (is_tomb k); cbn [negb length]; lia. Qed.

Lemma occ_write : forall ks i k ks' old, write ks i k = Some ks' -> nth_error ks i = Some old ->
  occ ks' + (if is_tomb old then 0 else 1) = occ ks + (if is_tomb k then 0 else 1).
Proof using All.
  induction ks as [|a ks IH]; intros i k ks' old E N; [destruct i; discriminate|].
  destruct i as [|i]; cbn [write nth_error] in *.
  - injection E as <-. injection N as ->. rewrite !occ_cons. lia.
  - destruct (write ks i k) as [t'|] eqn:Ew; [|discriminate]. injection E as <-.
    specialize (IH _ _ _ _ Ew N). rewrite !occ_cons. lia.
Qed.

Lemma wf_asserted : forall m ks vs, wf m ks vs -> asserted K V m = true.
Proof using All.
  intros m ks vs W. unfold asserted. rewrite (wf_keys _ _ _ W), (wf_vals _ _ _ W).
  destruct (cap_le _ _ _ W) as [C1 C2]. pose proof (wf_load _ _ _ W).
  destruct (wf_pow _ _ _ W) as (j & Hj & E).
  assert (P : tmh_is_power_of_two (capacity m) = true) by (rewrite E; apply pow2_test; rewrite <- E; lia).
  rewrite P. cbn [non_null andb]. rewrite andb_true_r. lia.
Qed.

Lemma stored_key : forall m ks vs k v v', wf m ks vs -> k <> tomb -> stored ks vs k v -> stored ks vs k v' -> v = v'.
Proof using All.
  intros m ks vs k v v' W T (i & A & B) (j & C & D).
  assert (i = j) as -> by (apply (wf_uniq _ _ _ W i j k T); assumption). congruence.
Qed.

(** ** The probe window *)
Definition slot (cap h : N) (d : N) : nat := N.to_nat ((h + d) mod cap).

Lemma slot_lt : forall m ks vs h d, wf m ks vs -> (slot (capacity m) h d < length ks)%nat.
Proof using All.
  intros m ks vs h d W. unfold slot. pose proof (wf_len _ _ _ W). destruct (cap_le _ _ _ W).
  pose proof (N.mod_lt (h + d) (capacity m) ltac:(lia)). lia.
Qed.

Lemma load_slot : forall m ks vs h d, wf m ks vs -> d < 16 ->
  let mask := sub64 (capacity m) 1 in
  exists c, nth_error ks (slot (capacity m) h d) = Some c /\
    load (keys m) (N.land (w64 (N.land h mask + d)) mask) = Ret c /\
    N.land (w64 (N.land h mask + d)) mask = (h + d) mod capacity m.
Proof using All.
  intros m ks vs h d W Hd mask. destruct (wf_pow _ _ _ W) as (j & Hj & E). destruct (cap_le _ _ _ W) as [C1 C2].
  assert (S : N.land (w64 (N.land h mask + d)) mask = (h + d) mod capacity m).
  { unfold mask. rewrite E. apply slot_mod; [rewrite <- E; lia|assumption|assumption]. }
  pose proof (slot_lt _ _ _ h d W) as L.
  destruct (nth_error ks (slot (capacity m) h d)) as [c|] eqn:En; [|apply nth_error_None in En; lia].
  exists c. split; [reflexivity|]. split; [|exact S]. rewrite S, (wf_keys _ _ _ W). cbn [load].
  fold (slot (capacity m) h d). rewrite En. reflexivity.
Qed.

(** Result of searching offsets [i, i+n). *)
Lemma scan_ok : forall m ks vs k h n i, wf m ks vs -> i + N.of_nat n = 16 ->
  let mask := sub64 (capacity m) 1 in
  match scan K keq (keys m) mask (N.land h mask) k n i with
  | Ret (Some s) => s < capacity m /\ nth_error ks (N.to_nat s) = Some k
  | Ret None => forall d, i <= d < 16 -> nth_error ks (slot (capacity m) h d) <> Some k
  | _ => False
  end.
Proof using All.
  intros m ks vs k h n. induction n as [|n IH]; intros i W Hi mask; cbn [scan].
  - intros d Hd. lia.
  - destruct (load_slot m ks vs h i W ltac:(lia)) as (c & A & B & C). fold mask in B, C.
    cbv zeta. rewrite B. destruct (keq c k) eqn:Ek.
    + apply keq_ok in Ek. subst c. rewrite C. split; [apply N.mod_lt; destruct (cap_le _ _ _ W); lia|exact A].
    + specialize (IH (i + 1) W ltac:(lia)). cbv zeta in IH. fold mask in IH.
      destruct (scan _ _ _ _ _ _ _ _) as [[s|]| |]; try exact IH.
      intros d Hd. destruct (N.eq_dec d i) as [->|Ne]; [|apply IH; lia].
      rewrite A. intros X. injection X as ->. apply keq_not in Ek. congruence.
Qed.

Lemma probe_ok : forall m ks vs k h n i found s, wf m ks vs -> k <> tomb -> i + N.of_nat n = 16 ->
  (found = true -> exists d, d < 16 /\ s = (h + d) mod capacity m /\ nth_error ks (N.to_nat s) = Some tomb) ->
  let mask := sub64 (capacity m) 1 in
  match probe K keq tomb (keys m) mask (N.land h mask) k n i found s with
  | Ret (true, true, s') => exists d, d < 16 /\ s' = (h + d) mod capacity m /\ nth_error ks (N.to_nat s') = Some k
  | Ret (true, false, s') => (exists d, d < 16 /\ s' = (h + d) mod capacity m /\ nth_error ks (N.to_nat s') = Some tomb) /\
      forall d, i <= d < 16 -> nth_error ks (slot (capacity m) h d) <> Some k
  | Ret (false, false, _) => found = false /\
      (forall d, i <= d < 16 -> nth_error ks (slot (capacity m) h d) <> Some k /\
                                nth_error ks (slot (capacity m) h d) <> Some tomb)
  | Ret (false, true, _) => False
  | _ => False
  end.
Proof using All.
  intros m ks vs k h n. induction n as [|n IH]; intros i found s W T Hi Hf mask; cbn [probe].
  - destruct found.
    + split; [apply Hf; reflexivity|]. intros d Hd. lia.
    + split; [reflexivity|]. intros d Hd. lia.
  - destruct (load_slot m ks vs h i W ltac:(lia)) as (c & A & B & C). fold mask in B, C.
    cbv zeta. rewrite B. destruct (negb found && is_tomb c) eqn:Et.
    + apply andb_true_iff in Et. destruct Et as [Ef Et]. apply tomb_iff in Et. subst c.
      rewrite C.
      assert (Hf' : true = true -> exists d, d < 16 /\ (h + i) mod capacity m = (h + d) mod capacity m /\
                nth_error ks (N.to_nat ((h + i) mod capacity m)) = Some tomb).
      { intros _. exists i. split; [lia|]. split; [reflexivity|]. exact A. }
      specialize (IH (i + 1) true _ W T ltac:(lia) Hf'). cbv zeta in IH. fold mask in IH.
      destruct (probe _ _ _ _ _ _ _ _ _ _ _) as [[[[] []] s']| |]; try exact IH.
      * destruct IH as [IH1 IH2]. split; [exact IH1|]. intros d Hd.
        destruct (N.eq_dec d i) as [->|Ne]; [|apply IH2; lia]. rewrite A. intros X. injection X as X. congruence.
      * destruct IH as [X _]. discriminate.
    + destruct (keq c k) eqn:Ek.
      * apply keq_ok in Ek. subst c. exists i. rewrite C. split; [lia|]. split; [reflexivity|]. exact A.
      * specialize (IH (i + 1) found s W T ltac:(lia) Hf). cbv zeta in IH. fold mask in IH.
        apply keq_not in Ek.
        destruct (probe _ _ _ _ _ _ _ _ _ _ _) as [[[[] []] s']| |]; try exact IH.
        -- destruct IH as [IH1 IH2]. split; [exact IH1|]. intros d Hd.
           destruct (N.eq_dec d i) as [->|Ne]; [|apply IH2; lia]. rewrite A. intros X. injection X as X. congruence.
        -- destruct IH as [-> IH2]. split; [reflexivity|]. intros d Hd.
           destruct (N.eq_dec d i) as [->|Ne]; [|apply IH2; lia]. rewrite A. cbn [negb andb] in Et.
           apply tomb_not in Et. split; congruence.
Qed.

(** A key is found through its window or nowhere. *)
Lemma window_complete : forall m ks vs k h, wf m ks vs -> k <> tomb -> hash k = Some h ->
  (forall d, 0 <= d < 16 -> nth_error ks (slot (capacity m) h d) <> Some k) -> ~ In k ks.
Proof using All.
  intros m ks vs k h W T Hh Hd I. apply In_nth_error in I. destruct I as (i & E).
  destruct (wf_near _ _ _ W i k T E) as (h' & d & Hh' & D & Ei). rewrite Hh in Hh'. injection Hh' as <-.
  apply (Hd d ltac:(lia)). unfold slot. rewrite <- Ei, Nnat.Nat2N.id. exact E.
Qed.

Lemma stored_in : forall ks vs k v, stored ks vs k v -> In k ks.
Proof using All. intros ks vs k v (i & A & B). apply nth_error_In in A. exact A. Qed.

Lemma in_stored : forall m ks vs k, wf m ks vs -> k <> tomb -> In k ks -> exists v, stored ks vs k v.
Proof using All.
  intros m ks vs k W T I. apply In_nth_error in I. destruct I as (i & E).
  destruct (wf_init _ _ _ W i k T E) as (v & Ev). exists v, i. split; assumption.
Qed.

(** ** Writing a pair *)
Lemma put_ok : forall m ks vs k v h d s (existing : bool), wf m ks vs -> k <> tomb -> hash k = Some h -> d < 16 ->
  s = (h + d) mod capacity m -> 4 * (count m + 1) < 3 * capacity m ->
  nth_error ks (N.to_nat s) = Some (if existing then k else tomb) ->
  (existing = false -> ~ In k ks) ->
  exists m' ks' vs', put K V m s existing k v = Ret m' /\ wf m' ks' vs' /\
    (forall k' v', k' <> tomb -> stored ks' vs' k' v' <-> (k' = k /\ v' = v) \/ (k' <> k /\ stored ks vs k' v')) /\
    count m' = (if existing then count m else count m + 1) /\ capacity m' = capacity m /\
    (occ ks = count m -> occ ks' = count m').
Proof using All.
  intros m ks vs k v h d s existing W T Hh Hd Es Hl Hs Hn.
  destruct (cap_le _ _ _ W) as [C1 C2].
  assert (Ls : (N.to_nat s < length ks)%nat) by (apply nth_error_Some; congruence).
  destruct (write_nth _ ks (N.to_nat s) k Ls) as (ks' & Ek & Lk & Fk).
  destruct (write_nth _ vs (N.to_nat s) (Some v)) as (vs' & Ev & Lv & Fv); [rewrite (wf_vlen _ _ _ W); exact Ls|].
  unfold put. rewrite (wf_keys _ _ _ W), (wf_vals _ _ _ W). cbn [store]. rewrite Ek, Ev.
  assert (Ew : w64 (count m + 1) = count m + 1).
  { unfold w64. apply N.mod_small. change (2 ^ 63) with 9223372036854775808 in C2. lia. }
  pose proof (occ_write _ _ _ _ _ Ek Hs) as Ho.
  assert (Tk : is_tomb k = false) by (apply tomb_not; exact T). rewrite Tk in Ho.
  (* another slot never holds k *)
  assert (Hk : forall i, nth_error ks i = Some k -> i = N.to_nat s).
  { intros i Ei. destruct existing.
    - apply (wf_uniq _ _ _ W i (N.to_nat s) k T); assumption.
    - exfalso. apply (Hn eq_refl). apply nth_error_In in Ei. exact Ei. }
  eexists. exists ks', vs'. split; [reflexivity|].
  split; [constructor; cbn [keys values count capacity]|split; [|split; [|split]]].
  - reflexivity.
  - reflexivity.
  - rewrite Lk. apply (wf_len _ _ _ W).
  - rewrite Lv, Lk. apply (wf_vlen _ _ _ W).
  - apply (wf_pow _ _ _ W).
  - apply (wf_kbytes _ _ _ W).
  - apply (wf_vbytes _ _ _ W).
  - intros i j k1 T1. rewrite !Fk. destruct (Nat.eqb_spec i (N.to_nat s)), (Nat.eqb_spec j (N.to_nat s)); intros A B.
    + congruence.
    + injection A as <-. apply Hk in B. congruence.
    + injection B as <-. apply Hk in A. congruence.
    + apply (wf_uniq _ _ _ W i j k1 T1); assumption.
  - intros i k1 T1. rewrite Fk. destruct (Nat.eqb_spec i (N.to_nat s)) as [->|Ne]; intros A.
    + injection A as <-. exists h, d. split; [exact Hh|]. split; [exact Hd|]. rewrite N2Nat.id. exact Es.
    + apply (wf_near _ _ _ W i k1 T1 A).
  - intros i k1 T1. rewrite Fk, Fv. destruct (Nat.eqb_spec i (N.to_nat s)) as [->|Ne]; intros A.
    + exists v. reflexivity.
    + apply (wf_init _ _ _ W i k1 T1 A).
  - pose proof (wf_count _ _ _ W). destruct existing; [rewrite Tk in Ho|rewrite (proj2 (tomb_iff tomb) eq_refl) in Ho];
      try rewrite Ew; lia.
  - pose proof (wf_load _ _ _ W). destruct existing; try rewrite Ew; lia.
  - intros k' v' T'. split.
    + intros (i & A & B). rewrite Fk in A. rewrite Fv in B.
      destruct (Nat.eqb_spec i (N.to_nat s)) as [Q|Ne].
      * left. split; congruence.
      * right. split; [|exists i; split; assumption]. intros ->. apply Hk in A. congruence.
    + intros [[-> ->]|[Nk (i & A & B)]].
      * exists (N.to_nat s). rewrite Fk, Fv, Nat.eqb_refl. split; reflexivity.
      * exists i. rewrite Fk, Fv. destruct (Nat.eqb_spec i (N.to_nat s)) as [->|Ne]; [|split; assumption].
        exfalso. rewrite A in Hs. destruct existing; congruence.
  - cbn [count]. destruct existing; [reflexivity|exact Ew].
  - reflexivity.
  - intros Hx. cbn [count]. destruct existing; [rewrite Tk in Ho|rewrite (proj2 (tomb_iff tomb) eq_refl) in Ho];
      try rewrite Ew; lia.
Qed.

(** ** Erasing a slot; [c] is the new value of the counter. *)
Lemma wf_erase : forall m ks vs i k c, wf m ks vs -> nth_error ks i = Some k -> k <> tomb ->
  c <= count m -> occ ks - 1 <= c ->
  exists ks', write ks i tomb = Some ks' /\ wf (Map (Mem ks') (values m) c (capacity m)) ks' vs /\
    (forall j, nth_error ks' j = if Nat.eqb j i then Some tomb else nth_error ks j) /\
    (forall k' v', k' <> tomb -> stored ks' vs k' v' <-> k' <> k /\ stored ks vs k' v') /\ occ ks = occ ks' + 1.
Proof using All.
  intros m ks vs i k c W Ei T Hc Ho.
  destruct (write_nth _ ks i tomb) as (ks' & Ew & Lw & Fw); [apply nth_error_Some; congruence|].
  pose proof (occ_write _ _ _ _ _ Ew Ei) as Hw. rewrite (proj2 (tomb_iff tomb) eq_refl) in Hw.
  rewrite (proj2 (tomb_not k) T) in Hw.
  exists ks'. split; [exact Ew|]. split; [constructor; cbn [keys values count capacity]|split; [|split]].
  - reflexivity.
  - apply (wf_vals _ _ _ W).
  - rewrite Lw. apply (wf_len _ _ _ W).
  - rewrite Lw. apply (wf_vlen _ _ _ W).
  - apply (wf_pow _ _ _ W).
  - apply (wf_kbytes _ _ _ W).
  - apply (wf_vbytes _ _ _ W).
  - intros a b k1 T1. rewrite !Fw. destruct (Nat.eqb_spec a i), (Nat.eqb_spec b i); intros A B; try congruence.
    apply (wf_uniq _ _ _ W a b k1 T1 A B).
  - intros a k1 T1. rewrite Fw. destruct (Nat.eqb_spec a i); intros A; [congruence|]. apply (wf_near _ _ _ W a k1 T1 A).
  - intros a k1 T1. rewrite Fw. destruct (Nat.eqb_spec a i); intros A; [congruence|]. apply (wf_init _ _ _ W a k1 T1 A).
  - lia.
  - pose proof (wf_load _ _ _ W). lia.
  - exact Fw.
  - intros k' v' T'. split.
    + intros (a & A & B). rewrite Fw in A. destruct (Nat.eqb_spec a i); [congruence|].
      split; [|exists a; split; assumption]. intros ->. apply n. apply (wf_uniq _ _ _ W a i k T A Ei).
    + intros [Nk (a & A & B)]. exists a. rewrite Fw. destruct (Nat.eqb_spec a i); [congruence|]. split; assumption.
  - lia.
Qed.

Lemma destroy_ok : forall m ks vs, wf m ks vs -> destroy K V m = Ret (Map Null Null 0 0).
Proof using All.
  intros m ks vs W. unfold destroy. rewrite (wf_keys _ _ _ W), (wf_vals _ _ _ W). cbn [free non_null andb].
  rewrite (wf_vlen _ _ _ W). rewrite (wf_len _ _ _ W). rewrite N.leb_refl. cbn [andb]. rewrite orb_true_r. reflexivity.
Qed.

(** ** Insertion *)
Definition refused (t t' : nat) : Prop := exists i b, (t <= i < t')%nat /\ grant i b = false.

Lemma refused_mono : forall a b c d, (a <= b)%nat -> (c <= d)%nat -> refused b c -> refused a d.
Proof using All. intros a b c d H1 H2 (i & x & H3 & H4). exists i, x. split; [lia|exact H4]. Qed.

(** The effect of a successful / failed insertion; [lack] says when the recursion budget may run out. *)
Definition ins_post (lack : Prop) (m : map) (ks : list K) (vs : list (option V)) (k : K) (v : V) (t : nat)
    (r : outcome (bool * map * nat)) : Prop :=
  match r with
  | Ub => False
  | Fuel => lack
  | Ret (true, m', t') => (t <= t')%nat /\ exists ks' vs', wf m' ks' vs' /\
      (forall k' v', k' <> tomb -> stored ks' vs' k' v' <-> (k' = k /\ v' = v) \/ (k' <> k /\ stored ks vs k' v')) /\
      count m' <= count m + 1 /\ capacity m <= capacity m' /\ (occ ks = count m -> occ ks' = count m')
  | Ret (false, m', t') => (t <= t')%nat /\ exists ks' vs', wf m' ks' vs' /\
      (forall k' v', k' <> tomb -> stored ks' vs' k' v' -> stored ks vs k' v') /\ refused t t' /\
      capacity m <= capacity m' /\ count m' <= count m
  end.

Lemma skipn_nth : forall A (l : list A) i x, nth_error l i = Some x -> skipn i l = x :: skipn (S i) l.
Proof using All.
  intros A l. induction l as [|a l IH]; intros i x H; destruct i; cbn in *; try discriminate.
  - injection H as ->. reflexivity.
  - apply IH. exact H.
Qed.

Lemma rehash_ok : forall lack ins n i old ks vs new ksn vsn t,
  (forall m1 ks1 vs1 k v t, wf m1 ks1 vs1 -> capacity new <= capacity m1 -> k <> tomb ->
     ins_post lack m1 ks1 vs1 k v t (ins m1 k v t)) ->
  wf old ks vs -> wf new ksn vsn -> N.of_nat i + N.of_nat n = capacity old ->
  (forall j k, (i <= j)%nat -> nth_error ks j = Some k -> k <> tomb -> ~ In k ksn) ->
  occ ksn = count new ->
  match rehash K V keq tomb ins n (N.of_nat i) old new t with
  | Ub => False
  | Fuel => lack
  | Ret (true, old', new', t') => (t <= t')%nat /\ (exists kso', wf old' kso' vs) /\
      exists ks' vs', wf new' ks' vs' /\
      (forall k v, k <> tomb -> stored ks' vs' k v <->
         stored ksn vsn k v \/ (exists j, (i <= j)%nat /\ nth_error ks j = Some k /\ nth_error vs j = Some (Some v))) /\
      count new' <= count new + occ (skipn i ks) /\ capacity new <= capacity new' /\ occ ks' = count new'
  | Ret (false, old', new', t') => (t <= t')%nat /\ (exists ks' vs', wf new' ks' vs') /\ refused t t' /\
      exists ks' vs', wf old' ks' vs' /\ (forall k v, k <> tomb -> stored ks' vs' k v -> stored ks vs k v) /\
      capacity old' = capacity old /\ count old' = count old
  end.
Proof using All.
  intros lack ins n. induction n as [|n IH]; intros i old ks vs new ksn vsn t Hins Wo Wn Hi Hd Hx; cbn [rehash].
  - split; [lia|]. split; [exists ks; exact Wo|]. exists ksn, vsn. split; [exact Wn|]. split; [|split; [lia|split; [lia|exact Hx]]].
    intros k v T. split; [intros S; left; exact S|]. intros [S|(j & Hj & A & B)]; [exact S|].
    exfalso. assert (j < length ks)%nat by (apply nth_error_Some; congruence). pose proof (wf_len _ _ _ Wo). lia.
  - pose proof (wf_len _ _ _ Wo) as Lo.
    destruct (nth_error ks i) as [k|] eqn:Ei; [|apply nth_error_None in Ei; lia].
    rewrite (wf_keys _ _ _ Wo). cbn [load]. rewrite Nnat.Nat2N.id, Ei.
    replace (N.of_nat i + 1) with (N.of_nat (S i)) by lia.
    pose proof (skipn_nth _ _ _ _ Ei) as Hsk.
    destruct (is_tomb k) eqn:Et.
    + apply tomb_iff in Et. subst k.
      specialize (IH (S i) old ks vs new ksn vsn t Hins Wo Wn ltac:(lia) ltac:(intros j k Hj; apply Hd; lia) Hx).
      destruct (rehash _ _ _ _ _ _ _ _ _ _) as [[[[[] old'] new'] t']| |]; try exact IH.
      destruct IH as (Ht & Wo' & ks' & vs' & Wn' & S' & C' & Cp' & X'). split; [exact Ht|]. split; [exact Wo'|].
      exists ks', vs'. split; [exact Wn'|]. split; [|split; [|split; [exact Cp'|exact X']]].
      * intros k v T. rewrite (S' k v T). split; (intros [A|(j & Hj & A & B)]; [left; exact A|]).
        -- right. exists j. split; [lia|]. split; assumption.
        -- right. exists j. split; [|split; assumption]. destruct (Nat.eq_dec j i) as [->|]; [congruence|lia].
      * rewrite Hsk, occ_cons. lia.
    + apply tomb_not in Et. rename Et into T.
      destruct (wf_init _ _ _ Wo i k T Ei) as (v & Ev). rewrite (wf_vals _ _ _ Wo). cbn [load].
      rewrite Nnat.Nat2N.id, Ev.
      pose proof (Hins new ksn vsn k v t Wn ltac:(lia) T) as Hp. unfold ins_post in Hp.
      destruct (ins new k v t) as [[[[] new1] t1]| |]; [| |exact Hp|exact Hp].
      * destruct Hp as (Ht1 & ks1 & vs1 & W1 & S1 & C1 & Cp1 & X1).
        destruct (wf_erase old ks vs i k (count old) Wo Ei T ltac:(lia)) as (kso' & Ew & Wo' & Fo & So & Oo).
        { pose proof (wf_count _ _ _ Wo). lia. }
        cbn [store]. rewrite Nnat.Nat2N.id, Ew. rewrite (wf_vals _ _ _ Wo) in Wo'.
        assert (Hd' : forall j k0, (S i <= j)%nat -> nth_error kso' j = Some k0 -> k0 <> tomb -> ~ In k0 ks1).
        { intros j k0 Hj Ej T0 I. rewrite Fo in Ej. destruct (Nat.eqb_spec j i); [lia|].
          destruct (in_stored _ _ _ k0 W1 T0 I) as (v0 & Sv). apply (S1 k0 v0 T0) in Sv.
          destruct Sv as [[-> ->]|[Nk Sv]].
          - apply n0. apply (wf_uniq _ _ _ Wo j i k T Ej Ei).
          - apply (Hd j k0 ltac:(lia) Ej T0). apply stored_in in Sv. exact Sv. }
        specialize (IH (S i) _ kso' vs new1 ks1 vs1 t1
          ltac:(intros m1 ka va ka2 va2 ta Wa Ca; apply Hins; [exact Wa|lia]) Wo' W1 ltac:(cbn [capacity]; lia) Hd' (X1 Hx)).
        destruct (rehash _ _ _ _ _ _ _ _ _ _) as [[[[[] old'] new'] t']| |]; try exact IH.
        -- destruct IH as (Ht & Wo2 & ks' & vs' & Wn' & S' & C' & Cp' & X'). split; [lia|]. split; [exact Wo2|].
           exists ks', vs'. split; [exact Wn'|]. split; [|split; [|split; [lia|exact X']]].
           ++ intros k0 v0 T0. rewrite (S' k0 v0 T0), (S1 k0 v0 T0). split.
              ** intros [[[-> ->]|[Nk Sv]]|(j & Hj & A & B)].
                 --- right. exists i. split; [lia|]. split; assumption.
                 --- left. exact Sv.
                 --- right. exists j. rewrite Fo in A. destruct (Nat.eqb_spec j i); [lia|]. split; [lia|]. split; assumption.
              ** intros [Sv|(j & Hj & A & B)].
                 --- left. right. split; [|exact Sv]. intros ->.
                     apply (Hd i k ltac:(lia) Ei T). apply stored_in in Sv. exact Sv.
                 --- destruct (Nat.eq_dec j i) as [->|Nj].
                     +++ left. left. split; congruence.
                     +++ right. exists j. rewrite Fo. destruct (Nat.eqb_spec j i); [lia|]. split; [lia|]. split; assumption.
           ++ rewrite Hsk, occ_cons. rewrite (proj2 (tomb_not k) T).
              assert (skipn (S i) kso' = skipn (S i) ks) as <-; [|lia].
              clear - Fo Ew. revert ks kso' Fo Ew. induction i as [|i IH]; intros ks kso' Fo Ew; destruct ks as [|a ks]; cbn in Ew; try discriminate.
              ** injection Ew as <-. reflexivity.
              ** destruct (write ks i tomb) as [kt|] eqn:E; [|discriminate]. injection Ew as <-.
                 change (skipn (S i) kt = skipn (S i) ks). apply IH; [|exact E].
                 intros j. specialize (Fo (S j)). cbn in Fo. exact Fo.
        -- destruct IH as (Ht & Wn2 & R & ks' & vs' & Wo2 & S' & Cp' & Cc').
           split; [lia|]. split; [exact Wn2|]. split; [apply (refused_mono _ _ _ _ Ht1 (Nat.le_refl _) R)|].
           exists ks', vs'. split; [exact Wo2|]. split; [|split; [exact Cp'|exact Cc']].
           intros k0 v0 T0 Sv. apply (S' k0 v0 T0) in Sv. apply (So k0 v0 T0) in Sv. apply Sv.
      * destruct Hp as (Ht1 & ks1 & vs1 & W1 & S1 & R1 & _). split; [exact Ht1|]. split; [exists ks1, vs1; exact W1|].
        split; [exact R1|]. exists ks, vs. split; [exact Wo|]. split; [intros; assumption|]. split; reflexivity.
Qed.

Lemma nth_repeat : forall A (x : A) n i y, nth_error (repeat x n) i = Some y -> y = x.
Proof using All. intros A x n i y H. apply nth_error_In in H. apply repeat_spec in H. exact H. Qed.

Lemma occ_repeat : forall n, occ (repeat tomb n) = 0.
Proof using All.
  induction n as [|n IH]; [reflexivity|]. cbn [repeat]. rewrite occ_cons, IH, (proj2 (tomb_iff tomb) eq_refl). reflexivity.
Qed.

Lemma wf_empty : forall cap, (exists j, 4 <= j /\ cap = 2 ^ j) -> cap * ksize < 2 ^ 63 -> cap * vsize < 2 ^ 63 ->
  wf (Map (Mem (repeat tomb (N.to_nat cap))) (Mem (repeat None (N.to_nat cap))) 0 cap)
     (repeat tomb (N.to_nat cap)) (repeat None (N.to_nat cap)).
Proof using All.
  intros cap P B1 B2. assert (16 <= cap) by (destruct P as (j & Hj & ->); apply pow2_ge16; exact Hj).
  constructor; cbn [keys values count capacity]; try reflexivity; try assumption.
  - rewrite repeat_length. lia.
  - rewrite !repeat_length. reflexivity.
  - intros i j k T A. apply nth_repeat in A. congruence.
  - intros i k T A. apply nth_repeat in A. congruence.
  - intros i k T A. apply nth_repeat in A. congruence.
  - rewrite occ_repeat. lia.
  - lia.
Qed.

Definition grow_post (lack : Prop) (m : map) ks vs (t : nat) (r : outcome (bool * map * nat)) : Prop :=
  match r with
  | Ub => False
  | Fuel => lack
  | Ret (true, m', t') => (t <= t')%nat /\ exists ks' vs', wf m' ks' vs' /\ capacity m * 2 <= capacity m' /\
      (forall k v, k <> tomb -> stored ks' vs' k v <-> stored ks vs k v) /\ count m' <= occ ks /\ occ ks' = count m'
  | Ret (false, m', t') => (t <= t')%nat /\ exists ks' vs', wf m' ks' vs' /\
      (forall k v, k <> tomb -> stored ks' vs' k v -> stored ks vs k v) /\ refused t t' /\
      capacity m' = capacity m /\ count m' = count m
  end.

Lemma grow_ok : forall (lack : Prop) ins m ks vs t,
  (capacity m * 2 * ksize < 2 ^ 63 -> forall m1 ks1 vs1 k v t, wf m1 ks1 vs1 -> capacity m * 2 <= capacity m1 -> k <> tomb ->
     ins_post lack m1 ks1 vs1 k v t (ins m1 k v t)) ->
  wf m ks vs -> grow_post lack m ks vs t (grow K V keq tomb ksize vsize grant ins m t).
Proof using All.
  intros lack ins m ks vs t Hins W. destruct (cap_le _ _ _ W) as [C1 C2].
  change (2 ^ 63) with 9223372036854775808 in C2. unfold grow.
  assert (E2 : w64 (capacity m * 2) = capacity m * 2) by (unfold w64; apply N.mod_small; lia).
  rewrite E2. cbv zeta.
  pose proof (wf_kbytes _ _ _ W) as Kb. pose proof (wf_vbytes _ _ _ W) as Vb.
  change (2 ^ 63) with 9223372036854775808 in Kb, Vb.
  assert (Ek : w64 (capacity m * 2 * ksize) = capacity m * 2 * ksize) by (unfold w64; apply N.mod_small; nia).
  assert (Ev : w64 (capacity m * 2 * vsize) = capacity m * 2 * vsize) by (unfold w64; apply N.mod_small; nia).
  rewrite Ek, Ev.
  destruct (grant t _) eqn:G1; cbn [negb orb].
  2:{ split; [lia|]. exists ks, vs. split; [exact W|]. split; [intros; assumption|].
      split; [exists t, (capacity m * 2 * ksize); split; [lia|exact G1]|]. split; reflexivity. }
  destruct (grant (S t) _) eqn:G2; cbn [negb orb].
  2:{ split; [lia|]. exists ks, vs. split; [exact W|]. split; [intros; assumption|].
      split; [exists (S t), (capacity m * 2 * vsize); split; [lia|exact G2]|]. split; reflexivity. }
  apply grant_ok in G1. apply grant_ok in G2. specialize (Hins G1).
  unfold check. change (2 ^ 63) with 9223372036854775808 in G1, G2.
  destruct ((capacity m * 2 * ksize <? _) && _) eqn:Ew; [|lia]. clear Ew.
  set (new := Map (Mem (repeat tomb _)) (Mem (repeat None _)) 0 (capacity m * 2)).
  assert (Wn : wf new (repeat tomb (N.to_nat (capacity m * 2))) (repeat None (N.to_nat (capacity m * 2)))).
  { apply wf_empty; [|exact G1|exact G2]. destruct (wf_pow _ _ _ W) as (j & Hj & E). exists (j + 1). split; [lia|].
    rewrite E, N.pow_add_r. reflexivity. }
  assert (Hd : forall j k, (0 <= j)%nat -> nth_error ks j = Some k -> k <> tomb ->
            ~ In k (repeat tomb (N.to_nat (capacity m * 2)))).
  { intros j k _ _ T I. apply repeat_spec in I. congruence. }
  pose proof (rehash_ok lack ins (N.to_nat (capacity m)) 0 m ks vs new _ _ (S (S t)) Hins W Wn ltac:(lia) Hd
                ltac:(rewrite occ_repeat; reflexivity)) as R. change (N.of_nat 0) with 0 in R.
  destruct (rehash _ _ _ _ _ _ _ _ _ _) as [[[[[] old'] new'] t']| |]; try exact R.
  - destruct R as (Ht & (kso & Wo) & ks' & vs' & Wn' & S' & C' & Cp' & X'). rewrite (destroy_ok _ _ _ Wo).
    split; [lia|]. exists ks', vs'. split; [exact Wn'|]. split; [exact Cp'|]. split; [|split; [exact C'|exact X']].
    intros k v T. rewrite (S' k v T). split.
    + intros [(j & A & B)|(j & _ & A & B)]; [apply nth_repeat in A; congruence|]. exists j. split; assumption.
    + intros (j & A & B). right. exists j. split; [lia|]. split; assumption.
  - destruct R as (Ht & (ks1 & vs1 & W1) & Rf & ks' & vs' & Wo & S' & Cp & Cc). rewrite (destroy_ok _ _ _ W1).
    split; [lia|]. exists ks', vs'. split; [exact Wo|]. split; [exact S'|].
    split; [apply (refused_mono (S (S t)) (S (S t)) t' t'); [lia|lia|exact Rf] || apply (refused_mono t (S (S t)) t' t'); [lia|lia|exact Rf]|].
    split; assumption.
Qed.

(** How much recursion budget a map of capacity 2^j needs. *)
Definition lack (fuel : nat) (entry : bool) (cap : N) : Prop :=
  N.of_nat fuel + 2 * N.log2 cap + (if entry then 0 else 1) < 130.

Lemma log2_cap : forall m ks vs, wf m ks vs -> N.log2 (capacity m) <= 62.
Proof using All.
  intros m ks vs W. destruct (cap_le _ _ _ W) as [C1 C2]. apply N.lt_succ_r. change (N.succ 62) with 63.
  apply N.log2_lt_pow2; [lia|exact C2].
Qed.

Lemma log2_double : forall a b, 16 <= a -> a * 2 <= b -> N.log2 a + 1 <= N.log2 b.
Proof using All.
  intros a b Ha H. apply N.le_trans with (N.log2 (a * 2)); [|apply N.log2_le_mono; exact H].
  rewrite N.mul_comm, N.log2_double by lia. lia.
Qed.

Lemma insert_run_ok : forall fuel entry m ks vs k v t, wf m ks vs -> k <> tomb ->
  (entry = false -> 4 * (count m + 1) < 3 * capacity m) ->
  ins_post (lack fuel entry (capacity m)) m ks vs k v t (insert_run K V keq tomb hash ksize vsize grant fuel entry m k v t).
Proof using All.
  induction fuel as [|fuel IH]; intros entry m ks vs k v t W T He.
  { cbn [insert_run ins_post]. unfold lack. pose proof (log2_cap _ _ _ W). destruct entry; lia. }
  cbn [insert_run]. destruct (cap_le _ _ _ W) as [C1 C2]. pose proof (wf_load _ _ _ W) as Ld.
  assert (G : grow_post (lack (S fuel) entry (capacity m)) m ks vs t
                (grow K V keq tomb ksize vsize grant (fun m' k' v' t' => insert_run K V keq tomb hash ksize vsize grant fuel true m' k' v' t') m t)).
  { apply grow_ok; [|exact W]. intros _ m1 ks1 vs1 k1 v1 t1 W1 Hc T1.
    pose proof (IH true m1 ks1 vs1 k1 v1 t1 W1 T1 ltac:(discriminate)) as P. unfold ins_post in *.
    destruct (insert_run _ _ _ _ _ _ _ _ _ _ _ _ _ _) as [[[[] m2] t2]| |]; try exact P.
    unfold lack in *. pose proof (log2_double _ _ C1 Hc). destruct entry; lia. }
  assert (CONT : forall m' ks' vs' t', wf m' ks' vs' -> capacity m * 2 <= capacity m' -> (t <= t')%nat ->
            (forall k v, k <> tomb -> stored ks' vs' k v <-> stored ks vs k v) -> count m' <= occ ks -> occ ks' = count m' ->
            ins_post (lack (S fuel) entry (capacity m)) m ks vs k v t
               (insert_run K V keq tomb hash ksize vsize grant fuel false m' k v t')).
  { intros m' ks' vs' t' W' Hc Ht S' C' X'. pose proof (wf_count _ _ _ W) as Hoc.
    pose proof (IH false m' ks' vs' k v t' W' T ltac:(intros _; lia)) as P. unfold ins_post in *.
    destruct (insert_run _ _ _ _ _ _ _ _ _ _ _ _ _ _) as [[[[] m2] t2]| |]; try exact P.
    - destruct P as (Ht2 & ks2 & vs2 & W2 & S2 & C2' & Cp2 & X2). split; [lia|]. exists ks2, vs2. split; [exact W2|].
      split; [|split; [lia|split; [lia|intros _; apply X2; exact X']]].
      intros k0 v0 T0. rewrite (S2 k0 v0 T0). rewrite (S' k0 v0 T0). reflexivity.
    - destruct P as (Ht2 & ks2 & vs2 & W2 & S2 & R2 & Cp2 & C2'). split; [lia|]. exists ks2, vs2. split; [exact W2|].
      split; [|split; [|split; lia]].
      + intros k0 v0 T0 Sv. apply (S' k0 v0 T0). apply (S2 k0 v0 T0). exact Sv.
      + apply (refused_mono _ _ _ _ Ht (Nat.le_refl _) R2).
    - unfold lack in *. pose proof (log2_double _ _ C1 Hc). destruct entry; lia. }
  assert (STEP : forall r, grow_post (lack (S fuel) entry (capacity m)) m ks vs t r ->
            ins_post (lack (S fuel) entry (capacity m)) m ks vs k v t
              (' (b, m', t') <~ r ;; if b then insert_run K V keq tomb hash ksize vsize grant fuel false m' k v t'
                 else Ret (false, m', t'))).
  { intros r Hr. unfold grow_post in Hr. destruct r as [[[[] m'] t']| |]; [| |exact Hr|exact Hr].
    - destruct Hr as (Ht & ks' & vs' & W' & Cp & S' & C' & X'). apply (CONT m' ks' vs' t'); assumption.
    - destruct Hr as (Ht & ks' & vs' & W' & S' & R' & Cp & Cc). split; [exact Ht|]. exists ks', vs'.
      split; [exact W'|]. split; [exact S'|]. split; [exact R'|]. split; lia. }
  destruct entry.
  - unfold check. rewrite (wf_asserted _ _ _ W). rewrite (proj2 (tomb_not k) T).
    destruct (too_full K V m) eqn:Tf.
    + apply STEP. exact G.
    + assert (L' : 4 * (count m + 1) < 3 * capacity m).
      { unfold too_full in Tf. destruct (wf_pow _ _ _ W) as (j & Hj & E).
        assert (Eq : capacity m = 4 * 2 ^ (j - 2)).
        { rewrite E. replace j with (2 + (j - 2)) at 1 by lia. rewrite N.pow_add_r. reflexivity. }
        rewrite Eq in Tf. replace (4 * 2 ^ (j - 2)) with (2 * 2 ^ (j - 2) * 2) in Tf by lia.
        rewrite N.div_mul in Tf by lia. rewrite (N.mul_comm 2 (2 ^ (j - 2))) in Tf. rewrite N.div_mul in Tf by lia.
        rewrite Eq in C2, Ld. rewrite Eq. change (2 ^ 63) with 9223372036854775808 in C2.
        unfold w64 in Tf. rewrite N.mod_small in Tf by lia. lia. }
      pose proof (IH false m ks vs k v t W T ltac:(intros _; exact L')) as P. unfold ins_post in *.
      destruct (insert_run _ _ _ _ _ _ _ _ _ _ _ _ _ _) as [[[[] m2] t2]| |]; try exact P.
      unfold lack in *. lia.
  - destruct (hash_ok k T) as (h & Hh). rewrite Hh. cbv zeta. unfold check.
    destruct (wf_pow _ _ _ W) as (j & Hj & E).
    assert (Hm : N.land h (sub64 (capacity m) 1) <? capacity m = true).
    { apply N.ltb_lt. rewrite E. rewrite mask_mod by (rewrite <- E; lia). apply N.mod_lt. rewrite <- E. lia. }
    rewrite Hm.
    pose proof (probe_ok m ks vs k h MAX_PROBE 0 false 0 W T ltac:(reflexivity) ltac:(discriminate)) as P. cbv zeta in P.
    destruct (probe _ _ _ _ _ _ _ _ _ _ _) as [[[[] []] s]| |]; try contradiction.
    + destruct P as (d & Hd & Es & Ek).
      destruct (put_ok m ks vs k v h d s true W T Hh Hd Es (He eq_refl) Ek ltac:(discriminate))
        as (m' & ks' & vs' & Ep & W' & S' & C' & Cp' & X').
      rewrite Ep. split; [lia|]. exists ks', vs'. split; [exact W'|]. split; [exact S'|]. split; [lia|]. split; [lia|exact X'].
    + destruct P as [(d & Hd & Es & Ek) Hn].
      destruct (put_ok m ks vs k v h d s false W T Hh Hd Es (He eq_refl) Ek) as (m' & ks' & vs' & Ep & W' & S' & C' & Cp' & X').
      { intros _. apply (window_complete m ks vs k h W T Hh). exact Hn. }
      rewrite Ep. split; [lia|]. exists ks', vs'. split; [exact W'|]. split; [exact S'|]. split; [lia|]. split; [lia|exact X'].
    + apply STEP. exact G.
Qed.

(** ** Operations *)
Notation create := (create K V tomb ksize vsize grant).
Notation insert := (insert K V keq tomb hash copy_bytes ksize vsize grant).
Notation insert_move := (insert_move K V keq tomb hash ksize vsize grant).
Notation find := (find K V keq hash).
Notation find_index := (find_index K V keq hash).
Notation get := (get K V keq tomb).
Notation remove := (remove K V keq tomb hash).
Notation remove_index := (remove_index K V keq tomb).

Lemma key_dec : forall a b : K, a = b \/ a <> b.
Proof using All. intros a b. destruct (keq a b) eqn:E; [left; apply keq_ok; exact E|right; intros F; apply keq_ok in F; congruence]. Qed.

Lemma create_wf : forall t m t', create t = (m, t') -> capacity m <> 0 ->
  exists ks vs, wf m ks vs /\ occ ks = count m /\ (forall k v, k <> tomb -> ~ stored ks vs k v).
Proof using All.
  intros t m t'. unfold HashModel.create. destruct (grant t _) eqn:G1; [|intros E; injection E as <- <-; cbn; congruence].
  destruct (grant (S t) _) eqn:G2; [|intros E; injection E as <- <-; cbn; congruence].
  intros E _. apply (f_equal fst) in E. cbn [fst] in E. subst m.
  exists (repeat tomb (N.to_nat INITIAL_CAPACITY)), (repeat None (N.to_nat INITIAL_CAPACITY)).
  split; [apply wf_empty; [exists 4; split; [lia|reflexivity]|apply (grant_ok _ _ G1)|apply (grant_ok _ _ G2)]|].
  split.
  - cbn [count]. apply occ_repeat.
  - intros k v T (i & A & B). apply nth_repeat in A. congruence.
Qed.

Lemma occ_zero : forall ks k, occ ks = 0 -> k <> tomb -> ~ In k ks.
Proof using All.
  induction ks as [|a ks IH]; intros k H T I; [exact I|]. rewrite occ_cons in H. destruct I as [->|I].
  - rewrite (proj2 (tomb_not k) T) in H. lia.
  - apply (IH k); [lia|exact T|exact I].
Qed.

Lemma find_index_ok : forall m ks vs k, wf m ks vs -> k <> tomb ->
  match find_index m k with
  | Ret (Some s) => s < capacity m /\ nth_error ks (N.to_nat s) = Some k
  | Ret None => ~ In k ks
  | _ => False
  end.
Proof using All.
  intros m ks vs k W T. unfold HashModel.find_index, check. rewrite (wf_asserted _ _ _ W).
  destruct (count m =? 0) eqn:E0.
  - apply occ_zero; [|exact T]. pose proof (wf_count _ _ _ W). lia.
  - destruct (hash_ok k T) as (h & Hh). rewrite Hh.
    destruct (cap_le _ _ _ W) as [C1 C2]. destruct (wf_pow _ _ _ W) as (j & Hj & E).
    assert (Hm : N.land h (sub64 (capacity m) 1) <? capacity m = true).
    { apply N.ltb_lt. rewrite E. rewrite mask_mod by (rewrite <- E; lia). apply N.mod_lt. rewrite <- E. lia. }
    cbv zeta. rewrite Hm.
    pose proof (scan_ok m ks vs k h MAX_PROBE 0 W eq_refl) as S. cbv zeta in S.
    destruct (scan _ _ _ _ _ _ _ _) as [[s|]| |]; try exact S.
    apply (window_complete m ks vs k h W T Hh). intros d Hd. apply S. lia.
Qed.

Lemma find_ok : forall m ks vs k, wf m ks vs -> k <> tomb ->
  match find m k with
  | Ret (Some v) => stored ks vs k v
  | Ret None => forall v, ~ stored ks vs k v
  | _ => False
  end.
Proof using All.
  intros m ks vs k W T. unfold HashModel.find. pose proof (find_index_ok m ks vs k W T) as F.
  destruct (find_index m k) as [[s|]| |]; try exact F.
  - destruct F as [F1 F2]. destruct (wf_init _ _ _ W _ k T F2) as (v & Ev).
    rewrite (wf_vals _ _ _ W). cbn [load]. rewrite Ev. exists (N.to_nat s). split; assumption.
  - intros v S. apply F. apply stored_in in S. exact S.
Qed.

Lemma get_ok : forall m ks vs i, wf m ks vs ->
  match get m i with
  | Ret (Some (k, v)) => k <> tomb /\ i < capacity m /\ nth_error ks (N.to_nat i) = Some k /\
                         nth_error vs (N.to_nat i) = Some (Some v)
  | Ret None => forall k, nth_error ks (N.to_nat i) = Some k -> k = tomb
  | _ => False
  end.
Proof using All.
  intros m ks vs i W. unfold HashModel.get, check. rewrite (wf_asserted _ _ _ W).
  pose proof (wf_len _ _ _ W) as L.
  destruct (i <? capacity m) eqn:Ei.
  - rewrite (wf_keys _ _ _ W). cbn [load].
    destruct (nth_error ks (N.to_nat i)) as [k|] eqn:Ek; [|apply nth_error_None in Ek; lia].
    destruct (is_tomb k) eqn:Et.
    + apply tomb_iff in Et. intros k' X. congruence.
    + apply tomb_not in Et. destruct (wf_init _ _ _ W _ k Et Ek) as (v & Ev).
      rewrite (wf_vals _ _ _ W). cbn [load]. rewrite Ev. split; [exact Et|]. split; [lia|]. split; [reflexivity|reflexivity].
  - intros k Ek. exfalso. assert (N.to_nat i < length ks)%nat by (apply nth_error_Some; congruence). lia.
Qed.

Lemma occ_pos : forall ks k, In k ks -> k <> tomb -> 1 <= occ ks.
Proof using All.
  induction ks as [|a ks IH]; intros k I T; [destruct I|]. rewrite occ_cons. destruct I as [->|I].
  - rewrite (proj2 (tomb_not k) T). lia.
  - specialize (IH k I T). lia.
Qed.

Lemma erase_ok : forall m ks vs i k, wf m ks vs -> nth_error ks (N.to_nat i) = Some k -> k <> tomb ->
  exists m' ks', erase K V tomb m i = Ret m' /\ wf m' ks' vs /\ count m' = count m - 1 /\ capacity m' = capacity m /\
    (forall k' v', k' <> tomb -> stored ks' vs k' v' <-> k' <> k /\ stored ks vs k' v') /\ occ ks = occ ks' + 1.
Proof using All.
  intros m ks vs i k W Ei T. unfold erase.
  assert (Ho : 1 <= occ ks) by (apply occ_pos with k; [apply nth_error_In in Ei; exact Ei|exact T]).
  pose proof (wf_count _ _ _ W) as Hc.
  destruct (cap_le _ _ _ W) as [C1 C2]. pose proof (wf_load _ _ _ W) as Ld.
  assert (Es : sub64 (count m) 1 = count m - 1).
  { change (2 ^ 63) with 9223372036854775808 in C2. unfold sub64. replace (count m + W64 - 1) with ((count m - 1) + 1 * W64) by lia.
    rewrite N.mod_add by lia. apply N.mod_small. lia. }
  destruct (wf_erase m ks vs _ k (count m - 1) W Ei T ltac:(lia) ltac:(lia)) as (ks' & Ew & W' & F' & S' & O').
  rewrite (wf_keys _ _ _ W). cbn [store]. rewrite Ew.
  destruct (wf_init _ _ _ W _ k T Ei) as (v & Ev).
  rewrite (wf_vals _ _ _ W) in *. cbn [load]. rewrite Ev. rewrite Es.
  eexists _, ks'. split; [reflexivity|]. split; [exact W'|]. split; [reflexivity|]. split; [reflexivity|]. split; [exact S'|exact O'].
Qed.

Lemma remove_ok : forall m ks vs k, wf m ks vs -> k <> tomb ->
  match remove m k with
  | Ret (true, m') => (exists v, stored ks vs k v) /\ exists ks', wf m' ks' vs /\ count m' = count m - 1 /\ capacity m' = capacity m /\
      (forall k' v', k' <> tomb -> stored ks' vs k' v' <-> k' <> k /\ stored ks vs k' v') /\ occ ks = occ ks' + 1
  | Ret (false, m') => m' = m /\ forall v, ~ stored ks vs k v
  | _ => False
  end.
Proof using All.
  intros m ks vs k W T. unfold HashModel.remove. pose proof (find_index_ok m ks vs k W T) as F.
  destruct (find_index m k) as [[s|]| |]; try exact F.
  - destruct F as [F1 F2]. destruct (erase_ok m ks vs s k W F2 T) as (m' & ks' & E & W' & R). rewrite E.
    split; [|exists ks'; split; [exact W'|exact R]].
    apply (in_stored _ _ _ k W T). apply nth_error_In in F2. exact F2.
  - split; [reflexivity|]. intros v S. apply F. apply stored_in in S. exact S.
Qed.

Lemma remove_index_ok : forall m ks vs i, wf m ks vs -> 0 < count m ->
  match remove_index m i with
  | Ret (true, m') => exists k v ks', get m i = Ret (Some (k, v)) /\ k <> tomb /\ stored ks vs k v /\
      wf m' ks' vs /\ count m' = count m - 1 /\ capacity m' = capacity m /\
      (forall k' v', k' <> tomb -> stored ks' vs k' v' <-> k' <> k /\ stored ks vs k' v') /\ occ ks = occ ks' + 1
  | Ret (false, m') => m' = m /\ get m i = Ret None
  | _ => False
  end.
Proof using All.
  intros m ks vs i W Hc. unfold HashModel.remove_index, HashModel.get, check. rewrite (wf_asserted _ _ _ W).
  destruct (0 <? count m) eqn:Ec; [|lia].
  pose proof (wf_len _ _ _ W) as L.
  destruct (i <? capacity m) eqn:Ei; [|split; reflexivity].
  rewrite (wf_keys _ _ _ W). cbn [load].
  destruct (nth_error ks (N.to_nat i)) as [k|] eqn:Ek; [|apply nth_error_None in Ek; lia].
  destruct (is_tomb k) eqn:Et; [split; reflexivity|].
  apply tomb_not in Et. destruct (wf_init _ _ _ W _ k Et Ek) as (v & Ev).
  rewrite (wf_vals _ _ _ W). cbn [load]. rewrite Ev.
  destruct (erase_ok m ks vs i k W Ek Et) as (m' & ks' & E & W' & R). rewrite E.
  exists k, v, ks'. split; [reflexivity|]. split; [exact Et|]. split; [exists (N.to_nat i); split; assumption|].
  split; [exact W'|exact R].
Qed.

Opaque insert_run.
Lemma insert_ok : forall m ks vs k v t, wf m ks vs -> k <> tomb ->
  ins_post False m ks vs k v t (insert m k v t).
Proof using All.
  intros m ks vs k v t W T. unfold HashModel.insert. rewrite (proj2 (tomb_not k) T).
  assert (M : forall t, ins_post False m ks vs k v t (insert_move m k v t)).
  { intros t1. unfold HashModel.insert_move.
    pose proof (insert_run_ok FUEL true m ks vs k v t1 W T
                  ltac:(discriminate)) as P.
    unfold ins_post in *. destruct (insert_run _ _ _ _ _ _ _ _ _ _ _ _ _ _) as [[[[] m'] t']| |]; try exact P.
    unfold lack, FUEL in P. lia. }
  destruct (copy_bytes k) as [b|]; [|apply M].
  destruct (grant t b) eqn:G.
  - specialize (M (S t)). unfold ins_post in *. destruct (insert_move m k v (S t)) as [[[[] m'] t']| |]; try exact M.
    + destruct M as (A & B). split; [lia|exact B].
    + destruct M as (A & ks' & vs' & W' & S' & R' & C'). split; [lia|]. exists ks', vs'. split; [exact W'|]. split; [exact S'|].
      split; [|exact C']. apply (refused_mono (S t) (S t) t' t'); [lia|lia|exact R'] ||
        apply (refused_mono t (S t) t' t'); [lia|lia|exact R'].
  - split; [lia|]. exists ks, vs. split; [exact W|]. split; [intros; assumption|]. split; [exists t, b; split; [lia|exact G]|].
    split; lia.
Qed.

Transparent insert_run.

(** Growth refused at its first two requests changes nothing. *)
Lemma insert_run_clean : forall fuel m ks vs k v t m' t', wf m ks vs -> k <> tomb ->
  insert_run K V keq tomb hash ksize vsize grant fuel true m k v t = Ret (false, m', t') -> (t' <= t + 2)%nat -> m' = m.
Proof using All.
  intros fuel m ks vs k v t m' t' W T E Ht.
  assert (G : forall n m' t', wf m ks vs ->
     (' (b, m1, t1) <~ grow K V keq tomb ksize vsize grant
          (fun m k v t => insert_run K V keq tomb hash ksize vsize grant n true m k v t) m t ;;
        if b then insert_run K V keq tomb hash ksize vsize grant n false m1 k v t1 else Ret (false, m1, t1)) = Ret (false, m', t') ->
     (t' <= t + 2)%nat -> m' = m).
  { clear E Ht m' t'. intros n m' t' _ E Ht.
    assert (IO : forall m1 ks1 vs1 k1 v1 t1, wf m1 ks1 vs1 -> capacity m * 2 <= capacity m1 -> k1 <> tomb ->
       ins_post True m1 ks1 vs1 k1 v1 t1
         (insert_run K V keq tomb hash ksize vsize grant n true m1 k1 v1 t1)).
    { intros m1 ks1 vs1 k1 v1 t1 W1 _ T1.
      pose proof (insert_run_ok n true m1 ks1 vs1 k1 v1 t1 W1 T1
                  ltac:(discriminate)) as P.
      unfold ins_post in *. destruct (insert_run _ _ _ _ _ _ _ _ _ _ _ _ _ _) as [[[[] m2] t2]| |]; try exact P. exact I. }
    destruct (cap_le _ _ _ W) as [C1 C2]. change (2 ^ 63) with 9223372036854775808 in C2.
    pose proof (grow_ok True _ m ks vs t (fun _ => IO) W) as Gp.
    unfold grow_post in Gp. unfold grow in *. cbv zeta in *.
    assert (E2 : w64 (capacity m * 2) = capacity m * 2) by (unfold w64; apply N.mod_small; lia).
    rewrite E2 in *.
    destruct (negb _ || negb _) eqn:Gr; [injection E as <- <-; reflexivity|].
    unfold check in *. destruct (_ && _); [|discriminate].
    set (new := Map (Mem (repeat tomb _)) (Mem (repeat None _)) 0 (capacity m * 2)) in *.
    assert (Bk : capacity m * 2 * ksize < 2 ^ 63 /\ capacity m * 2 * vsize < 2 ^ 63).
    { pose proof (wf_kbytes _ _ _ W) as Kb. pose proof (wf_vbytes _ _ _ W) as Vb.
      change (2 ^ 63) with 9223372036854775808 in Kb, Vb.
      assert (Ek : w64 (capacity m * 2 * ksize) = capacity m * 2 * ksize) by (unfold w64; apply N.mod_small; nia).
      assert (Ev : w64 (capacity m * 2 * vsize) = capacity m * 2 * vsize) by (unfold w64; apply N.mod_small; nia).
      rewrite Ek, Ev in Gr. apply orb_false_iff in Gr. destruct Gr as [G1 G2]. apply negb_false_iff in G1, G2.
      split; eapply grant_ok; eassumption. }
    assert (Wn : wf new (repeat tomb (N.to_nat (capacity m * 2))) (repeat None (N.to_nat (capacity m * 2)))).
    { apply wf_empty; [|apply Bk|apply Bk]. destruct (wf_pow _ _ _ W) as (j & Hj & Ej). exists (j + 1). split; [lia|].
      rewrite Ej, N.pow_add_r. reflexivity. }
    assert (Hd : forall j k, (0 <= j)%nat -> nth_error ks j = Some k -> k <> tomb ->
              ~ In k (repeat tomb (N.to_nat (capacity m * 2)))).
    { intros j k0 _ _ T0 I0. apply repeat_spec in I0. congruence. }
    pose proof (rehash_ok True _ (N.to_nat (capacity m)) 0 m ks vs new _ _ (S (S t)) IO W Wn ltac:(lia) Hd
                ltac:(rewrite occ_repeat; reflexivity)) as R. change (N.of_nat 0) with 0 in R.
    destruct (rehash _ _ _ _ _ _ _ _ _ _) as [[[[[] old'] new'] t2]| |]; try discriminate.
    - destruct R as (Rt & _). destruct (destroy K V old'); try discriminate.
      destruct Gp as (Gt & ks1 & vs1 & W1 & Cp & S1 & Cn & X1).
      pose proof (insert_run_ok n false new' ks1 vs1 k v t2 W1 T) as P.
      pose proof (wf_load _ _ _ W). pose proof (wf_count _ _ _ W).
      specialize (P ltac:(intros _; lia)). rewrite E in P. cbn [ins_post] in P.
      destruct P as (Pt & _ & _ & _ & _ & (i & b & Hi & _) & _). lia.
    - destruct R as (Rt & _ & (i & b & Hi & _) & _). destruct (destroy K V new'); try discriminate. injection E as <- <-. lia. }
  destruct fuel as [|fuel]; [discriminate|]. cbn [insert_run] in E.
  unfold check in E. destruct (asserted K V m); [|discriminate].
  rewrite (proj2 (tomb_not k) T) in E.
  destruct (too_full K V m) eqn:Tf; [apply (G _ _ _ W E Ht)|].
  destruct fuel as [|fuel]; [discriminate|]. cbn [insert_run] in E.
  destruct (hash k); [|discriminate]. unfold check in E. destruct (_ <? _); [|discriminate].
  destruct (probe _ _ _ _ _ _ _ _ _ _ _) as [[[fd ex] s]| |]; try discriminate.
  destruct fd; [destruct (put _ _ _ _ _ _ _); discriminate|]. apply (G _ _ _ W E Ht).
Qed.

Opaque insert_run.
Definition copies (k : K) : nat := match copy_bytes k with Some _ => 1 | None => 0 end.

Lemma insert_clean : forall m ks vs k v t m' t', wf m ks vs -> insert m k v t = Ret (false, m', t') ->
  (t' <= t + copies k + 2)%nat -> m' = m.
Proof using All.
  intros m ks vs k v t m' t' W E Ht. unfold HashModel.insert in E. unfold copies in Ht.
  destruct (is_tomb k) eqn:Et; [congruence|]. apply tomb_not in Et.
  destruct (copy_bytes k) as [b|].
  - destruct (grant t b); [|congruence]. apply (insert_run_clean _ _ _ _ _ _ _ _ _ W Et E). lia.
  - apply (insert_run_clean _ _ _ _ _ _ _ _ _ W Et E). lia.
Qed.

Transparent insert_run.

(** ** Reachable maps and the finite map they stand for *)
Definition upd (s : K -> option V) (k : K) (v : V) : K -> option V := fun x => if keq x k then Some v else s x.
Definition del (s : K -> option V) (k : K) : K -> option V := fun x => if keq x k then None else s x.

(** [reach m t s]: [m] results from a history of calls after which a finite map would be [s]; [t] allocation requests
    have been made. A failed insertion is admitted when it was refused memory at its first attempt to grow. *)
Inductive reach : map -> nat -> (K -> option V) -> Prop :=
| R_create : forall t m t', create t = (m, t') -> capacity m <> 0 -> reach m t' (fun _ => None)
| R_insert : forall m t s k v m' t', reach m t s -> insert m k v t = Ret (true, m', t') -> reach m' t' (upd s k v)
| R_refused : forall m t s k v m' t', reach m t s -> insert m k v t = Ret (false, m', t') ->
    (t' <= t + copies k + 2)%nat -> reach m' t' s
| R_remove : forall m t s k b m', reach m t s -> k <> tomb -> remove m k = Ret (b, m') -> reach m' t (del s k)
| R_remove_index : forall m t s i k v b m', reach m t s -> get m i = Ret (Some (k, v)) ->
    remove_index m i = Ret (b, m') -> reach m' t (del s k)
| R_remove_empty : forall m t s i b m', reach m t s -> get m i = Ret None ->
    remove_index m i = Ret (b, m') -> reach m' t s.

(** The same with arbitrary failed insertions. *)
Inductive reach_any : map -> nat -> (K -> option V) -> Prop :=
| A_create : forall t m t', create t = (m, t') -> capacity m <> 0 -> reach_any m t' (fun _ => None)
| A_insert : forall m t s k v m' t', reach_any m t s -> insert m k v t = Ret (true, m', t') -> reach_any m' t' (upd s k v)
| A_refused : forall m t s k v m' t', reach_any m t s -> insert m k v t = Ret (false, m', t') -> reach_any m' t' s
| A_remove : forall m t s k b m', reach_any m t s -> k <> tomb -> remove m k = Ret (b, m') -> reach_any m' t (del s k)
| A_remove_index : forall m t s i k v b m', reach_any m t s -> get m i = Ret (Some (k, v)) ->
    remove_index m i = Ret (b, m') -> reach_any m' t (del s k)
| A_remove_empty : forall m t s i b m', reach_any m t s -> get m i = Ret None ->
    remove_index m i = Ret (b, m') -> reach_any m' t s.

Lemma reach_any_of : forall m t s, reach m t s -> reach_any m t s.
Proof using All.
  intros m t s R. induction R; [eapply A_create|eapply A_insert|eapply A_refused|eapply A_remove|eapply A_remove_index|eapply A_remove_empty];
    eassumption.
Qed.

Definition rel (m : map) (s : K -> option V) : Prop := exists ks vs, wf m ks vs /\ occ ks = count m /\ s tomb = None /\
  forall k v, k <> tomb -> (stored ks vs k v <-> s k = Some v).
Definition rel_any (m : map) (s : K -> option V) : Prop := exists ks vs, wf m ks vs /\ s tomb = None /\
  forall k v, k <> tomb -> stored ks vs k v -> s k = Some v.

Lemma upd_spec : forall s k v x y, upd s k v x = Some y <-> (x = k /\ y = v) \/ (x <> k /\ s x = Some y).
Proof using All.
  intros s k v x y. unfold upd. destruct (keq x k) eqn:E.
  - apply keq_ok in E. subst x. split; [intros F; left; split; congruence|]. intros [[_ ->]|[F _]]; [reflexivity|congruence].
  - assert (x <> k) by (intros F; apply keq_ok in F; congruence). split; [intros F; right; split; assumption|].
    intros [[F _]|[_ F]]; [congruence|exact F].
Qed.
Lemma del_spec : forall s k x y, del s k x = Some y <-> x <> k /\ s x = Some y.
Proof using All.
  intros s k x y. unfold del. destruct (keq x k) eqn:E.
  - apply keq_ok in E. subst x. split; [discriminate|]. intros [F _]. congruence.
  - assert (x <> k) by (intros F; apply keq_ok in F; congruence). split; [intros F; split; assumption|]. intros [_ F]. exact F.
Qed.
Lemma upd_tomb : forall s k v, s tomb = None -> k <> tomb -> upd s k v tomb = None.
Proof using All. intros s k v H T. unfold upd. destruct (keq tomb k) eqn:E; [apply keq_ok in E; congruence|exact H]. Qed.
Lemma del_tomb : forall s k, s tomb = None -> del s k tomb = None.
Proof using All. intros s k H. unfold del. destruct (keq tomb k); [reflexivity|exact H]. Qed.

Lemma insert_true_key : forall m k v t m' t', insert m k v t = Ret (true, m', t') -> k <> tomb.
Proof using All.
  intros m k v t m' t' E ->. unfold HashModel.insert in E. rewrite (proj2 (tomb_iff tomb) eq_refl) in E.
  discriminate.
Qed.

Lemma remove_index_count : forall m i b m', remove_index m i = Ret (b, m') -> 0 < count m.
Proof using All. intros m i b m' E. unfold HashModel.remove_index, check in E. destruct (0 <? count m) eqn:X; [lia|discriminate]. Qed.

Lemma reach_rel : forall m t s, reach m t s -> rel m s.
Proof using All.
  intros m t s R. induction R as [t m t' E C|m t s k v m' t' R IH E|m t s k v m' t' R IH E Ht|m t s k b m' R IH T E
                                 |m t s i k v b m' R IH G E|m t s i b m' R IH G E].
  - destruct (create_wf t m t' E C) as (ks & vs & W & X & S). exists ks, vs. split; [exact W|]. split; [exact X|].
    split; [reflexivity|]. intros k v T. split; [intros F; destruct (S k v T F)|discriminate].
  - pose proof (insert_true_key _ _ _ _ _ _ E) as T. destruct IH as (ks & vs & W & X & N & S).
    pose proof (insert_ok m ks vs k v t W T) as P. rewrite E in P. destruct P as (_ & ks' & vs' & W' & S' & _ & _ & X').
    exists ks', vs'. split; [exact W'|]. split; [apply X'; exact X|]. split; [apply upd_tomb; assumption|].
    intros k0 v0 T0. rewrite (S' k0 v0 T0), upd_spec, (S k0 v0 T0). reflexivity.
  - pose proof IH as IH2. destruct IH as (ks & vs & W & X & N & S). rewrite (insert_clean m ks vs k v t m' t' W E Ht). exact IH2.
  - destruct IH as (ks & vs & W & X & N & S). pose proof (remove_ok m ks vs k W T) as P. rewrite E in P. destruct b.
    + destruct P as (_ & ks' & W' & C' & _ & S' & O'). exists ks', vs. split; [exact W'|]. split; [lia|].
      split; [apply del_tomb; exact N|]. intros k0 v0 T0. rewrite (S' k0 v0 T0), del_spec, (S k0 v0 T0). reflexivity.
    + destruct P as (-> & P). exists ks, vs. split; [exact W|]. split; [exact X|]. split; [apply del_tomb; exact N|].
      intros k0 v0 T0. rewrite del_spec, <- (S k0 v0 T0). split; [|intros [_ F]; exact F]. intros F. split; [|exact F].
      intros ->. apply (P v0 F).
  - destruct IH as (ks & vs & W & X & N & S). pose proof (remove_index_ok m ks vs i W (remove_index_count _ _ _ _ E)) as P.
    rewrite E in P. destruct b; [|destruct P as (_ & P); congruence].
    destruct P as (k1 & v1 & ks' & G1 & T1 & _ & W' & C' & _ & S' & O'). rewrite G in G1. injection G1 as <- <-.
    exists ks', vs. split; [exact W'|]. split; [lia|]. split; [apply del_tomb; exact N|].
    intros k0 v0 T0. rewrite (S' k0 v0 T0), del_spec, (S k0 v0 T0). reflexivity.
  - pose proof IH as IH2. destruct IH as (ks & vs & W & X & N & S).
    pose proof (remove_index_ok m ks vs i W (remove_index_count _ _ _ _ E)) as P. rewrite E in P. destruct b.
    + destruct P as (k1 & v1 & ks' & G1 & _). congruence.
    + destruct P as (-> & _). exact IH2.
Qed.

Lemma reach_any_rel : forall m t s, reach_any m t s -> rel_any m s.
Proof using All.
  intros m t s R. induction R as [t m t' E C|m t s k v m' t' R IH E|m t s k v m' t' R IH E|m t s k b m' R IH T E
                                 |m t s i k v b m' R IH G E|m t s i b m' R IH G E].
  - destruct (create_wf t m t' E C) as (ks & vs & W & X & S). exists ks, vs. split; [exact W|].
    split; [reflexivity|]. intros k v T F. destruct (S k v T F).
  - pose proof (insert_true_key _ _ _ _ _ _ E) as T. destruct IH as (ks & vs & W & N & S).
    pose proof (insert_ok m ks vs k v t W T) as P. rewrite E in P. destruct P as (_ & ks' & vs' & W' & S' & _ & _ & X').
    exists ks', vs'. split; [exact W'|]. split; [apply upd_tomb; assumption|].
    intros k0 v0 T0 F. apply (S' k0 v0 T0) in F. apply upd_spec. destruct F as [F|[F1 F2]]; [left; exact F|right].
    split; [exact F1|apply S; assumption].
  - destruct IH as (ks & vs & W & N & S). destruct (key_dec k tomb) as [->|T].
    + unfold HashModel.insert in E. rewrite (proj2 (tomb_iff tomb) eq_refl) in E. injection E as <- <-.
      exists ks, vs. split; [exact W|]. split; [exact N|exact S].
    + pose proof (insert_ok m ks vs k v t W T) as P. rewrite E in P. destruct P as (_ & ks' & vs' & W' & S' & _).
      exists ks', vs'. split; [exact W'|]. split; [exact N|]. intros k0 v0 T0 F. apply (S k0 v0 T0). apply (S' k0 v0 T0 F).
  - destruct IH as (ks & vs & W & N & S). pose proof (remove_ok m ks vs k W T) as P. rewrite E in P. destruct b.
    + destruct P as (_ & ks' & W' & C' & _ & S' & O'). exists ks', vs. split; [exact W'|].
      split; [apply del_tomb; exact N|]. intros k0 v0 T0 F. apply (S' k0 v0 T0) in F. apply del_spec. split; [apply F|].
      apply (S k0 v0 T0). apply F.
    + destruct P as (-> & P). exists ks, vs. split; [exact W|]. split; [apply del_tomb; exact N|].
      intros k0 v0 T0 F. apply del_spec. split; [|apply (S k0 v0 T0 F)]. intros ->. apply (P v0 F).
  - destruct IH as (ks & vs & W & N & S). pose proof (remove_index_ok m ks vs i W (remove_index_count _ _ _ _ E)) as P.
    rewrite E in P. destruct b; [|destruct P as (_ & P); congruence].
    destruct P as (k1 & v1 & ks' & G1 & T1 & _ & W' & C' & _ & S' & O'). rewrite G in G1. injection G1 as <- <-.
    exists ks', vs. split; [exact W'|]. split; [apply del_tomb; exact N|].
    intros k0 v0 T0 F. apply (S' k0 v0 T0) in F. apply del_spec. split; [apply F|]. apply (S k0 v0 T0). apply F.
  - pose proof IH as IH2. destruct IH as (ks & vs & W & N & S).
    pose proof (remove_index_ok m ks vs i W (remove_index_count _ _ _ _ E)) as P. rewrite E in P. destruct b.
    + destruct P as (k1 & v1 & ks' & G1 & _). congruence.
    + destruct P as (-> & _). exact IH2.
Qed.

Lemma uniq_nodup : forall ks, (forall i j k, k <> tomb -> nth_error ks i = Some k -> nth_error ks j = Some k -> i = j) ->
  NoDup (filter (fun k => negb (is_tomb k)) ks).
Proof using All.
  induction ks as [|a ks IH]; intros U; cbn [filter]; [constructor|].
  assert (N' : NoDup (filter (fun k => negb (is_tomb k)) ks)).
  { apply IH. intros i j k T A B. apply (U (S i) (S j) k T) in A; [lia|exact B]. }
  destruct (is_tomb a) eqn:Ea; cbn [negb]; [exact N'|]. constructor; [|exact N'].
  intros I. apply filter_In in I. destruct I as [I _]. apply In_nth_error in I. destruct I as (i & E).
  apply tomb_not in Ea. specialize (U 0%nat (S i) a Ea eq_refl E). discriminate.
Qed.
End Proofs.
