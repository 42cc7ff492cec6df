(** When the keys do not crowd, insertion needs at most one growth and a refused growth is harmless. *)
From Coq Require Import NArith List Bool Lia ZifyBool ZifyNat ZifyN Arith.
From Verif Require Import Base HashModel HashProofs.
Import ListNotations.
Local Open Scope N_scope.

Arguments wf_keys {K V keq tomb hash ksize vsize m ks vs} _.
Arguments wf_vals {K V keq tomb hash ksize vsize m ks vs} _.
Arguments wf_len {K V keq tomb hash ksize vsize m ks vs} _.
Arguments wf_vlen {K V keq tomb hash ksize vsize m ks vs} _.
Arguments wf_pow {K V keq tomb hash ksize vsize m ks vs} _.
Arguments wf_kbytes {K V keq tomb hash ksize vsize m ks vs} _.
Arguments wf_vbytes {K V keq tomb hash ksize vsize m ks vs} _.
Arguments wf_uniq {K V keq tomb hash ksize vsize m ks vs} _.
Arguments wf_near {K V keq tomb hash ksize vsize m ks vs} _.
Arguments wf_init {K V keq tomb hash ksize vsize m ks vs} _.
Arguments wf_count {K V keq tomb hash ksize vsize m ks vs} _.
Arguments wf_load {K V keq tomb hash ksize vsize m ks vs} _.

(** Two hashes whose 16-slot windows in a table of [c] slots overlap. *)
Definition share_window (c h h' : N) : Prop := exists d d', d < 16 /\ d' < 16 /\ (h + d) mod c = (h' + d') mod c.

(** At most 16 keys of the set have windows overlapping the window of any one of them. *)
Definition sparse {K : Type} (hash : K -> option N) (P : K -> Prop) (c : N) : Prop := forall k h l, P k -> hash k = Some h ->
  NoDup l -> (forall x, In x l -> P x /\ exists h', hash x = Some h' /\ share_window c h h') -> (length l <= 16)%nat.

Section Sparse.
Variable K V : Type.
Variable keq : K -> K -> bool.
Variable tomb : K.
Variable hash : K -> option N.
Variable copy_bytes : K -> option N.
Variable ksize vsize : N.
Variable grant : nat -> N -> bool.
Hypothesis keq_ok : forall a b, keq a b = true <-> a = b.
Hypothesis hash_ok : forall k, k <> tomb -> exists h, hash k = Some h.
Hypothesis ksize_ok : 1 <= ksize.
Hypothesis vsize_ok : 1 <= vsize.
Hypothesis grant_ok : forall i b, grant i b = true -> b < 2 ^ 63.

Notation "'!' f" := (f K V keq tomb hash copy_bytes ksize vsize grant keq_ok hash_ok ksize_ok vsize_ok grant_ok)
  (at level 9, f at level 8, only parsing).
Notation map := (map K V).
Notation wf := (wf K V keq tomb hash ksize vsize).
Notation occ := (occ K keq tomb).
Notation stored := (stored K V).
Notation insert := (insert K V keq tomb hash copy_bytes ksize vsize grant).
Notation insert_run := (insert_run K V keq tomb hash ksize vsize grant).

Lemma slot_inj : forall c h d d', 16 <= c -> d < 16 -> d' < 16 -> (h + d) mod c = (h + d') mod c -> d = d'.
Proof using All.
  assert (L : forall c h d d', 16 <= c -> d <= d' -> d' < 16 -> (h + d) mod c = (h + d') mod c -> d = d').
  { intros c h d d' Hc Hd Hd' E.
    pose proof (N.div_mod (h + d) c ltac:(lia)). pose proof (N.div_mod (h + d') c ltac:(lia)). rewrite E in *.
    assert ((h + d) / c = (h + d') / c) by nia. nia. }
  intros c h d d' Hc Hd Hd' E. destruct (N.le_ge_cases d d'); [apply (L c h); assumption|].
  symmetry. apply (L c h); [assumption|assumption|assumption|congruence].
Qed.

(** In a sparse table the window of a key is never full. *)
Lemma window_room : forall (P : K -> Prop) m ks vs k h, wf m ks vs -> sparse hash P (capacity m) -> P k -> k <> tomb -> hash k = Some h ->
  (forall x, In x ks -> x <> tomb -> P x) ->
  ~ (forall d, 0 <= d < 16 -> nth_error ks (slot (capacity m) h d) <> Some k /\ nth_error ks (slot (capacity m) h d) <> Some tomb).
Proof using All.
  intros P m ks vs k h W Sp Pk T Hh Hp F. destruct (! cap_le m ks vs W) as [C1 C2].
  set (win := List.map (fun d => nth (slot (capacity m) h (N.of_nat d)) ks tomb) (seq 0 16)).
  assert (Hn : forall d, (d < 16)%nat -> exists x, nth_error ks (slot (capacity m) h (N.of_nat d)) = Some x /\
             nth (slot (capacity m) h (N.of_nat d)) ks tomb = x /\ x <> tomb /\ x <> k).
  { intros d Hd. pose proof (! slot_lt m ks vs h (N.of_nat d) W) as L.
    destruct (nth_error ks (slot (capacity m) h (N.of_nat d))) as [x|] eqn:E; [|apply nth_error_None in E; lia].
    exists x. split; [reflexivity|]. split; [apply nth_error_nth with (d := tomb) in E; exact E|].
    destruct (F (N.of_nat d) ltac:(lia)) as [F1 F2]. rewrite E in F1, F2. split; congruence. }
  assert (Nd : NoDup win).
  { unfold win. assert (forall l, NoDup l -> (forall d, In d l -> (d < 16)%nat) ->
       NoDup (List.map (fun d => nth (slot (capacity m) h (N.of_nat d)) ks tomb) l)) as G.
    { induction l as [|a l IH]; intros N1 B; cbn [List.map]; [constructor|]. inversion N1; subst. constructor.
      - intros I. apply in_map_iff in I. destruct I as (b & Eb & Ib).
        destruct (Hn a (B a (or_introl eq_refl))) as (x & A1 & A2 & A3 & A4).
        destruct (Hn b (B b (or_intror Ib))) as (y & B1 & B2 & B3 & B4).
        assert (x = y) as -> by congruence.
        pose proof (wf_uniq W _ _ y A3 A1 B1) as Es. unfold slot in Es.
        apply N2Nat.inj in Es. apply slot_inj in Es; [|exact C1|specialize (B a (or_introl eq_refl)); lia|specialize (B b (or_intror Ib)); lia].
        assert (a = b) by lia. subst. contradiction.
      - apply IH; [assumption|]. intros d Hd. apply B. right. exact Hd. }
    apply G; [apply seq_NoDup|]. intros d Hd. apply in_seq in Hd. lia. }
  assert (L : (length (k :: win) <= 16)%nat).
  { apply (Sp k h (k :: win) Pk Hh).
    - constructor; [|exact Nd]. intros I. unfold win in I. apply in_map_iff in I. destruct I as (d & Ed & Id).
      apply in_seq in Id. destruct (Hn d ltac:(lia)) as (x & A1 & A2 & A3 & A4). congruence.
    - intros x [<-|I].
      + split; [exact Pk|]. exists h. split; [exact Hh|]. exists 0, 0. split; [lia|]. split; [lia|reflexivity].
      + unfold win in I. apply in_map_iff in I. destruct I as (d & Ed & Id). apply in_seq in Id.
        destruct (Hn d ltac:(lia)) as (y & A1 & A2 & A3 & A4). assert (y = x) as -> by congruence.
        split; [apply Hp; [apply nth_error_In in A1; exact A1|exact A3]|].
        destruct (wf_near W _ x A3 A1) as (h' & d' & Hh' & Hd' & Es). exists h'. split; [exact Hh'|].
        exists (N.of_nat d), d'. split; [lia|]. split; [exact Hd'|]. unfold slot in Es. rewrite N2Nat.id in Es. exact Es. }
  cbn [length] in L. unfold win in L. rewrite map_length, seq_length in L. lia.
Qed.

Lemma too_full_iff : forall m ks vs, wf m ks vs -> too_full K V m = (3 * capacity m <=? 4 * (count m + 1)).
Proof using All.
  intros m ks vs W. unfold too_full. destruct (! cap_le m ks vs W) as [C1 C2]. pose proof (wf_load W) as Ld.
  destruct (wf_pow W) as (j & Hj & E).
  assert (Eq : capacity m = 4 * 2 ^ (j - 2)).
  { rewrite E. replace j with (2 + (j - 2)) at 1 by lia. rewrite N.pow_add_r. reflexivity. }
  set (q := 2 ^ (j - 2)) in *. rewrite Eq in *.
  replace (4 * q / 2) with (2 * q) by (replace (4 * q) with (2 * q * 2) by lia; rewrite N.div_mul by lia; reflexivity).
  replace (2 * q / 2) with q by (rewrite (N.mul_comm 2 q), N.div_mul by lia; reflexivity).
  change (2 ^ 63) with 9223372036854775808 in C2. unfold w64. rewrite N.mod_small by lia.
  destruct (2 * q + q <=? count m + 1) eqn:A, (3 * (4 * q) <=? 4 * (count m + 1)) eqn:B; lia.
Qed.

(** Insertion into a sparse table with room: no allocation, always successful. *)
Lemma insert_now : forall (P : K -> Prop) n m ks vs k v t, wf m ks vs -> sparse hash P (capacity m) -> P k -> k <> tomb ->
  (forall x, In x ks -> x <> tomb -> P x) -> 4 * (count m + 1) < 3 * capacity m ->
  exists m', insert_run (S n) false m k v t = Ret (true, m', t) /\ capacity m' = capacity m.
Proof using All.
  intros P n m ks vs k v t W Sp Pk T Hp Hl. destruct (! cap_le m ks vs W) as [C1 C2].
  destruct (hash_ok k T) as (h & Hh). cbn [HashModel.insert_run]. rewrite Hh. cbv zeta. unfold check.
  destruct (wf_pow W) as (j & Hj & E).
  assert (Hm : N.land h (sub64 (capacity m) 1) <? capacity m = true).
  { apply N.ltb_lt. rewrite E. rewrite mask_mod by (rewrite <- E; lia). apply N.mod_lt. rewrite <- E. lia. }
  rewrite Hm.
  pose proof (! probe_ok m ks vs k h MAX_PROBE 0 false 0 W T ltac:(reflexivity) ltac:(discriminate)) as Q. cbv zeta in Q.
  destruct (probe _ _ _ _ _ _ _ _ _ _ _) as [[[[] []] s]| |]; try contradiction.
  - destruct Q as (d & Hd & Es & Ek).
    destruct (! put_ok m ks vs k v h d s true W T Hh Hd Es Hl Ek ltac:(discriminate))
      as (m' & ks' & vs' & Ep & W' & S' & C' & Cp' & X').
    rewrite Ep. exists m'. split; [reflexivity|exact Cp'].
  - destruct Q as [(d & Hd & Es & Ek) Hn].
    destruct (! put_ok m ks vs k v h d s false W T Hh Hd Es Hl Ek) as (m' & ks' & vs' & Ep & W' & S' & C' & Cp' & X').
    { intros _. apply (! window_complete m ks vs k h W T Hh). exact Hn. }
    rewrite Ep. exists m'. split; [reflexivity|exact Cp'].
  - exfalso. destruct Q as [_ Q]. apply (window_room P m ks vs k h W Sp Pk T Hh Hp). exact Q.
Qed.

Lemma insert_now_entry : forall (P : K -> Prop) n m ks vs k v t, wf m ks vs -> sparse hash P (capacity m) -> P k -> k <> tomb ->
  (forall x, In x ks -> x <> tomb -> P x) -> 4 * (count m + 1) < 3 * capacity m ->
  exists m', insert_run (S (S n)) true m k v t = Ret (true, m', t) /\ capacity m' = capacity m.
Proof using All.
  intros P n m ks vs k v t W Sp Pk T Hp Hl.
  destruct (insert_now P n m ks vs k v t W Sp Pk T Hp Hl) as (m' & E & C). exists m'. split; [|exact C].
  set (sn := S n) in *. cbn [HashModel.insert_run]. unfold check. rewrite (! wf_asserted m ks vs W).
  rewrite (proj2 (! tomb_not k) T). rewrite (too_full_iff m ks vs W).
  destruct (3 * capacity m <=? 4 * (count m + 1)) eqn:X; [lia|]. exact E.
Qed.

Lemma rehash_now : forall (P : K -> Prop) f n i old ks vs new ksn vsn t,
  wf old ks vs -> wf new ksn vsn -> N.of_nat i + N.of_nat n = capacity old ->
  sparse hash P (capacity new) -> (forall x, In x ks -> x <> tomb -> P x) -> (forall x, In x ksn -> x <> tomb -> P x) ->
  4 * (count new + occ (skipn i ks)) < 3 * capacity new ->
  exists old' new', rehash K V keq tomb (fun m k v t => insert_run (S (S f)) true m k v t) n (N.of_nat i) old new t =
    Ret (true, old', new', t) /\ capacity new' = capacity new.
Proof using All.
  intros P f n. induction n as [|n IH]; intros i old ks vs new ksn vsn t Wo Wn Hi Sp Po Pn Hl; cbn [rehash].
  - exists old, new. split; reflexivity.
  - pose proof (wf_len Wo) as Lo.
    destruct (nth_error ks i) as [k|] eqn:Ei; [|apply nth_error_None in Ei; lia].
    rewrite (wf_keys Wo). cbn [load]. rewrite Nnat.Nat2N.id, Ei.
    replace (N.of_nat i + 1) with (N.of_nat (S i)) by lia.
    pose proof (! skipn_nth _ _ _ _ Ei) as Hsk. rewrite Hsk in Hl. rewrite (! occ_cons) in Hl.
    destruct (is_tomb K keq tomb k) eqn:Et.
    + apply (IH (S i) old ks vs new ksn vsn t); try assumption; lia.
    + assert (T : k <> tomb) by (apply (! tomb_not); exact Et).
      destruct (wf_init Wo i k T Ei) as (v & Ev). rewrite (wf_vals Wo). cbn [load]. rewrite Nnat.Nat2N.id, Ev.
      assert (Pk : P k) by (apply Po; [apply nth_error_In in Ei; exact Ei|exact T]).
      destruct (insert_now_entry P f new ksn vsn k v t Wn Sp Pk T Pn ltac:(lia)) as (new1 & E1 & Cp1).
      pose proof (! insert_run_ok (S (S f)) true new ksn vsn k v t Wn T ltac:(discriminate)) as Q.
      rewrite E1 in Q |- *. destruct Q as (_ & ks1 & vs1 & W1 & S1 & C1 & _ & _).
      destruct (! wf_erase old ks vs i k (count old) Wo Ei T ltac:(lia)) as (kso' & Ew & Wo' & Fo & So & Oo).
      { pose proof (wf_count Wo). lia. }
      cbn [store]. rewrite Nnat.Nat2N.id, Ew. rewrite (wf_vals Wo) in Wo'.
      rewrite <- Cp1.
      apply (IH (S i) _ kso' vs new1 ks1 vs1 t Wo' W1); [cbn [capacity]; lia|rewrite Cp1; exact Sp| | |].
      * intros x I Tx. apply In_nth_error in I. destruct I as (a & Ea). rewrite Fo in Ea.
        destruct (Nat.eqb_spec a i); [congruence|]. apply Po; [apply nth_error_In in Ea; exact Ea|exact Tx].
      * intros x I Tx. destruct (! in_stored _ _ _ x W1 Tx I) as (vx & Sx). apply (S1 x vx Tx) in Sx.
        destruct Sx as [[-> _]|[_ Sx]]; [exact Pk|]. apply Pn; [apply (! stored_in) in Sx; exact Sx|exact Tx].
      * assert (skipn (S i) kso' = skipn (S i) ks) as ->; [|lia].
        clear - Fo Ew. revert ks kso' Fo Ew. induction i as [|i IH]; intros ks kso' Fo Ew; destruct ks as [|a ks]; cbn in Ew; try discriminate.
        -- injection Ew as <-. reflexivity.
        -- destruct (write ks i tomb) as [kt|] eqn:E; [|discriminate]. injection Ew as <-.
           change (skipn (S i) kt = skipn (S i) ks). apply IH; [|exact E].
           intros j. specialize (Fo (S j)). cbn in Fo. exact Fo.
Qed.

Lemma sparse_insert_run : forall (P : K -> Prop) f m ks vs k v t, wf m ks vs -> sparse hash P (capacity m) ->
  sparse hash P (2 * capacity m) -> P k -> k <> tomb -> (forall x, In x ks -> x <> tomb -> P x) ->
  exists b m' t', insert_run (S (S (S (S f)))) true m k v t = Ret (b, m', t') /\ (t' <= t + 2)%nat.
Proof using All.
  intros P f m ks vs k v t W Sp Sp2 Pk T Hp. destruct (! cap_le m ks vs W) as [C1 C2].
  pose proof (wf_load W) as Ld. pose proof (wf_count W) as Ct. pose proof (wf_len W) as Ln.
  destruct (3 * capacity m <=? 4 * (count m + 1)) eqn:X.
  2:{ destruct (insert_now_entry P (S (S f)) m ks vs k v t W Sp Pk T Hp ltac:(lia)) as (m' & E & _).
      exists true, m', t. split; [exact E|lia]. }
  set (s3 := S (S (S f))). cbn [HashModel.insert_run]. unfold check at 1. rewrite (! wf_asserted m ks vs W).
  rewrite (proj2 (! tomb_not k) T). rewrite (too_full_iff m ks vs W), X.
  change (fun m' k' v' t' => if true then _ else _) with (fun m' k' v' t' => insert_run s3 true m' k' v' t').
  pose proof (! grow_ok True (fun m' k' v' t' => insert_run s3 true m' k' v' t') m ks vs t) as G.
  match type of G with ?A -> _ => assert (HA : A) end.
  { intros _ m1 ks1 vs1 k1 v1 t1 W1 _ T1.
    pose proof (! insert_run_ok s3 true m1 ks1 vs1 k1 v1 t1 W1 T1 ltac:(discriminate)) as Q.
    unfold ins_post in *. destruct (insert_run _ _ _ _ _ _) as [[[[] m2] t2]| |]; try exact Q. exact I. }
  specialize (G HA W).
  unfold grow in *. cbv zeta in *.
  change (2 ^ 63) with 9223372036854775808 in C2.
  assert (E2 : w64 (capacity m * 2) = capacity m * 2) by (unfold w64; apply N.mod_small; lia).
  rewrite E2 in *.
  destruct (negb _ || negb _) eqn:Gr; [eexists _, _, _; split; [reflexivity|lia]|].
  unfold check in *. destruct (_ && _); [|contradiction].
  set (new := Map (Mem (repeat tomb _)) (Mem (repeat None _)) 0 (capacity m * 2)) in *.
  assert (Bk : capacity m * 2 * ksize < 2 ^ 63 /\ capacity m * 2 * vsize < 2 ^ 63).
  { pose proof (wf_kbytes W) as Kb. pose proof (wf_vbytes W) as Vb.
    change (2 ^ 63) with 9223372036854775808 in Kb, Vb.
    assert (Ek : w64 (capacity m * 2 * ksize) = capacity m * 2 * ksize) by (unfold w64; apply N.mod_small; nia).
    assert (Ev : w64 (capacity m * 2 * vsize) = capacity m * 2 * vsize) by (unfold w64; apply N.mod_small; nia).
    rewrite Ek, Ev in Gr. apply orb_false_iff in Gr. destruct Gr as [G1 G2]. apply negb_false_iff in G1, G2.
    split; eapply grant_ok; eassumption. }
  assert (Wn : wf new (repeat tomb (N.to_nat (capacity m * 2))) (repeat None (N.to_nat (capacity m * 2)))).
  { apply (! wf_empty); [|apply Bk|apply Bk]. destruct (wf_pow W) as (j & Hj & Ej). exists (j + 1). split; [lia|].
    rewrite Ej, N.pow_add_r. reflexivity. }
  destruct (rehash_now P (S f) (N.to_nat (capacity m)) 0 m ks vs new _ _ (S (S t)) W Wn ltac:(lia)) as (old' & new' & Er & Cn).
  { cbn [new capacity]. rewrite N.mul_comm. exact Sp2. }
  { exact Hp. }
  { intros x I Tx. apply repeat_spec in I. congruence. }
  { cbn [new count capacity skipn]. lia. }
  change (N.of_nat 0) with 0 in Er. subst s3. rewrite Er in *.
  assert (Df : destroy K V old' <> Fuel).
  { intros Q. unfold destroy, check, free in Q. cbv zeta in Q. destruct (negb _ || _) in Q; [|discriminate Q].
    destruct (keys old') in Q; try discriminate Q; destruct (values old') in Q; discriminate Q. }
  destruct (destroy K V old') as [d| |]; [|contradiction|congruence]. clear Df.
  destruct G as (_ & ks' & vs' & W' & Cp' & S' & Cn' & X').
  destruct (insert_now P (S (S f)) new' ks' vs' k v (S (S t)) W') as (m' & E & _).
  { rewrite Cn. cbn [new capacity]. rewrite N.mul_comm. exact Sp2. }
  { exact Pk. }
  { exact T. }
  { intros x I Tx. destruct (! in_stored _ _ _ x W' Tx I) as (vx & Sx). apply (S' x vx Tx) in Sx.
    apply Hp; [apply (! stored_in) in Sx; exact Sx|exact Tx]. }
  { lia. }
  exists true, m', (S (S t)). split; [exact E|lia].
Qed.

Lemma sparse_insert : forall (P : K -> Prop) m ks vs k v t, wf m ks vs -> sparse hash P (capacity m) ->
  sparse hash P (2 * capacity m) -> P k -> k <> tomb -> (forall x, In x ks -> x <> tomb -> P x) ->
  exists b m' t', insert m k v t = Ret (b, m', t') /\ (t' <= t + copies K copy_bytes k + 2)%nat.
Proof using All.
  intros P m ks vs k v t W Sp Sp2 Pk T Hp. unfold HashModel.insert, copies. rewrite (proj2 (! tomb_not k) T).
  destruct (copy_bytes k) as [b|].
  - destruct (grant t b).
    + destruct (sparse_insert_run P 196 m ks vs k v (S t) W Sp Sp2 Pk T Hp) as (b' & m' & t' & E & L).
      exists b', m', t'. split; [exact E|lia].
    + exists false, m, (S t). split; [reflexivity|lia].
  - destruct (sparse_insert_run P 196 m ks vs k v t W Sp Sp2 Pk T Hp) as (b' & m' & t' & E & L).
    exists b', m', t'. split; [exact E|lia].
Qed.
End Sparse.
