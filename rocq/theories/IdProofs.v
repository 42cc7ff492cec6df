(** The id allocators under every history of a client. *)
From Coq Require Import ZArith List Bool Lia ZifyBool.
From Verif Require Import Base IdModel.
Import ListNotations.
Local Open Scope Z_scope.

Lemma check_true : forall dbg A b (k : option A), b = true -> check dbg b k = k.
Proof. intros dbg A b k ->. unfold check, assert_. destruct dbg; reflexivity. Qed.
Lemma u32_small : forall z, 0 <= z < 2 ^ 32 -> u32 z = z.
Proof. intros. unfold u32. now apply Z.mod_small. Qed.
Lemma s32_small : forall z, 0 <= z < 2 ^ 31 -> s32 z = z.
Proof. intros z H. unfold s32. rewrite u32_small by lia. destruct (Z.ltb_spec z (2 ^ 31)); lia. Qed.
Lemma int32_small : forall z, - 2 ^ 31 <= z < 2 ^ 31 -> int32 z = Some z.
Proof. intros z H. unfold int32. assert (E : (- 2 ^ 31 <=? z) && (z <? 2 ^ 31) = true) by lia. now rewrite E. Qed.
Lemma next_capacity_bounds : forall c, 0 <= c -> c < next_capacity c /\ 2 * next_capacity c <= 3 * c + 6.
Proof.
  intros c H. unfold next_capacity. pose proof (Z.div_mod (c + 2) 2 ltac:(lia)). pose proof (Z.mod_pos_bound (c + 2) 2 ltac:(lia)).
  set (q := (c + 2) / 2) in *. clearbody q. lia.
Qed.

(** * Plain ids *)

(** What a client does: create, destroy a live id, write to the storage of a live id. *)
Inductive op := Create (realloc_ok : bool) | Destroy (id : Z) | Poke (id v : Z).
(** The live ids, and the destroyed ones, latest first. *)
Record client := Client { a : ids; live : list Z; freed : list Z }.

Definition exec (dbg : bool) (c : client) (o : op) : option client :=
  match o with
  | Create realloc_ok =>
    ' (a', id) <- fixed_create dbg (a c) realloc_ok ;;
    Some (if id =? 0 then Client a' (live c) (freed c) else Client a' (id :: live c) (remove Z.eq_dec id (freed c)))
  | Destroy id =>
    a' <- fixed_destroy dbg (a c) id ;; Some (Client a' (remove Z.eq_dec id (live c)) (id :: freed c))
  | Poke id v =>
    match fixed_data (a c) id with
    | Some off => a' <- store (a c) off v ;; Some (Client a' (live c) (freed c))
    | None => None
    end
  end.
(** All of the memory stays below 2^31 octets; only live ids are destroyed or used. *)
Definition allowed (c : client) (o : op) : Prop :=
  match o with
  | Create _ => (size (a c) + 1) * asize (a c) <= 2 ^ 31
  | Destroy id | Poke id _ => In id (live c)
  end.

Inductive history (dbg : bool) (initial elements : Z) : client -> Prop :=
| H_new a0 : fixed_new dbg initial elements true = Some a0 -> history dbg initial elements (Client a0 [] [])
| H_step c o c' : history dbg initial elements c -> allowed c o -> exec dbg c o = Some c' -> history dbg initial elements c'.

(** The free list. *)
Fixpoint chain (h : Z -> option Z) (n : Z) (f : Z) (l : list Z) : Prop :=
  match l with
  | [] => f < 0
  | x :: r => f = x - 1 /\ exists g, h ((x - 1) * n) = Some g /\ chain h n g r
  end.
Record inv (c : client) : Prop := {
  i_elem : 4 <= asize (a c);
  i_size : 0 <= size (a c) <= cap (a c);
  i_cap : 0 < cap (a c);
  i_bytes : size (a c) * asize (a c) <= 2 ^ 31;
  i_chain : chain (heap (a c)) (asize (a c)) (free (a c)) (freed c);
  i_nodup : NoDup (live c ++ freed c);
  i_ids : forall id, In id (live c ++ freed c) <-> 1 <= id <= size (a c) }.

Lemma chain_ext : forall l h h' n f, (forall x, In x l -> h' ((x - 1) * n) = h ((x - 1) * n)) -> chain h n f l -> chain h' n f l.
Proof.
  induction l as [|x l IH]; intros h h' n f E; cbn [chain]; [auto|]. intros (F & g & G & C). split; [exact F|].
  exists g. split; [rewrite E; [exact G|now left]|]. apply (IH h); [|exact C]. intros y Hy. apply E. now right.
Qed.
Lemma NoDup_remove_app : forall l r x, NoDup (l ++ r) -> In x l -> NoDup (remove Z.eq_dec x l ++ x :: r).
Proof.
  induction l as [|y l IH]; intros r x H I; [destruct I|]. cbn [app] in H. apply NoDup_cons_iff in H as [H1 H2].
  cbn [remove]. destruct (Z.eq_dec x y) as [->|Hne].
  - rewrite notin_remove by (intros Q; apply H1; apply in_or_app; now left).
    apply NoDup_Add with (a := y) (l := l ++ r); [apply Add_app|]. split; assumption.
  - destruct I as [I|I]; [congruence|]. cbn [app]. constructor; [|now apply IH].
    intros Q. apply in_app_or in Q as [Q|[Q|Q]].
    + apply in_remove in Q. apply H1. apply in_or_app. left. tauto.
    + congruence.
    + apply H1. apply in_or_app. now right.
Qed.
Lemma in_remove_app : forall l r x y, In x l -> In y (remove Z.eq_dec x l ++ x :: r) <-> In y (l ++ r).
Proof.
  intros l r x y I. rewrite !in_app_iff. cbn [In]. split.
  - intros [Q|[->|Q]]; [apply in_remove in Q; tauto|now left|now right].
  - intros [Q|Q]; [|tauto]. destruct (Z.eq_dec y x) as [->|Hn]; [tauto|]. left. now apply in_in_remove.
Qed.

Lemma id_bounds : forall c id, inv c -> In id (live c ++ freed c) ->
  1 <= id <= size (a c) /\ 0 <= (id - 1) * asize (a c) /\ (id - 1) * asize (a c) + asize (a c) <= size (a c) * asize (a c) /\
  fixed_data (a c) id = Some ((id - 1) * asize (a c)) /\ inside_heap (a c) ((id - 1) * asize (a c)) = true.
Proof.
  intros c id I H. apply (i_ids _ I) in H. pose proof (i_elem _ I). pose proof (i_size _ I). pose proof (i_bytes _ I).
  assert (B : 0 <= (id - 1) * asize (a c) /\ (id - 1) * asize (a c) + asize (a c) <= size (a c) * asize (a c)) by nia.
  split; [exact H|]. split; [tauto|]. split; [tauto|]. split.
  - unfold fixed_data. assert (id < 2 ^ 31) by nia. rewrite s32_small by lia. rewrite (u32_small (id - 1)) by lia.
    assert (T : (0 <? id) && (id - 1 <? size (a c)) = true) by lia. rewrite T, u32_small by lia. reflexivity.
  - unfold inside_heap. assert (size (a c) * asize (a c) <= cap (a c) * asize (a c)) by nia. lia.
Qed.

Lemma off_inj : forall n x y, 4 <= n -> (x - 1) * n = (y - 1) * n -> x = y.
Proof. intros n x y H E. apply Z.mul_reg_r in E; lia. Qed.

(** Creating: the latest destroyed id if there is one, the next number otherwise; or failure. *)
Lemma create_eq : forall dbg c realloc_ok, inv c -> (size (a c) + 1) * asize (a c) <= 2 ^ 31 ->
  exists a' id, fixed_create dbg (a c) realloc_ok = Some (a', id) /\ asize a' = asize (a c) /\ heap a' = heap (a c) /\
    cap (a c) <= cap a' /\
    match freed c with
    | x :: r => id = x /\ size a' = size (a c) /\ cap a' = cap (a c) /\ chain (heap a') (asize a') (free a') r
    | [] => free a' = free (a c) /\
            ((id = size (a c) + 1 /\ size a' = id /\ id <= cap a') \/
             (id = 0 /\ size a' = size (a c) /\ cap a' = cap (a c) /\ size (a c) = cap (a c) /\ realloc_ok = false))
    end.
Proof.
  intros dbg c ro I Hb. pose proof (i_elem _ I) as E4. pose proof (i_size _ I) as Es. pose proof (i_cap _ I) as Ec.
  unfold fixed_create. rewrite check_true by lia. unfold fixed_pop. pose proof (i_chain _ I) as C.
  destruct (freed c) as [|x r] eqn:Ef.
  - cbn [chain] in C. destruct (Z.leb_spec 0 (free (a c))); [lia|]. cbn [negb Z.eqb].
    assert (Hs : size (a c) + 1 < 2 ^ 30) by nia.
    unfold grow. destruct (Z.leb_spec (cap (a c)) (size (a c))) as [G|G]; cbn [andb].
    + destruct (next_capacity_bounds (cap (a c)) ltac:(lia)) as [N1 N2]. destruct ro; cbv zeta; cbn [size cap free asize heap].
      * rewrite s32_small by lia. destruct (Z.ltb_spec (size (a c)) (next_capacity (cap (a c)))); [|lia].
        rewrite int32_small by lia. rewrite check_true by lia. rewrite u32_small by lia.
        eexists _, _. split; [reflexivity|]. cbn [size cap free asize heap]. repeat split; lia.
      * destruct (Z.ltb_spec (size (a c)) (cap (a c))); [lia|]. eexists _, _. split; [reflexivity|]. repeat split; lia.
    + cbv zeta. destruct (Z.ltb_spec (size (a c)) (cap (a c))); [|lia].
      rewrite int32_small by lia. rewrite check_true by lia. rewrite u32_small by lia.
      eexists _, _. split; [reflexivity|]. cbn [size cap free asize heap]. repeat split; lia.
  - cbn [chain] in C. destruct C as (F & g & G & C).
    assert (Hx : In x (live c ++ freed c)) by (rewrite Ef; apply in_or_app; right; now left).
    destruct (id_bounds c x I Hx) as (X1 & X2 & X3 & X4 & X5). pose proof (i_bytes _ I) as Eb.
    assert (size (a c) < 2 ^ 30) by nia.
    destruct (Z.leb_spec 0 (free (a c))); [|lia]. rewrite check_true by lia. rewrite F, int32_small by lia.
    unfold load. rewrite X5, G. replace (x - 1 + 1) with x by lia. rewrite u32_small by lia.
    destruct (Z.eqb_spec x 0); [lia|]. cbn [negb]. eexists _, _. split; [reflexivity|]. cbn [size cap free asize heap]. repeat split; try lia. exact C.
Qed.

Lemma destroy_eq : forall dbg c id, inv c -> In id (live c) ->
  fixed_destroy dbg (a c) id = Some (Ids (size (a c)) (cap (a c)) (id - 1) (asize (a c)) (heap_set (heap (a c)) ((id - 1) * asize (a c)) (free (a c)))).
Proof.
  intros dbg c id I H. destruct (id_bounds c id I ltac:(apply in_or_app; now left)) as (X1 & X2 & X3 & X4 & X5).
  pose proof (i_bytes _ I) as Eb. pose proof (i_elem _ I). assert (size (a c) < 2 ^ 30) by nia.
  unfold fixed_destroy. rewrite X4. unfold fixed_push. rewrite check_true by lia. rewrite (u32_small (id - 1)) by lia.
  rewrite u32_small by lia. unfold store. rewrite X5. cbn [size cap free asize heap]. rewrite s32_small by lia. reflexivity.
Qed.

Lemma heap_set_same : forall h x v, heap_set h x v x = Some v.
Proof. intros. unfold heap_set. now rewrite Z.eqb_refl. Qed.
Lemma heap_set_other : forall h x v y, y <> x -> heap_set h x v y = h y.
Proof. intros h x v y H. unfold heap_set. destruct (Z.eqb_spec y x); [congruence|reflexivity]. Qed.

Lemma step_inv : forall dbg c o c', inv c -> allowed c o -> exec dbg c o = Some c' -> inv c'.
Proof.
  intros dbg c o c' I D E. pose proof (i_elem _ I) as E4. pose proof (i_size _ I) as Es. pose proof (i_cap _ I) as Ec. pose proof (i_bytes _ I) as Eb.
  destruct o as [ro|id|id v]; cbn [exec allowed] in *.
  - destruct (create_eq dbg c ro I D) as (a' & id & Ea & A1 & A2 & A3 & R). rewrite Ea in E.
    pose proof (i_chain _ I) as C. pose proof (i_nodup _ I) as Nd. pose proof (i_ids _ I) as Ii.
    destruct (freed c) as [|x r] eqn:Ef.
    + destruct R as (F & [(-> & Z1 & Z2)|(-> & Z1 & Z2 & Z3 & Z4)]).
      * destruct (Z.eqb_spec (size (a c) + 1) 0); [lia|]. inversion E; subst c'. clear E. cbn [remove] in *.
        constructor; cbn [a live freed]; rewrite ?A1, ?A2, ?F, ?Z1; try lia; [exact C| |].
        -- cbn [app]. constructor; [|exact Nd]. rewrite Ii. lia.
        -- intros id. cbn [app In]. rewrite Ii. lia.
      * cbn in E. inversion E; subst c'. clear E. constructor; cbn [a live freed]; rewrite ?A1, ?A2, ?F, ?Z1; try lia; try assumption.
    + destruct R as (-> & Z1 & Z2 & Z3).
      assert (Hx : 1 <= x <= size (a c)) by (apply Ii; apply in_or_app; right; now left).
      destruct (Z.eqb_spec x 0); [lia|].
      apply NoDup_remove in Nd as [Nd Ni].
      assert (Er : remove Z.eq_dec x (x :: r) = r).
      { cbn [remove]. destruct (Z.eq_dec x x); [|congruence]. apply notin_remove. intros Q. apply Ni. apply in_or_app. now right. }
      rewrite Er in E. inversion E; subst c'. clear E. constructor; cbn [a live freed]; rewrite ?A1, ?A2, ?Z1, ?Z2; try lia.
      * rewrite <- A1, <- A2. exact Z3.
      * cbn [app]. constructor; assumption.
      * intros id. rewrite <- Ii. cbn [app In]. rewrite !in_app_iff. cbn [In]. tauto.
  - rewrite (destroy_eq dbg c id I D) in E. inversion E; subst c'. clear E.
    pose proof (i_nodup _ I) as Nd.
    constructor; cbn [a live freed size cap free asize heap]; try assumption.
    + cbn [chain]. split; [reflexivity|]. exists (free (a c)). split; [apply heap_set_same|].
      apply chain_ext with (heap (a c)); [|exact (i_chain _ I)]. intros y Hy. apply heap_set_other. intros Q.
      apply off_inj in Q; [|exact E4]. subst y. apply (in_split id) in D as (l1 & l2 & El). rewrite El in Nd.
      rewrite <- app_assoc in Nd. cbn [app] in Nd. apply NoDup_remove_2 in Nd. apply Nd. rewrite !in_app_iff. tauto.
    + now apply NoDup_remove_app.
    + intros y. rewrite in_remove_app by assumption. apply (i_ids _ I).
  - destruct (id_bounds c id I ltac:(apply in_or_app; now left)) as (X1 & X2 & X3 & X4 & X5). rewrite X4 in E.
    unfold store in E. rewrite X5 in E. inversion E; subst c'. clear E. pose proof (i_nodup _ I) as Nd.
    constructor; cbn [a live freed size cap free asize heap]; try assumption; [|exact (i_ids _ I)].
    apply chain_ext with (heap (a c)); [|exact (i_chain _ I)]. intros y Hy. apply heap_set_other. intros Q.
    apply off_inj in Q; [|exact E4]. subst y. apply (in_split id) in D as (l1 & l2 & El). rewrite El in Nd.
    rewrite <- app_assoc in Nd. cbn [app] in Nd. apply NoDup_remove_2 in Nd. apply Nd. rewrite !in_app_iff. tauto.
Qed.

Lemma history_inv : forall dbg initial elements c, 1 <= initial -> 4 <= elements -> initial * elements < 2 ^ 31 ->
  history dbg initial elements c -> inv c.
Proof.
  intros dbg initial elements c H1 H2 H3 H. induction H as [a0 E|c o c' H IH D E].
  - unfold fixed_new in E. rewrite check_true in E by lia. destruct (Z.leb_spec initial 0); [lia|].
    rewrite int32_small in E by lia. inversion E; subst a0. constructor; cbn [a live freed size cap free asize heap app chain]; try lia; [constructor|].
    intros id. cbn. lia.
  - now apply (step_inv dbg c o c').
Qed.

(** Every allowed call runs through. *)
Lemma exec_total : forall dbg c o, inv c -> allowed c o -> exists c', exec dbg c o = Some c'.
Proof.
  intros dbg c o I D. destruct o as [ro|id|id v]; cbn [exec allowed] in *.
  - destruct (create_eq dbg c ro I D) as (a' & id & Ea & _). rewrite Ea. eexists; reflexivity.
  - rewrite (destroy_eq dbg c id I D). eexists; reflexivity.
  - destruct (id_bounds c id I ltac:(apply in_or_app; now left)) as (X1 & X2 & X3 & X4 & X5). rewrite X4.
    unfold store. rewrite X5. eexists; reflexivity.
Qed.
