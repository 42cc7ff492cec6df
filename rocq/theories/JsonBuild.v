(** Documents: every JSON text is read completely, and the document represents it. *)
From Coq Require Import Arith NArith List Bool Lia ZifyBool ZifyNat ZifyN.
From Verif Require Import Base UniSpec JsonModel JsonSpec JsonString JsonLex JsonTok JsonSkip JsonCopy JsonDom.
Import ListNotations.
Local Open Scope N_scope.

(** ** Memory *)

Definition costs_o (ms : list (list N * tree)) : N := fold_right (fun m k => cost (snd m) + k) 0 ms.
Definition costs_a (vs : list tree) : N := fold_right (fun v k => cost v + k) 0 vs.

Lemma cost_bound d :
  (forall s t, value d s t -> cost t <= 32 * N.of_nat (length s))
  /\ (forall s m, member d s m -> 48 + cost (snd m) <= 32 * N.of_nat (length s))
  /\ (forall u ms, object_tail d u ms ->
        7 + 48 * N.of_nat (length ms) + costs_o ms <= 32 * N.of_nat (length u))
  /\ (forall u vs, array_tail d u vs ->
        7 + 32 * N.of_nat (length vs) + costs_a vs <= 32 * N.of_nat (length u)).
Proof.
  apply value_mutind; intros; cbn [cost costs_o costs_a fold_right snd length];
    repeat (progress (rewrite ?app_length; cbn [length])); try lia.
  - unfold quoted. cbn [length]. rewrite app_length. cbn [length]. lia.
  - change (fold_right (fun m k => cost (snd m) + k) 0 ms) with (costs_o ms). lia.
  - change (fold_right (fun m k => cost m + k) 0 vs) with (costs_a vs). lia.
  - unfold quoted. cbn [length]. rewrite app_length. cbn [length]. lia.
  - change (fold_right (fun m k => cost (snd m) + k) 0 ms) with (costs_o ms). lia.
  - change (fold_right (fun m k => cost m + k) 0 vs) with (costs_a vs). lia.
Qed.

Definition fits (a : alloc) (k : N) : Prop := a_size a + k <= a_cap a /\ a_cap a < 2 ^ 64.
Definition spent (a : alloc) (k : N) (a' : alloc) : Prop :=
  a_cap a' = a_cap a /\ a_size a' <= a_size a + k.

Lemma spent_refl a k : spent a k a.
Proof. unfold spent. lia. Qed.
Lemma spent_fits a j k a' : fits a (j + k) -> spent a j a' -> fits a' k.
Proof. unfold fits, spent. lia. Qed.
Lemma spent_trans a j a1 k a2 : spent a j a1 -> spent a1 k a2 -> spent a (j + k) a2.
Proof. unfold spent. lia. Qed.

Lemma allocate_8 a n : fits a (7 + n) -> exists a', allocate a n 8 = Some a' /\ spent a (7 + n) a'.
Proof.
  intros (F & C). unfold allocate. cbv zeta. change (8 - 1) with (N.ones 3).
  set (x := sub64 8 _). rewrite N.land_ones. assert (X : x mod 2 ^ 3 < 2 ^ 3) by (apply N.mod_lt; discriminate).
  revert X. generalize (x mod 2 ^ 3). intros o X. change (2 ^ 3) with 8 in X.
  unfold w64. rewrite N.mod_small by (change W64 with (2 ^ 64); lia).
  destruct (N.ltb_spec (a_cap a) (a_size a + o + n)); [lia|].
  eexists. split; [reflexivity|]. unfold spent. cbn [a_size a_cap]. lia.
Qed.

Lemma allocate_string a s : fits a (2 * N.of_nat (length s)) -> forall o, stored s o ->
  exists a', allocate_unescaped a s = Some (VString o, a') /\ spent a (2 * N.of_nat (length s)) a'.
Proof.
  intros (F & C) o ST. unfold allocate_unescaped, allocate. cbv zeta. change (1 - 1) with 0.
  rewrite N.land_0_r, N.add_0_r. unfold w64 at 1 2.
  rewrite N.mod_small by (change W64 with (2 ^ 64); lia).
  destruct (N.ltb_spec (a_cap a) (a_size a + N.of_nat (length s))); [lia|].
  destruct (copy_string_some s (length s) (le_n _)) as (o' & CO & L).
  pose proof (copy_string_stored s o (length s) (le_n _) ST) as CS.
  assert (o' = o) by congruence. subst o'. rewrite CS.
  eexists. split; [reflexivity|].
  destruct (N.ltb_spec 0 (N.of_nat (length s) - N.of_nat (length o))); unfold spent; cbn [a_size a_cap].
  - unfold w64. rewrite N.mod_small by (change W64 with (2 ^ 64); lia). lia.
  - lia.
Qed.

(** ** Values *)

Definition at_ (buf : list N) (z : list N) (t : tok) (r : reader) : Prop :=
  rest r = z /\ last r = t /\ err r = JOk /\ inside buf r.

Definition ends_root (z : list N) (t : tree) : Prop :=
  z <> [] \/ match t with Scalar YInt _ | Scalar YUInt _ => False | _ => True end.

(** What happens at a value: its first token, and then the second pass and the first pass. *)
Definition value_steps (fl : N) (s : list N) (t : tree) : Prop :=
  forall c buf r p l z, prefix (dialect_of fl) c (last r) p l -> follows c (root r) l ->
    rest r = p ++ s ++ z -> follow_ok z -> ends_root z t -> err r = JOk -> inside buf r ->
  exists t0 r1, next_token fl c r = Some (t0, r1) /\ err r1 = JOk /\ inside buf r1 /\ last r1 = t0 /\
  ((t0 = TValue /\ rest r1 = z
    /\ forall a, fits a (cost t) -> exists v a', token_value buf r1 a = Some (v, a')
         /\ repr stored t v /\ spent a (cost t) a')
   \/ (t0 = TObjectStart /\ (exists r2, skipB fl true 1 r1 = Some (true, r2)
         /\ rest r2 = z /\ last r2 = TObjectEnd /\ err r2 = JOk)
       /\ forall a n, fits a (cost t) -> (2 * length s <= S n)%nat ->
         exists r2 a' v, read_object n fl buf r1 a = Some (JOk, r2, a', v)
           /\ at_ buf z TObjectEnd r2 /\ repr stored t v /\ spent a (cost t) a')
   \/ (t0 = TArrayStart /\ (exists r2, skipB fl false 1 r1 = Some (true, r2)
         /\ rest r2 = z /\ last r2 = TArrayEnd /\ err r2 = JOk)
       /\ forall a n, fits a (cost t) -> (2 * length s <= S n)%nat ->
         exists r2 a' v, read_array n fl buf r1 a = Some (JOk, r2, a', v)
           /\ at_ buf z TArrayEnd r2 /\ repr stored t v /\ spent a (cost t) a')).

(** What happens at a member, [pc] is the comma in front of it. *)
Definition before (l : tok) (pc : list N) (s : tok) : Prop :=
  (l = s /\ pc = []) \/ (ended l /\ exists w, ws w /\ pc = w ++ [44]).

Definition member_steps (fl : N) (s : list N) (m : list N * tree) : Prop :=
  forall buf r pc z, before (last r) pc TObjectStart -> rest r = pc ++ s ++ z -> follow_ok z -> z <> [] ->
    err r = JOk -> inside buf r ->
  (forall n k, exists r2, count_members (S n) fl r k = count_members n fl r2 (S k)
     /\ rest r2 = z /\ ended (last r2) /\ err r2 = JOk)
  /\ (forall n a cap acc, fits a (cost (snd m)) -> (2 * length s <= S (S (S (S n))))%nat ->
       (length acc < cap)%nat ->
       exists r2 a' v, object_loop (S (S n)) fl buf r a cap acc = object_loop n fl buf r2 a' cap ((fst m, v) :: acc)
         /\ rest r2 = z /\ ended (last r2) /\ err r2 = JOk /\ inside buf r2
         /\ repr stored (snd m) v /\ spent a (cost (snd m)) a').

Definition object_steps (fl : N) (u : list N) (ms : list (list N * tree)) : Prop :=
  forall buf r z, rest r = u ++ z -> ended (last r) -> err r = JOk -> inside buf r ->
  (forall n k, (length ms < n)%nat -> count_members n fl r k = Some (inr (k + length ms)%nat))
  /\ (forall n a cap acc, fits a (costs_o ms) -> (2 * length u <= S n)%nat ->
       cap = (length acc + length ms)%nat ->
       exists r2 a' ns, object_loop n fl buf r a cap acc = Some (JOk, r2, a', VObject cap (rev acc ++ ns))
         /\ Forall2 (fun m v => fst m = fst v /\ repr stored (snd m) (snd v)) ms ns
         /\ at_ buf z TObjectEnd r2 /\ spent a (costs_o ms) a').

Definition array_steps (fl : N) (u : list N) (vs : list tree) : Prop :=
  forall buf r z, rest r = u ++ z -> ended (last r) -> err r = JOk -> inside buf r ->
  (forall n k, (length vs < n)%nat -> count_values n fl r k = Some (inr (k + length vs)%nat))
  /\ (forall n a cap acc, fits a (costs_a vs) -> (2 * length u <= S n)%nat ->
       cap = (length acc + length vs)%nat ->
       exists r2 a' ns, array_loop n fl buf r a cap acc = Some (JOk, r2, a', VArray cap (rev acc ++ ns))
         /\ Forall2 (repr stored) vs ns
         /\ at_ buf z TArrayEnd r2 /\ spent a (costs_a vs) a').

Lemma scalar_steps fl s ty tk : plain_flags fl -> ty <> YString ->
  value (dialect_of fl) s (Scalar ty tk) -> value_steps fl s (Scalar ty tk).
Proof.
  intros PF NS V c buf r p l z P F R FO ER E I.
  destruct (next_token_complete fl c r p l s TValue (Some (ty, tk)) z PF P)
    as (r1 & T & R1 & M & L1 & (VT & CU) & _); auto.
  { now constructor. }
  exists TValue, r1. split; [exact T|]. split; [destruct M as (_ & _ & M); congruence|].
  split; [eapply moved_inside; eauto|]. split; [exact L1|].
  left. split; [reflexivity|]. split; [exact R1|].
  intros a _. exists (VScalar ty tk), a. split; [|split; [constructor|apply spent_refl]].
  unfold token_value. rewrite VT, (CU buf I).
  - destruct ty; auto; congruence.
  - destruct ER as [ER|ER]; [now left|right]. destruct ty; auto; split; congruence.
Qed.

Lemma string_steps fl raw o : plain_flags fl -> unescape raw o -> value_steps fl (quoted raw) (Str raw).
Proof.
  intros PF U c buf r p l z P F R FO ER E I.
  destruct (next_token_complete fl c r p l (quoted raw) TValue (Some (YString, raw)) z PF P)
    as (r1 & T & R1 & M & L1 & (VT & CU) & _); auto.
  { econstructor; eauto. }
  exists TValue, r1. split; [exact T|]. split; [destruct M as (_ & _ & M); congruence|].
  split; [eapply moved_inside; eauto|]. split; [exact L1|].
  left. split; [reflexivity|]. split; [exact R1|].
  intros a FI. destruct (unescape_stored raw o U) as [o' ST].
  destruct (allocate_string a raw FI o' ST) as (a' & A & SP).
  exists (VString o'), a'. split; [|split; [now constructor|exact SP]].
  unfold token_value. rewrite VT, (CU buf I); auto. right. split; discriminate.
Qed.

Lemma before_prefix d c l pc s w : c <> CNull -> before l pc s -> ws w ->
  exists l', prefix d c l (pc ++ w) l' /\ (l' = s \/ l' = TComma).
Proof.
  intros NC [(-> & ->)|(EN & w0 & W0 & ->)] W.
  - exists s. split; [now constructor|auto].
  - exists TComma. split; [|auto]. rewrite <- app_assoc. cbn [app]. constructor; auto.
Qed.

Lemma member_ok fl w1 raw o w2 x w3 s v : plain_flags fl ->
  ws w1 -> unescape raw o -> ws w2 -> colon (dialect_of fl) x -> ws w3 ->
  value_steps fl s v -> member_steps fl (w1 ++ quoted raw ++ w2 ++ x :: w3 ++ s) (raw, v).
Proof.
  intros PF W1 U W2 C W3 VS buf r pc z B R FO NZ E I.
  destruct (before_prefix (dialect_of fl) CObject (last r) pc TObjectStart w1) as (l' & P & L'); auto; [discriminate|].
  destruct (next_token_complete fl CObject r (pc ++ w1) l' (quoted raw) TPropertyName (Some (YString, raw))
     (w2 ++ x :: w3 ++ s ++ z) PF P) as (r1 & T & R1 & M & L1 & (VT & CU) & _).
  { econstructor; eauto. }
  { rewrite R. app_norm. }
  { discriminate. }
  assert (E1 : err r1 = JOk) by (destruct M as (_ & _ & M); congruence).
  assert (I1 : inside buf r1) by (eapply moved_inside; eauto).
  assert (P1 : prefix (dialect_of fl) CObject (last r1) (w2 ++ x :: w3) TPropertyColon) by (constructor; auto).
  destruct (VS CObject buf r1 (w2 ++ x :: w3) TPropertyColon z P1 eq_refl) as (t0 & r2 & T2 & E2 & I2 & L2 & V); auto.
  { rewrite R1. app_norm. }
  { now left. }
  assert (ST : skip_to_content (S (length (rest r1))) fl CObject r1 =
    match t0 with
      | TObjectStart | TArrayStart => Some (inr r2)
      | TValue => Some (inl (true, r2))
      | _ => skip_to_content (S (length (rest r1))) fl CObject r1
      end).
  { cbn [skip_to_content]. rewrite T2, E2. destruct V as [(-> & _)|[(-> & _)|(-> & _)]]; reflexivity. }
  assert (RN : exists y q, rest r1 = y :: q).
  { rewrite R1. destruct w2; cbn; eauto. }
  destruct RN as (y & q & RN).
  split.
  - intros n k. cbn [count_members]. rewrite T.
    assert (SC : exists b r3, skip_current fl CObject r1 = Some (b, r3) /\ rest r3 = z /\ ended (last r3) /\ err r3 = JOk).
    { unfold skip_current. rewrite E1, RN, L1. cbn [err_ok negb]. rewrite RN in ST. rewrite ST.
      destruct V as [(-> & R2 & _)|[(-> & (r3 & S3 & R3 & L3 & E3) & _)|(-> & (r3 & S3 & R3 & L3 & E3) & _)]].
      - exists true, r2. rewrite L2. repeat split; auto. right. now right.
      - rewrite L2. exists true, r3. split; [exact S3|]. rewrite L3. repeat split; auto. now left.
      - rewrite L2. exists true, r3. split; [exact S3|]. rewrite L3. repeat split; auto. right. now left. }
    destruct SC as (b & r3 & SC & R3 & L3 & E3). rewrite SC. exists r3. auto.
  - intros n a cap acc FI LN LC. cbn [object_loop]. rewrite T.
    destruct (Nat.ltb_spec (length acc) cap); [|lia]. cbn [member_loop]. rewrite T2.
    rewrite (CU buf I) by (right; split; discriminate). cbn [fst snd] in *.
    assert (LS : (2 * length s <= S n)%nat).
    { rewrite !app_length in LN. unfold quoted in LN. cbn [length] in LN. rewrite !app_length in LN.
      cbn [length] in LN. lia. }
    destruct V as [(-> & R2 & V)|[(-> & _ & V)|(-> & _ & V)]].
    + destruct (V a FI) as (v' & a' & TV & RP & SP). rewrite TV. exists r2, a', v'.
      rewrite L2. repeat split; auto; try apply SP. right. now right.
    + destruct (V a n FI LS) as (r3 & a' & v' & TV & (R3 & L3 & E3 & I3) & RP & SP). rewrite TV. cbn [err_ok].
      exists r3, a', v'. rewrite L3. repeat split; auto; try apply SP. now left.
    + destruct (V a n FI LS) as (r3 & a' & v' & TV & (R3 & L3 & E3 & I3) & RP & SP). rewrite TV. cbn [err_ok].
      exists r3, a', v'. rewrite L3. repeat split; auto; try apply SP. right. now left.
Qed.

Lemma end_token fl (obj : bool) buf r p l z : plain_flags fl ->
  prefix (dialect_of fl) (if obj then CObject else CArray) (last r) p l -> ends (dialect_of fl) l ->
  rest r = p ++ [if obj then 125 else 93] ++ z -> err r = JOk -> inside buf r ->
  exists r', next_token fl (if obj then CObject else CArray) r = Some (if obj then TObjectEnd else TArrayEnd, r')
    /\ at_ buf z (if obj then TObjectEnd else TArrayEnd) r'.
Proof.
  intros PF P EN R E I.
  destruct (next_token_complete fl (if obj then CObject else CArray) r p l [if obj then 125 else 93]
     (if obj then TObjectEnd else TArrayEnd) None z PF P) as (r1 & T & R1 & M & L1 & _).
  { destruct obj; now constructor. }
  { exact R. }
  { destruct obj; discriminate. }
  exists r1. split; [exact T|]. split; [exact R1|]. split; [exact L1|].
  split; [destruct M as (_ & _ & M); congruence|]. eapply moved_inside; eauto.
Qed.

Lemma ended_ends d l : ended l -> ends d l.
Proof. intros [->|[-> | ->]]; exact I. Qed.

Lemma follow_ws_app w z : ws w -> (exists c s, z = c :: s /\ (c = 44 \/ c = 93 \/ c = 125)) ->
  follow_ok (w ++ z) /\ w ++ z <> [].
Proof.
  intros W (c & s & -> & C). destruct w as [|y w]; cbn; [split; [tauto|discriminate]|].
  inversion W; subst. split; [auto|discriminate].
Qed.

Lemma object_tail_follow d u ms z : object_tail d u ms -> follow_ok (u ++ z) /\ u ++ z <> [].
Proof.
  intro H. inversion H; subst; rewrite <- app_assoc; (apply follow_ws_app; [auto|]);
    cbn [app]; (eexists _, _; split; [reflexivity|tauto]).
Qed.
Lemma array_tail_follow d u ms z : array_tail d u ms -> follow_ok (u ++ z) /\ u ++ z <> [].
Proof.
  intro H. inversion H; subst; rewrite <- app_assoc; (apply follow_ws_app; [auto|]);
    cbn [app]; (eexists _, _; split; [reflexivity|tauto]).
Qed.

Lemma repr_obj ms ns v : Forall2 (fun m n => fst m = fst n /\ repr stored (snd m) (snd n)) ms ns ->
  v = VObject (length ms) ns -> repr stored (Obj ms) v.
Proof. intros F ->. now constructor. Qed.
Lemma repr_arr vs ns v : Forall2 (repr stored) vs ns -> v = VArray (length vs) ns -> repr stored (Arr vs) v.
Proof. intros F ->. now constructor. Qed.

Lemma object_start_ok fl u ms : plain_flags fl ->
  (exists t, value (dialect_of fl) (123 :: u) t) ->
  (forall buf r z, rest r = u ++ z -> last r = TObjectStart -> err r = JOk -> inside buf r ->
     (forall n k, (length ms < n)%nat -> count_members n fl r k = Some (inr (k + length ms)%nat))
     /\ (forall n a cap, fits a (costs_o ms) -> (2 * length u <= n)%nat -> cap = length ms ->
       exists r2 a' ns, object_loop n fl buf r a cap [] = Some (JOk, r2, a', VObject cap ns)
         /\ Forall2 (fun m v => fst m = fst v /\ repr stored (snd m) (snd v)) ms ns
         /\ at_ buf z TObjectEnd r2 /\ spent a (costs_o ms) a')) ->
  (length ms <= length u)%nat ->
  (exists u', u = u' ++ [125] /\ skips fl true u') ->
  value_steps fl (123 :: u) (Obj ms).
Proof.
  intros PF V H LEN (u' & EU & SK) c buf r p l z P F R FO ER E I.
  destruct (next_token_complete fl c r p l [123] TObjectStart None (u ++ z) PF P)
    as (r1 & T & R1 & M & L1 & _).
  { now constructor. }
  { rewrite R. reflexivity. }
  { discriminate. }
  assert (E1 : err r1 = JOk) by (destruct M as (_ & _ & M); congruence).
  assert (I1 : inside buf r1) by (eapply moved_inside; eauto).
  exists TObjectStart, r1. split; [exact T|]. split; [exact E1|]. split; [exact I1|].
  split; [exact L1|]. right. left. split; [reflexivity|].
  destruct (H buf r1 z R1 L1 E1 I1) as [HC HL]. split.
  - destruct (skip_inner fl true u' z r1 PF SK) as (r2 & S2 & R2 & L2 & E2).
    { rewrite R1, EU. app_norm. }
    exists r2. repeat split; auto. congruence.
  - intros a n FI LN. cbn [length] in LN. destruct n as [|n]; [lia|]. cbn [read_object].
    rewrite HC by (rewrite R1, app_length; lia). cbn [Nat.add].
    cbn [cost] in FI. fold (costs_o ms) in FI.
    destruct (allocate_8 a (48 * N.of_nat (length ms))) as (a1 & AL & SP1).
    { unfold fits in *. lia. }
    assert (WE : w64 (N.of_nat (length ms) * sizeof_node) = 48 * N.of_nat (length ms)).
    { unfold w64, sizeof_node, fits in *. rewrite N.mod_small by (change W64 with (2 ^ 64); lia). lia. }
    rewrite WE, AL.
    destruct (HL n a1 (length ms)) as (r2 & a' & ns & OL & F2 & AT & SP); auto.
    { eapply spent_fits; [|exact SP1]. exact FI. }
    { lia. }
    exists r2, a', (VObject (length ms) ns). split; [exact OL|]. split; [exact AT|].
    split; [now constructor|]. cbn [cost]. fold (costs_o ms). eapply spent_trans; eauto.
Qed.

Lemma array_start_ok fl u vs : plain_flags fl ->
  (forall buf r z, rest r = u ++ z -> last r = TArrayStart -> err r = JOk -> inside buf r ->
     (forall n k, (length vs < n)%nat -> count_values n fl r k = Some (inr (k + length vs)%nat))
     /\ (forall n a cap, fits a (costs_a vs) -> (2 * length u <= n)%nat -> cap = length vs ->
       exists r2 a' ns, array_loop n fl buf r a cap [] = Some (JOk, r2, a', VArray cap ns)
         /\ Forall2 (repr stored) vs ns
         /\ at_ buf z TArrayEnd r2 /\ spent a (costs_a vs) a')) ->
  (length vs <= length u)%nat ->
  (exists u', u = u' ++ [93] /\ skips fl false u') ->
  value_steps fl (91 :: u) (Arr vs).
Proof.
  intros PF H LEN (u' & EU & SK) c buf r p l z P F R FO ER E I.
  destruct (next_token_complete fl c r p l [91] TArrayStart None (u ++ z) PF P)
    as (r1 & T & R1 & M & L1 & _).
  { now constructor. }
  { rewrite R. reflexivity. }
  { discriminate. }
  assert (E1 : err r1 = JOk) by (destruct M as (_ & _ & M); congruence).
  assert (I1 : inside buf r1) by (eapply moved_inside; eauto).
  exists TArrayStart, r1. split; [exact T|]. split; [exact E1|]. split; [exact I1|].
  split; [exact L1|]. right. right. split; [reflexivity|].
  destruct (H buf r1 z R1 L1 E1 I1) as [HC HL]. split.
  - destruct (skip_inner fl false u' z r1 PF SK) as (r2 & S2 & R2 & L2 & E2).
    { rewrite R1, EU. app_norm. }
    exists r2. repeat split; auto. congruence.
  - intros a n FI LN. cbn [length] in LN. destruct n as [|n]; [lia|]. cbn [read_array].
    rewrite HC by (rewrite R1, app_length; lia). cbn [Nat.add].
    cbn [cost] in FI. fold (costs_a vs) in FI.
    destruct (allocate_8 a (32 * N.of_nat (length vs))) as (a1 & AL & SP1).
    { unfold fits in *. lia. }
    assert (WE : w64 (N.of_nat (length vs) * sizeof_value) = 32 * N.of_nat (length vs)).
    { unfold w64, sizeof_value, fits in *. rewrite N.mod_small by (change W64 with (2 ^ 64); lia). lia. }
    rewrite WE, AL.
    destruct (HL n a1 (length vs)) as (r2 & a' & ns & OL & F2 & AT & SP); auto.
    { eapply spent_fits; [|exact SP1]. exact FI. }
    { lia. }
    exists r2, a', (VArray (length vs) ns). split; [exact OL|]. split; [exact AT|].
    split; [now constructor|]. cbn [cost]. fold (costs_a vs). eapply spent_trans; eauto.
Qed.

(** An element of an array. *)
Lemma element_ok fl w s v : plain_flags fl -> ws w -> value_steps fl s v ->
  forall buf r pc z, before (last r) pc TArrayStart -> rest r = pc ++ w ++ s ++ z -> follow_ok z -> z <> [] ->
    err r = JOk -> inside buf r ->
  (forall n k, exists r2, count_values (S n) fl r k = count_values n fl r2 (S k)
     /\ rest r2 = z /\ ended (last r2) /\ err r2 = JOk)
  /\ (forall n a cap acc, fits a (cost v) -> (2 * length s <= S n)%nat ->
       (length acc < cap)%nat ->
       exists r2 a' v', array_loop (S n) fl buf r a cap acc = array_loop n fl buf r2 a' cap (v' :: acc)
         /\ rest r2 = z /\ ended (last r2) /\ err r2 = JOk /\ inside buf r2
         /\ repr stored v v' /\ spent a (cost v) a').
Proof.
  intros PF W VS buf r pc z B R FO NZ E I.
  destruct (before_prefix (dialect_of fl) CArray (last r) pc TArrayStart w) as (l' & P & L'); auto; [discriminate|].
  destruct (VS CArray buf r (pc ++ w) l' z P) as (t0 & r2 & T2 & E2 & I2 & L2 & V); auto.
  { rewrite R. app_norm. }
  { now left. }
  split.
  - intros n k. cbn [count_values]. rewrite T2.
    assert (RN : rest r2 = [] -> t0 = TObjectStart \/ t0 = TArrayStart -> False).
    { intros RN T0. destruct V as [(-> & R2 & _)|[(-> & (r3 & S3 & _) & _)|(-> & (r3 & S3 & _) & _)]].
      - destruct T0; discriminate.
      - unfold skipB in S3. rewrite RN in S3. cbn in S3. rewrite RN in S3. discriminate.
      - unfold skipB in S3. rewrite RN in S3. cbn in S3. rewrite RN in S3. discriminate. }
    destruct V as [(-> & R2 & _)|[(-> & (r3 & S3 & R3 & L3 & E3) & _)|(-> & (r3 & S3 & R3 & L3 & E3) & _)]].
    + exists r2. rewrite L2. repeat split; auto. right. now right.
    + assert (SC : skip_current fl CArray r2 = Some (true, r3)).
      { unfold skip_current. rewrite E2. cbn [err_ok negb]. destruct (rest r2) as [|y q] eqn:RE; [exfalso; auto|].
        rewrite L2, <- RE. exact S3. }
      rewrite SC. exists r3. rewrite L3. repeat split; auto. now left.
    + assert (SC : skip_current fl CArray r2 = Some (true, r3)).
      { unfold skip_current. rewrite E2. cbn [err_ok negb]. destruct (rest r2) as [|y q] eqn:RE; [exfalso; auto|].
        rewrite L2, <- RE. exact S3. }
      rewrite SC. exists r3. rewrite L3. repeat split; auto. right. now left.
  - intros n a cap acc FI LN LC. cbn [array_loop]. rewrite T2.
    destruct (Nat.ltb_spec (length acc) cap); [|lia].
    destruct V as [(-> & R2 & V)|[(-> & _ & V)|(-> & _ & V)]].
    + destruct (V a FI) as (v' & a' & TV & RP & SP). rewrite TV. exists r2, a', v'.
      rewrite L2. repeat split; auto; try apply SP. right. now right.
    + destruct (V a n FI LN) as (r3 & a' & v' & TV & (R3 & L3 & E3 & I3) & RP & SP). rewrite TV. cbn [err_ok].
      exists r3, a', v'. rewrite L3. repeat split; auto; try apply SP. now left.
    + destruct (V a n FI LN) as (r3 & a' & v' & TV & (R3 & L3 & E3 & I3) & RP & SP). rewrite TV. cbn [err_ok].
      exists r3, a', v'. rewrite L3. repeat split; auto; try apply SP. right. now left.
Qed.

Lemma forall2_snoc_ns {A} (acc : list A) v ns : rev (v :: acc) ++ ns = rev acc ++ v :: ns.
Proof. cbn [rev]. now rewrite <- app_assoc. Qed.

Lemma object_end_steps fl buf r p l z : plain_flags fl ->
  prefix (dialect_of fl) CObject (last r) p l -> ends (dialect_of fl) l ->
  rest r = p ++ [125] ++ z -> err r = JOk -> inside buf r ->
  (forall n k, (0 < n)%nat -> count_members n fl r k = Some (inr (k + 0)%nat))
  /\ (forall n a cap acc, (0 < n)%nat -> exists r2,
       object_loop n fl buf r a cap acc = Some (JOk, r2, a, VObject cap (rev acc ++ []))
       /\ at_ buf z TObjectEnd r2).
Proof.
  intros PF P EN R E I. destruct (end_token fl true buf r p l z PF P EN R E I) as (r2 & T & AT).
  split.
  - intros [|n] k LN; [lia|]. cbn [count_members]. rewrite T. now rewrite Nat.add_0_r.
  - intros [|n] a cap acc LN; [lia|]. exists r2. cbn [object_loop]. rewrite T, app_nil_r.
    split; [|exact AT]. destruct AT as (_ & _ & -> & _). reflexivity.
Qed.

Lemma array_end_steps fl buf r p l z : plain_flags fl ->
  prefix (dialect_of fl) CArray (last r) p l -> ends (dialect_of fl) l ->
  rest r = p ++ [93] ++ z -> err r = JOk -> inside buf r ->
  (forall n k, (0 < n)%nat -> count_values n fl r k = Some (inr (k + 0)%nat))
  /\ (forall n a cap acc, (0 < n)%nat -> exists r2,
       array_loop n fl buf r a cap acc = Some (JOk, r2, a, VArray cap (rev acc ++ []))
       /\ at_ buf z TArrayEnd r2).
Proof.
  intros PF P EN R E I. destruct (end_token fl false buf r p l z PF P EN R E I) as (r2 & T & AT).
  split.
  - intros [|n] k LN; [lia|]. cbn [count_values]. rewrite T. now rewrite Nat.add_0_r.
  - intros [|n] a cap acc LN; [lia|]. exists r2. cbn [array_loop]. rewrite T, app_nil_r.
    split; [|exact AT]. destruct AT as (_ & _ & -> & _). reflexivity.
Qed.

(** A member followed by the rest of the object. *)
Lemma members_ok fl s m u ms buf r pc z : plain_flags fl -> member_steps fl s m -> object_steps fl u ms ->
  object_tail (dialect_of fl) u ms ->
  before (last r) pc TObjectStart -> rest r = pc ++ s ++ u ++ z -> err r = JOk -> inside buf r ->
  (forall n k, (length (m :: ms) < n)%nat ->
     count_members n fl r k = Some (inr (k + length (m :: ms))%nat))
  /\ (forall n a cap acc, fits a (costs_o (m :: ms)) -> (2 * length (s ++ u) <= S n)%nat -> (4 <= length s)%nat ->
       cap = (length acc + length (m :: ms))%nat ->
       exists r2 a' ns, object_loop n fl buf r a cap acc = Some (JOk, r2, a', VObject cap (rev acc ++ ns))
         /\ Forall2 (fun m v => fst m = fst v /\ repr stored (snd m) (snd v)) (m :: ms) ns
         /\ at_ buf z TObjectEnd r2 /\ spent a (costs_o (m :: ms)) a').
Proof.
  intros PF MS OS OT B R E I.
  destruct (object_tail_follow _ _ _ z OT) as [FO NZ].
  destruct (MS buf r pc (u ++ z) B R FO NZ E I) as [MC ML]. split.
  - intros [|n] k LN; [lia|]. cbn [length] in *. destruct (MC n k) as (r2 & -> & R2 & EN & E2).
    assert (I2 : inside (rest r2) (set_pos r2 (rest r2) 0 0 0)) by reflexivity.
    assert (C2 : forall q, count_members n fl r2 q = Some (inr (q + length ms)%nat)).
    { intro q.
      destruct (OS (rest r2) (set_pos r2 (rest r2) 0 0 0) z R2 EN E2 I2) as [OC _].
      rewrite <- (OC n q) by lia. symmetry.
      pose proof (sim_count_members fl n PF q (set_pos r2 (rest r2) 0 0 0) r2) as SC.
      rewrite (OC n q) in * by lia. unfold csim in SC.
      destruct (count_members n fl r2 q) as [[[? ?]|?]|]; try (exfalso; apply SC; unfold sim; cbn; auto; fail).
      rewrite SC; [reflexivity|]. unfold sim. cbn. auto. }
    rewrite C2. do 2 f_equal. lia.
  - intros n a cap acc FI LN L4 CA. rewrite app_length in LN. destruct n as [|[|n]]; [lia|lia|].
    cbn [costs_o fold_right] in FI. fold (costs_o ms) in FI.
    destruct (ML n a cap acc) as (r2 & a1 & v & -> & R2 & EN & E2 & I2 & RP & SP).
    { unfold fits in *. lia. }
    { lia. }
    { cbn [length] in CA. lia. }
    destruct (OS buf r2 z R2 EN E2 I2) as [_ OL].
    destruct (OL n a1 cap ((fst m, v) :: acc)) as (r3 & a2 & ns & OLE & F2 & AT & SP2).
    { eapply spent_fits; eauto. }
    { lia. }
    { cbn [length] in *. lia. }
    exists r3, a2, ((fst m, v) :: ns). rewrite forall2_snoc_ns in OLE. split; [exact OLE|].
    split; [constructor; auto|]. split; [exact AT|].
    cbn [costs_o fold_right]. fold (costs_o ms). eapply spent_trans; eauto.
Qed.

(** An element followed by the rest of the array. *)
Lemma elements_ok fl w s v u vs buf r pc z : plain_flags fl -> ws w -> value_steps fl s v ->
  array_steps fl u vs -> array_tail (dialect_of fl) u vs ->
  before (last r) pc TArrayStart -> rest r = pc ++ w ++ s ++ u ++ z -> err r = JOk -> inside buf r ->
  (forall n k, (length (v :: vs) < n)%nat ->
     count_values n fl r k = Some (inr (k + length (v :: vs))%nat))
  /\ (forall n a cap acc, fits a (costs_a (v :: vs)) -> (2 * length (s ++ u) <= S n)%nat -> (1 <= length u)%nat ->
       (1 <= length s)%nat ->
       cap = (length acc + length (v :: vs))%nat ->
       exists r2 a' ns, array_loop n fl buf r a cap acc = Some (JOk, r2, a', VArray cap (rev acc ++ ns))
         /\ Forall2 (repr stored) (v :: vs) ns
         /\ at_ buf z TArrayEnd r2 /\ spent a (costs_a (v :: vs)) a').
Proof.
  intros PF W VS AS AT B R E I.
  destruct (array_tail_follow _ _ _ z AT) as [FO NZ].
  destruct (element_ok fl w s v PF W VS buf r pc (u ++ z) B R FO NZ E I) as [MC ML]. split.
  - intros [|n] k LN; [lia|]. cbn [length] in *. destruct (MC n k) as (r2 & -> & R2 & EN & E2).
    assert (I2 : inside (rest r2) (set_pos r2 (rest r2) 0 0 0)) by reflexivity.
    assert (C2 : forall q, count_values n fl r2 q = Some (inr (q + length vs)%nat)).
    { intro q.
      destruct (AS (rest r2) (set_pos r2 (rest r2) 0 0 0) z R2 EN E2 I2) as [OC _].
      pose proof (sim_count_values fl n PF q (set_pos r2 (rest r2) 0 0 0) r2) as SC.
      rewrite (OC n q) in SC by lia. unfold csim in SC.
      destruct (count_values n fl r2 q) as [[[? ?]|?]|]; try (exfalso; apply SC; unfold sim; cbn; auto; fail).
      rewrite <- SC; [reflexivity|]. unfold sim. cbn. auto. }
    rewrite C2. do 2 f_equal. lia.
  - intros n a cap acc FI LN L4 L5 CA. rewrite app_length in LN. destruct n as [|n]; [lia|].
    cbn [costs_a fold_right] in FI. fold (costs_a vs) in FI.
    destruct (ML n a cap acc) as (r2 & a1 & v' & -> & R2 & EN & E2 & I2 & RP & SP).
    { unfold fits in *. lia. }
    { lia. }
    { cbn [length] in CA. lia. }
    destruct (AS buf r2 z R2 EN E2 I2) as [_ OL].
    destruct (OL n a1 cap (v' :: acc)) as (r3 & a2 & ns & OLE & F2 & AT' & SP2).
    { eapply spent_fits; eauto. }
    { lia. }
    { cbn [length] in *. lia. }
    exists r3, a2, (v' :: ns). rewrite forall2_snoc_ns in OLE. split; [exact OLE|].
    split; [constructor; auto|]. split; [exact AT'|].
    cbn [costs_a fold_right]. fold (costs_a vs). eapply spent_trans; eauto.
Qed.

Lemma value_nonempty d s t : value d s t -> (1 <= length s)%nat.
Proof.
  intro V. destruct s; [|cbn; lia]. exfalso. inversion V; subst.
  match goal with X : number _ _ _ _ |- _ => inversion X; subst end.
  match goal with X : magnitude _ _ _ |- _ => inversion X; subst end;
    match goal with X : int_part _ |- _ => destruct X as [X|((X & _) & _)] end;
    subst; cbn in *; try discriminate; try congruence;
    match goal with X : ?i ++ _ = [] |- _ => destruct i; cbn in *; discriminate || congruence end.
Qed.

Lemma member_length d s m : member d s m -> (4 <= length s)%nat.
Proof.
  intro M. inversion M; subst. rewrite !app_length. unfold quoted. cbn [length]. rewrite !app_length.
  cbn [length]. match goal with X : value _ _ _ |- _ => apply value_nonempty in X end. lia.
Qed.

Lemma read_complete fl : plain_flags fl ->
  (forall s t, value (dialect_of fl) s t -> value_steps fl s t)
  /\ (forall s m, member (dialect_of fl) s m -> member_steps fl s m)
  /\ (forall u ms, object_tail (dialect_of fl) u ms -> object_steps fl u ms)
  /\ (forall u vs, array_tail (dialect_of fl) u vs -> array_steps fl u vs).
Proof.
  intro PF.
  destruct (skips_value fl true (dialect_of fl) PF) as (SKV & SKM & SKO & _).
  destruct (skips_value fl false (dialect_of fl) PF) as (SKV' & _ & _ & SKA).
  destruct (cost_bound (dialect_of fl)) as (_ & _ & CO & CA).
  pose proof (fun w => skips_ws fl true w PF) as WS.
  pose proof (fun w => skips_ws fl false w PF) as WS'.
  apply value_mutind.
  - apply scalar_steps; auto; [discriminate|constructor].
  - apply scalar_steps; auto; [discriminate|constructor].
  - apply scalar_steps; auto; [discriminate|constructor].
  - intros s t ty NB. apply scalar_steps; auto; [|now constructor].
    inversion NB; destruct i; discriminate.
  - intros raw o U. eapply string_steps; eauto.
  - intros w W. apply object_start_ok; auto.
    + exists (Obj []). now constructor.
    + intros buf r z R L E I. rewrite <- app_assoc in R.
      destruct (object_end_steps fl buf r w (last r) z PF) as [HC HL]; auto.
      { now constructor. }
      { rewrite L. exact Logic.I. }
      split; [exact HC|]. intros n a cap FI LN ->. rewrite app_length in LN. cbn [length] in LN.
      destruct (HL n a 0%nat []) as (r2 & OL & AT); [lia|].
      exists r2, a, []. split; [exact OL|]. split; [constructor|]. split; [exact AT|apply spent_refl].
    + cbn. lia.
    + exists w. auto.
  - intros s m u ms M HM T HT. apply object_start_ok; auto.
    + exists (Obj (m :: ms)). now constructor.
    + intros buf r z R L E I.
      destruct (members_ok fl s m u ms buf r [] z PF HM HT T) as [HC HL]; auto.
      { left. auto. }
      { rewrite R. now rewrite <- app_assoc. }
      split; [exact HC|]. intros n a cap FI LN ->.
      apply (HL n a (length (m :: ms)) []); auto. now apply member_length in M.
    + apply CO in T. apply member_length in M. cbn [length]. rewrite app_length. lia.
    + destruct (SKO _ _ T) as (u' & -> & SU). exists (s ++ u'). split; [app_norm|].
      apply skips_app; eauto.
  - intros w W. apply array_start_ok; auto.
    + intros buf r z R L E I. rewrite <- app_assoc in R.
      destruct (array_end_steps fl buf r w (last r) z PF) as [HC HL]; auto.
      { now constructor. }
      { rewrite L. exact Logic.I. }
      split; [exact HC|]. intros n a cap FI LN ->. rewrite app_length in LN. cbn [length] in LN.
      destruct (HL n a 0%nat []) as (r2 & OL & AT); [lia|].
      exists r2, a, []. split; [exact OL|]. split; [constructor|]. split; [exact AT|apply spent_refl].
    + cbn. lia.
    + exists w. auto.
  - intros w s v u vs W V HV T HT. apply array_start_ok; auto.
    + intros buf r z R L E I.
      destruct (elements_ok fl w s v u vs buf r [] z PF W HV HT T) as [HC HL]; auto.
      { left. auto. }
      { rewrite R. now rewrite <- !app_assoc. }
      split; [exact HC|]. intros n a cap FI LN ->.
      apply (HL n a (length (v :: vs)) []); auto.
      { rewrite !app_length in *. lia. }
      { apply CA in T. lia. }
      { now apply value_nonempty in V. }
    + apply CA in T. apply value_nonempty in V. cbn [length]. rewrite !app_length. lia.
    + destruct (SKA _ _ T) as (u' & -> & SU). exists (w ++ s ++ u'). split; [app_norm|].
      apply skips_app; eauto. apply skips_app; eauto.
  - intros w1 raw o w2 x w3 s v W1 U W2 C W3 V HV. eapply member_ok; eauto.
  - intros w W buf r z R EN E I. rewrite <- app_assoc in R.
    destruct (object_end_steps fl buf r w (last r) z PF) as [HC HL]; auto.
    { now constructor. }
    { now apply ended_ends. }
    split; [exact HC|]. intros n a cap acc FI LN _. rewrite app_length in LN. cbn [length] in LN.
    destruct (HL n a cap acc) as (r2 & OL & AT); [lia|].
    exists r2, a, []. split; [exact OL|]. split; [constructor|]. split; [exact AT|apply spent_refl].
  - intros w w' TR W W' buf r z R EN E I.
    destruct (object_end_steps fl buf r (w ++ 44 :: w') TComma z PF) as [HC HL]; auto.
    { constructor; auto. discriminate. }
    { rewrite R. app_norm. }
    split; [exact HC|]. intros n a cap acc FI LN _. rewrite app_length in LN. cbn [length] in LN.
    destruct (HL n a cap acc) as (r2 & OL & AT); [lia|].
    exists r2, a, []. split; [exact OL|]. split; [constructor|]. split; [exact AT|apply spent_refl].
  - intros w s m u ms W M HM T HT buf r z R EN E I.
    destruct (members_ok fl s m u ms buf r (w ++ [44]) z PF HM HT T) as [HC HL]; auto.
    { right. split; auto. exists w. auto. }
    { rewrite R. app_norm. }
    split; [exact HC|]. intros n a cap acc FI LN CP.
    apply (HL n a cap acc); auto.
    { rewrite !app_length in *. cbn [length] in LN. rewrite !app_length in LN. lia. }
    now apply member_length in M.
  - intros w W buf r z R EN E I. rewrite <- app_assoc in R.
    destruct (array_end_steps fl buf r w (last r) z PF) as [HC HL]; auto.
    { now constructor. }
    { now apply ended_ends. }
    split; [exact HC|]. intros n a cap acc FI LN _. rewrite app_length in LN. cbn [length] in LN.
    destruct (HL n a cap acc) as (r2 & OL & AT); [lia|].
    exists r2, a, []. split; [exact OL|]. split; [constructor|]. split; [exact AT|apply spent_refl].
  - intros w w' TR W W' buf r z R EN E I.
    destruct (array_end_steps fl buf r (w ++ 44 :: w') TComma z PF) as [HC HL]; auto.
    { constructor; auto. discriminate. }
    { rewrite R. app_norm. }
    split; [exact HC|]. intros n a cap acc FI LN _. rewrite app_length in LN. cbn [length] in LN.
    destruct (HL n a cap acc) as (r2 & OL & AT); [lia|].
    exists r2, a, []. split; [exact OL|]. split; [constructor|]. split; [exact AT|apply spent_refl].
  - intros w w' s v u vs W W' V HV T HT buf r z R EN E I.
    destruct (elements_ok fl w' s v u vs buf r (w ++ [44]) z PF W' HV HT T) as [HC HL]; auto.
    { right. split; auto. exists w. auto. }
    { rewrite R. app_norm. }
    split; [exact HC|]. intros n a cap acc FI LN CP.
    apply (HL n a cap acc); auto.
    { rewrite !app_length in *. cbn [length] in LN. rewrite !app_length in LN. lia. }
    { apply CA in T. lia. }
    now apply value_nonempty in V.
Qed.

(** ** Documents *)

Lemma ws_end fl r : plain_flags fl -> ws (rest r) -> err r = JOk -> last r <> TEof ->
  exists r', valid_until_eof fl r = Some (true, r') /\ err r' = JOk /\ rest r' = [].
Proof.
  intros PF W E NE. unfold valid_until_eof. destruct (rest r) as [|c s] eqn:R; [eauto|].
  destruct (tok_eqb (last r) TEof) eqn:TE; [destruct (last r); try discriminate; congruence|].
  rewrite <- R in *. cbn [valid_until_eof_loop].
  assert (T : exists r1, next_token fl CNull r = Some (TEof, r1) /\ err r1 = JOk /\ rest r1 = []).
  { unfold next_token. cbn [next_loop]. unfold next_step. cbv zeta.
    destruct (skip_ws_app r (rest r) []) as [R0 T0]; auto; [now rewrite app_nil_r|].
    rewrite R0. eexists. split; [reflexivity|]. cbn. destruct T0 as (_ & _ & _ & T0). split; [congruence|exact R0]. }
  destruct T as (r1 & T & E1 & R1). rewrite T. eauto.
Qed.

Lemma number_no_ws d s tk ty : number d s tk ty -> Forall (fun c => ~ wsp c) s.
Proof.
  intro H.
  assert (DG : forall x, digit x -> ~ wsp x) by (intros x; unfold digit, wsp; lia).
  assert (DS : forall ds, Forall digit ds -> Forall (fun c => ~ wsp c) ds)
    by (intros ds F; eapply Forall_impl; [|exact F]; auto).
  assert (C : forall x, x = 43 \/ x = 45 \/ x = 46 \/ x = 101 \/ x = 69 \/ x = 120 \/ x = 88 -> ~ wsp x)
    by (intros x; unfold wsp; lia).
  assert (IP : forall i, int_part i -> Forall (fun c => ~ wsp c) i).
  { intros i [->|((_ & F) & _)]; auto. constructor; [|constructor]. apply DG. unfold digit. lia. }
  assert (FP : forall f, frac_part f -> Forall (fun c => ~ wsp c) f).
  { intros f (ds & -> & _ & F). constructor; auto. }
  assert (EP : forall e, exp_part e -> Forall (fun c => ~ wsp c) e).
  { intros e (x & sg & ds & -> & X & SG & _ & F). constructor; [apply C; tauto|].
    apply Forall_app. split; auto. destruct SG as [->|[-> | ->]]; repeat constructor; apply C; tauto. }
  assert (M : forall m i, magnitude d m i -> Forall (fun c => ~ wsp c) m).
  { intros m i M. inversion M; subst; rewrite ?Forall_app; auto.
    constructor; [apply DG; unfold digit; lia|]. constructor; [apply C; tauto|].
    eapply Forall_impl; [|eassumption]. intros y (v & Y). inversion Y; unfold wsp; lia. }
  inversion H; subst; [eauto| |]; (constructor; [apply C; tauto|eauto]).
Qed.

Lemma integer_ends_root d buf w s w' t : buf = w ++ s ++ w' -> value d s t -> integer_ended buf t ->
  ends_root w' t.
Proof.
  intros EB V I. destruct w' as [|c w']; [right|left; discriminate].
  rewrite app_nil_r in EB.
  assert (NO : forall ty tk p c, t = Scalar ty tk -> ty = YInt \/ ty = YUInt -> buf = p ++ [c] -> wsp c -> False).
  { clear I. intros ty tk p c -> TY EP C.
    assert (NS : Forall (fun c => ~ wsp c) s).
    { inversion V; subst; try (destruct TY; discriminate). eapply number_no_ws; eauto. }
    pose proof (value_nonempty _ _ _ V) as LS.
    destruct (exists_last (l := s)) as (s0 & y & ->); [intros ->; cbn in LS; lia|].
    rewrite EP, app_assoc in EB. apply app_inj_tail in EB. destruct EB as [_ ->].
    apply Forall_app in NS. destruct NS as [_ NS]. inversion NS; subst. contradiction. }
  destruct t as [ty tk| | |]; auto. destruct ty; auto; cbn in I; destruct I as (p & c & EP & C); eauto.
Qed.

Lemma document_complete fl buf t a : plain_flags fl -> json_text (dialect_of fl) buf t ->
  integer_ended buf t ->
  fits a (cost t) ->
  exists v a', make_document fl buf a = Some (Doc (Some v) JOk 0 0 (Some 0%nat) 0, a')
    /\ repr stored t v /\ spent a (cost t) a'.
Proof.
  intros PF (w & s & w' & EB & W & W' & V) ER FI.
  apply (integer_ends_root (dialect_of fl) buf w s w' t) in ER; auto.
  destruct (read_complete fl PF) as (RC & _). pose proof (RC s t V) as VS.
  set (r := make_reader buf).
  destruct (VS CNull buf r w (last r) w') as (t0 & r1 & T & E1 & I1 & L1 & H); auto.
  { now constructor. }
  { reflexivity. }
  { destruct w' as [|c w']; [exact I|]. inversion W'; subst. cbn. auto. }
  { reflexivity. }
  assert (LB : (2 * length s <= S (3 * length buf + 3))%nat).
  { rewrite EB, !app_length. lia. }
  unfold make_document. cbn [read_root_type]. fold r. rewrite T.
  assert (FIN : forall r2 (a2 : alloc) v, rest r2 = w' -> err r2 = JOk -> last r2 <> TEof ->
    (r <- (if err_ok (err r2) then ' (_, r) <- valid_until_eof fl r2;; Some r else Some r2);;
     assert_ (match rest r with [] => true | _ => negb (err_ok (err r)) end)
       (if err_ok (err r) then Some (Doc v JOk 0 0 (Some 0%nat) 0, a2)
        else Some (Doc None (err r) (line r) (col r) (curo r) (curn r), a2)))
    = Some (Doc v JOk 0 0 (Some 0%nat) 0, a2)).
  { intros r2 a2 v R2 E2 NE. rewrite E2. cbn [err_ok].
    destruct (ws_end fl r2 PF) as (r3 & V3 & E3 & R3); auto; [now rewrite R2|].
    rewrite V3, R3, E3. reflexivity. }
  destruct H as [(-> & R1 & H)|[(-> & _ & H)|(-> & _ & H)]].
  - destruct (H a FI) as (v & a' & TV & RP & SP). rewrite TV. exists v, a'. split; [|auto].
    apply FIN; auto. congruence.
  - destruct (H a (3 * length buf + 3)%nat FI LB) as (r2 & a' & v & TV & (R2 & L2 & E2 & _) & RP & SP).
    rewrite TV. exists v, a'. split; [|auto]. apply FIN; auto. congruence.
  - destruct (H a (3 * length buf + 3)%nat FI LB) as (r2 & a' & v & TV & (R2 & L2 & E2 & _) & RP & SP).
    rewrite TV. exists v, a'. split; [|auto]. apply FIN; auto. congruence.
Qed.

(** Acceptance does not depend on what follows an integer at the root, only its content does. *)
Lemma document_accepts fl buf t a : plain_flags fl -> json_text (dialect_of fl) buf t ->
  fits a (cost t) -> exists v a', make_document fl buf a = Some (Doc (Some v) JOk 0 0 (Some 0%nat) 0, a').
Proof.
  intros PF J FI.
  assert (C : integer_ended buf t \/ exists ty tk, t = Scalar ty tk /\ (ty = YInt \/ ty = YUInt)).
  { destruct t as [ty tk| | |]; cbn; auto. destruct ty; eauto 8. }
  destruct C as [IE|(ty & tk & -> & TY)].
  { destruct (document_complete fl buf t a PF J IE FI) as (v & a' & H & _). eauto. }
  destruct J as (w & s & w' & EB & W & W' & V). set (r := make_reader buf).
  destruct (next_token_complete fl CNull r w TEof s TValue (Some (ty, tk)) w') as (r1 & T & R1 & M & L1 & C1 & _); auto.
  { now constructor. }
  { constructor; [reflexivity|exact V]. }
  { intros _. destruct w' as [|c w']; [exact I|]. inversion W'; subst. cbn. auto. }
  unfold make_document. cbn [read_root_type]. fold r. rewrite T. cbv beta iota.
  destruct C1 as [VT _].
  assert (TV : token_value buf r1 a = Some (VScalar ty (current buf r1), a)).
  { unfold token_value. rewrite VT. destruct TY; subst; reflexivity. }
  rewrite TV. cbv beta iota.
  assert (E1 : err r1 = JOk) by (destruct M as (_ & _ & ->); reflexivity).
  rewrite E1. cbn [err_ok].
  destruct (ws_end fl r1 PF) as (r3 & V3 & E3 & R3); auto; [now rewrite R1|congruence|].
  rewrite V3, R3, E3. eexists _, _. reflexivity.
Qed.
