(** Clipping: arcs of a marked outline between an entry and the exit after it; proofs *)
From Coq Require Import Arith Bool Lia List Permutation.
From Verif Require Import Base PgModel ClModel ClSpec ClProofs ClFind ClMark.
Import ListNotations.

Section Arcs.
Variable F : arith.
Notation fld f d i := (@ClSpec.field F _ (f F) d i).
Implicit Types d : list (vertex F).

Lemma count_zero n l : count n l = 0 <-> forall u, In u l -> u < n.
Proof.
  induction l as [|v l IH]; [split; [intros _ u []|reflexivity]|]. rewrite count_cons. destruct (Nat.leb_spec n v) as [C|C]; cbn [Nat.add].
  - split; [discriminate|]. intros H. specialize (H v (or_introl eq_refl)). lia.
  - rewrite IH. split; [intros H u [<-|Hu]; [exact C|apply H; exact Hu]|intros H u Hu; apply H; right; exact Hu].
Qed.
Lemma first_crossing n l : count n l = 0 \/ exists p x q, l = p ++ x :: q /\ (forall u, In u p -> u < n) /\ n <= x.
Proof.
  induction l as [|v l IH]; [left; reflexivity|]. destruct (Nat.lt_ge_cases v n) as [C|C]; [|right; exists [], v, l; split; [reflexivity|split; [intros u []|exact C]]].
  destruct IH as [IH|[p [x [q [E [P X]]]]]]; [left; rewrite count_cons; destruct (Nat.leb_spec n v); [lia|exact IH]|].
  right. exists (v :: p), x, q. split; [rewrite E; reflexivity|]. split; [intros u [<-|Hu]; [exact C|apply P; exact Hu]|exact X].
Qed.
Lemma last_crossing n l : count n l = 0 \/ exists p x q, l = p ++ x :: q /\ (forall u, In u q -> u < n) /\ n <= x.
Proof.
  induction l as [|v l IH]; [left; reflexivity|]. destruct IH as [IH|[p [x [q [E [P X]]]]]].
  - destruct (Nat.lt_ge_cases v n) as [C|C]; [left; rewrite count_cons; destruct (Nat.leb_spec n v); [lia|exact IH]|].
    right. exists [], v, l. split; [reflexivity|]. split; [apply count_zero; exact IH|exact C].
  - right. exists (v :: p), x, q. split; [rewrite E; reflexivity|]. split; [exact P|exact X].
Qed.
Lemma count_order d n segs k : ring F d n segs -> length d = n + k -> count n (order n segs) = k.
Proof.
  intros R L. unfold count. rewrite <- (seq_length k n). apply Permutation_length. apply NoDup_Permutation; [apply NoDup_filter; apply (ring_nodup _ _ _ _ R)|apply seq_NoDup|].
  intros u. rewrite filter_In, (ring_all _ _ _ _ R), in_seq, L, Nat.leb_le. lia.
Qed.
Lemma split_unique {A : Type} (p q p' q' : list A) u : NoDup (p ++ u :: q) -> p ++ u :: q = p' ++ u :: q' -> p = p' /\ q = q'.
Proof.
  revert p'. induction p as [|x p IH]; intros [|y p'] ND E; cbn [app] in *.
  - split; congruence.
  - assert (y = u) by congruence. subst y. assert (q = p' ++ u :: q') by congruence. subst q. inversion ND as [|? ? N _]. exfalso. apply N. apply in_or_app. right. left. reflexivity.
  - assert (x = u) by congruence. subst x. inversion ND as [|? ? N _]. exfalso. apply N. apply in_or_app. right. left. reflexivity.
  - inversion ND as [|? ? _ ND']. destruct (IH p' ND') as [-> ->]; [congruence|]. split; congruence.
Qed.
Lemma count_passed d n segs c p q : ring F d n segs -> c < n -> order n segs = p ++ c :: q -> count n p = passed segs c.
Proof.
  intros R Hc E. pose proof (ring_nodup _ _ _ _ R) as ND.
  assert (EO : order n segs = flat_map (fun i => i :: segs i) (seq 0 c) ++ c :: segs c ++ flat_map (fun i => i :: segs i) (seq (S c) (n - S c))).
  { unfold order. replace (seq 0 n) with (seq 0 c ++ c :: seq (S c) (n - S c)); [rewrite flat_map_app; reflexivity|]. replace n with (c + S (n - S c)) at 2 by lia. rewrite seq_app. reflexivity. }
  rewrite E in ND. rewrite E in EO. destruct (split_unique _ _ _ _ _ ND EO) as [-> _]. unfold passed.
  assert (G : forall l, (forall i, In i l -> i < n) -> count n (flat_map (fun i => i :: segs i) l) = length (flat_map segs l)).
  { induction l as [|i l IH]; intros H; [reflexivity|]. cbn [flat_map]. change ((i :: segs i) ++ ?x) with (i :: segs i ++ x). cbn [app]. rewrite count_cons, count_app, app_length, IH by (intros j Hj; apply H; right; exact Hj).
    specialize (H i (or_introl eq_refl)). destruct (Nat.leb_spec n i); [lia|]. cbn [Nat.add]. f_equal. unfold count. f_equal. 
    assert (G2 : forall l', (forall u, In u l' -> n <= u) -> filter (Nat.leb n) l' = l').
    { induction l' as [|u l' IH']; intros H'; [reflexivity|]. cbn [filter]. destruct (Nat.leb_spec n u) as [C|C]; [rewrite IH' by (intros w Hw; apply H'; right; exact Hw); reflexivity|]. specialize (H' u (or_introl eq_refl)). lia. }
    apply G2. intros u Hu. apply (ring_segs _ _ _ _ R i u H Hu). }
  apply G. intros i Hi. apply in_seq in Hi. lia.
Qed.

(** From the entry [e] over the corners [vs] to the exit [x] *)
Record arc d (n : nat) (e : nat) (vs : list nat) (x : nat) : Prop := Arc {
  arc_chain : chain F d (e :: vs ++ [x]);
  arc_nodup : NoDup vs;
  arc_corners : forall v, In v vs -> v < n;
  arc_entry : n <= e /\ e < length d /\ fld exit d e = Some false;
  arc_exit : n <= x /\ x < length d /\ fld exit d x = Some true
}.
Section Ring.
Variables (d : list (vertex F)) (n k : nat) (segs : nat -> list nat) (ins : bool).
Hypothesis R : ring F d n segs.
Hypothesis pos_n : 0 < n.
Hypothesis L : length d = n + k.
Hypothesis M : marks F d n (order n segs) ins.
Hypothesis even_k : Nat.even k = true.

Lemma in_order u : u < length d -> exists p q, order n segs = p ++ u :: q.
Proof. intros H. apply (ring_all _ _ _ _ R) in H. apply in_split in H. exact H. Qed.
Lemma order_lt p u q : order n segs = p ++ u :: q -> u < length d.
Proof. intros E. apply (ring_all _ _ _ _ R). rewrite E. apply in_or_app. right. left. reflexivity. Qed.
Lemma chain_part p l u q : order n segs = p ++ l ++ u :: q -> chain F d (l ++ [u]).
Proof.
  intros E. pose proof (ring_chain _ _ _ _ R) as CH. rewrite E in CH. rewrite <- app_assoc in CH. apply chain_tail in CH. rewrite <- app_assoc in CH. cbn [app] in CH.
  destruct (q ++ [0]) as [|v r] eqn:Q; [destruct q; discriminate|]. apply chain_join in CH. apply CH.
Qed.
Lemma chain_wrap p e q p' x q' : order n segs = p ++ e :: q -> order n segs = p' ++ x :: q' -> p' <> [] -> chain F d (e :: q ++ p' ++ [x]).
Proof.
  intros E1 E2 NP. pose proof (ring_chain _ _ _ _ R) as CH. destruct (order_cons n segs pos_n) as [rest E0].
  destruct p' as [|z p']; [congruence|]. rewrite E2 in E0. cbn [app] in E0. assert (z = 0) by congruence. subst z.
  assert (C2 : chain F d ((0 :: p') ++ [x])) by (apply (chain_part [] (0 :: p') x q'); exact E2).
  assert (C1 : chain F d (e :: q ++ [0])) by (rewrite E1, <- app_assoc in CH; apply chain_tail in CH; exact CH).
  destruct (exists_last (l := e :: q)) as [w [z EZ]]; [discriminate|]. change (e :: q ++ (0 :: p') ++ [x]) with ((e :: q) ++ 0 :: p' ++ [x]). rewrite EZ, <- app_assoc. cbn [app]. apply chain_join.
  change (e :: q ++ [0]) with ((e :: q) ++ [0]) in C1. rewrite EZ, <- app_assoc in C1. cbn [app] in C1. apply chain_join in C1. destruct C1 as [C1 [C3 _]]. split; [exact C1|]. split; [exact C3|exact C2].
Qed.
Lemma odd_pred : forall c, c + 1 = k -> Nat.odd c = true.
Proof. intros c E. rewrite <- E, Nat.add_1_r, Nat.even_succ in even_k. exact even_k. Qed.
Lemma not_first p x q : order n segs = p ++ x :: q -> n <= x -> p <> [].
Proof. intros E Hx ->. destruct (order_cons n segs pos_n) as [rest E0]. rewrite E in E0. cbn [app] in E0. assert (x = 0) by congruence. lia. Qed.
Lemma total_count p x q : order n segs = p ++ x :: q -> n <= x -> count n p + 1 + count n q = k.
Proof. intros E Hx. rewrite <- (count_order d n segs k R L), E, count_app, count_cons. destruct (Nat.leb_spec n x); lia. Qed.
Lemma nodup_wrap p u q p' x q' : order n segs = p ++ u :: q -> order n segs = p' ++ x :: q' -> (forall v, In v q -> v < n) -> (forall v, In v p' -> v < n) -> n <= u -> NoDup (q ++ p').
Proof.
  intros E1 E2 Q P Hu. pose proof (ring_nodup _ _ _ _ R) as ND. pose proof ND as ND2. rewrite E1 in ND. rewrite E2 in ND2. apply nodup_app. apply nodup_app in ND. destruct ND as [ND1 [ND3 ND4]]. inversion ND3 as [|? ? N1 N2].
  apply nodup_app in ND2. destruct ND2 as [ND5 _]. split; [assumption|]. split; [exact ND5|]. intros v Hv Hv'.
  (* p' is a prefix of p: both start the order and p' has no crossing *)
  assert (PR : exists r, p = p' ++ r).
  { clear - E1 E2 P Hu. rewrite E1 in E2. clear E1. revert p E2. induction p' as [|z p' IH]; intros p E2; [exists p; reflexivity|]. destruct p as [|y p]; cbn [app] in E2.
    - assert (u = z) by congruence. subst. specialize (P z (or_introl eq_refl)). lia.
    - destruct (IH (fun v K => P v (or_intror K)) p) as [r ->]; [congruence|]. exists r. cbn [app]. congruence. }
  destruct PR as [r ->]. apply (ND4 v); [apply in_or_app; left; exact Hv'|right; exact Hv].
Qed.

Lemma arc_from e : n <= e -> e < length d -> fld exit d e = Some false -> exists vs x, arc d n e vs x.
Proof.
  intros He Hl EX. destruct (in_order e Hl) as [p [q E]]. pose proof (M p e q E He) as ME. rewrite EX in ME. pose proof (ring_nodup _ _ _ _ R) as ND. destruct (first_crossing n q) as [Z|[vs [x [q' [E2 [P X]]]]]].
  - destruct (first_crossing n (order n segs)) as [Z2|[p' [x [q' [E2 [P X]]]]]].
    { rewrite (count_order d n segs k R L) in Z2. pose proof (total_count p e q E He). lia. }
    exists (q ++ p'), x. pose proof (total_count p e q E He) as TC. rewrite Z in TC. constructor.
    + rewrite <- app_assoc. apply (chain_wrap p e q p' x q' E E2). apply (not_first p' x q' E2 X).
    + apply (nodup_wrap p e q p' x q' E E2); [apply count_zero; exact Z|exact P|exact He].
    + intros v Hv. apply in_app_or in Hv. destruct Hv as [Hv|Hv]; [apply (proj1 (count_zero n q) Z v Hv)|apply P; exact Hv].
    + split; [exact He|]. split; [exact Hl|exact EX].
    + split; [exact X|]. split; [apply (order_lt p' x q' E2)|]. rewrite (M p' x q' E2 X). rewrite (proj2 (count_zero n p') P). rewrite (odd_pred (count n p)) in ME by lia. destruct ins; [reflexivity|discriminate].
  - exists vs, x. subst q. assert (E3 : order n segs = (p ++ e :: vs) ++ x :: q') by (rewrite E, <- app_assoc; reflexivity). constructor.
    + apply (chain_part p (e :: vs) x q'). exact E.
    + rewrite E in ND. apply nodup_app in ND. destruct ND as [_ [ND _]]. inversion ND as [|? ? _ ND2]. apply nodup_app in ND2. apply ND2.
    + exact P.
    + split; [exact He|]. split; [exact Hl|exact EX].
    + split; [exact X|]. split; [apply (order_lt _ x q' E3)|]. rewrite (M _ x q' E3 X). f_equal. rewrite count_app, count_cons, (proj2 (count_zero n vs) P). destruct (Nat.leb_spec n e); [|lia].
      rewrite Nat.add_0_r, Nat.add_1_r, Nat.odd_succ, <- Nat.negb_odd. destruct ins, (Nat.odd (count n p)); cbn [xorb negb] in *; congruence.
Qed.
Lemma arc_to x : n <= x -> x < length d -> fld exit d x = Some true -> exists e vs, arc d n e vs x.
Proof.
  intros Hx Hl EX. destruct (in_order x Hl) as [p [q E]]. pose proof (M p x q E Hx) as MX. rewrite EX in MX. pose proof (ring_nodup _ _ _ _ R) as ND. destruct (last_crossing n p) as [Z|[p' [e [vs [E2 [P He]]]]]].
  - destruct (last_crossing n (order n segs)) as [Z2|[p' [e [q' [E2 [P He]]]]]].
    { rewrite (count_order d n segs k R L) in Z2. pose proof (total_count p x q E Hx). lia. }
    exists e, (q' ++ p). pose proof (total_count p' e q' E2 He) as TC. rewrite (proj2 (count_zero n q') P) in TC. constructor.
    + rewrite <- app_assoc. apply (chain_wrap p' e q' p x q E2 E). apply (not_first p x q E Hx).
    + apply (nodup_wrap p' e q' p x q E2 E); [exact P|apply count_zero; exact Z|exact He].
    + intros v Hv. apply in_app_or in Hv. destruct Hv as [Hv|Hv]; [apply P; exact Hv|apply (proj1 (count_zero n p) Z v Hv)].
    + split; [exact He|]. split; [apply (order_lt p' e q' E2)|]. rewrite (M p' e q' E2 He). rewrite (odd_pred (count n p')) by lia. rewrite Z in MX. destruct ins; [reflexivity|discriminate].
    + split; [exact Hx|]. split; [exact Hl|exact EX].
  - exists e, vs. subst p. assert (E3 : order n segs = p' ++ (e :: vs) ++ x :: q) by (rewrite E, <- app_assoc; reflexivity). constructor.
    + apply (chain_part p' (e :: vs) x q). exact E3.
    + rewrite E3 in ND. apply nodup_app in ND. destruct ND as [_ [ND _]]. inversion ND as [|? ? _ ND2]. apply nodup_app in ND2. apply ND2.
    + exact P.
    + split; [exact He|]. split; [apply (order_lt p' e (vs ++ x :: q)); rewrite E3; reflexivity|]. rewrite (M p' e (vs ++ x :: q) E3 He). f_equal. rewrite count_app, count_cons, (proj2 (count_zero n vs) P) in MX. destruct (Nat.leb_spec n e); [|lia].
      rewrite Nat.add_0_r, Nat.add_1_r, Nat.odd_succ, <- Nat.negb_odd in MX. destruct ins, (Nat.odd (count n p')); cbn [xorb negb] in *; congruence.
    + split; [exact Hx|]. split; [exact Hl|exact EX].
Qed.

Lemma forward_det : forall l l' u x x', chain F d (u :: l ++ [x]) -> chain F d (u :: l' ++ [x']) -> (forall v, In v l -> v < n) -> (forall v, In v l' -> v < n) -> n <= x -> n <= x' -> l = l' /\ x = x'.
Proof using.
  clear L pos_n M even_k.
  induction l as [|v l IH]; intros [|v' l'] u x x' C1 C2 P1 P2 H1 H2; cbn [app] in *; destruct C1 as [[N1 _] C1]; destruct C2 as [[N2 _] C2].
  - split; [reflexivity|congruence].
  - assert (x = v') by congruence. specialize (P2 v' (or_introl eq_refl)). lia.
  - assert (x' = v) by congruence. specialize (P1 v (or_introl eq_refl)). lia.
  - assert (v' = v) by congruence. subst v'. destruct (IH l' v x x' C1 C2) as [-> ->]; try assumption; [intros z Hz; apply P1; right; exact Hz|intros z Hz; apply P2; right; exact Hz|]. split; reflexivity.
Qed.
Lemma backward_det : forall l l' u e e', chain F d (e :: l ++ [u]) -> chain F d (e' :: l' ++ [u]) -> (forall v, In v l -> v < n) -> (forall v, In v l' -> v < n) -> n <= e -> n <= e' -> l = l' /\ e = e'.
Proof using.
  clear L pos_n M even_k.
  intros l. induction l as [|v l IH] using rev_ind; intros l' u e e' C1 C2 P1 P2 H1 H2; (destruct l' as [|v' l' _] using rev_ind).
  - cbn [app] in *. destruct C1 as [[_ N1] _]. destruct C2 as [[_ N2] _]. split; [reflexivity|congruence].
  - cbn [app] in C1. destruct C1 as [[_ N1] _]. rewrite <- app_assoc in C2. cbn [app] in C2. change (e' :: l' ++ [v'; u]) with ((e' :: l') ++ v' :: u :: []) in C2. apply chain_join in C2. destruct C2 as [_ [[_ N2] _]].
    assert (e = v') by congruence. specialize (P2 v' ltac:(apply in_or_app; right; left; reflexivity)). lia.
  - cbn [app] in C2. destruct C2 as [[_ N2] _]. rewrite <- app_assoc in C1. cbn [app] in C1. change (e :: l ++ [v; u]) with ((e :: l) ++ v :: u :: []) in C1. apply chain_join in C1. destruct C1 as [_ [[_ N1] _]].
    assert (e' = v) by congruence. specialize (P1 v ltac:(apply in_or_app; right; left; reflexivity)). lia.
  - rewrite <- app_assoc in C1, C2. cbn [app] in C1, C2. change (e :: l ++ [v; u]) with ((e :: l) ++ v :: u :: []) in C1. change (e' :: l' ++ [v'; u]) with ((e' :: l') ++ v' :: u :: []) in C2. apply chain_join in C1. apply chain_join in C2.
    destruct C1 as [C1 [[_ N1] _]]. destruct C2 as [C2 [[_ N2] _]]. assert (v' = v) by congruence. subst v'.
    destruct (IH l' v e e' C1 C2) as [-> ->]; try assumption; [intros z Hz; apply P1; apply in_or_app; left; exact Hz|intros z Hz; apply P2; apply in_or_app; left; exact Hz|]. split; reflexivity.
Qed.
Lemma arc_next_det e vs x vs' x' : arc d n e vs x -> arc d n e vs' x' -> vs = vs' /\ x = x'.
Proof using.
  clear L pos_n M even_k. intros A B. apply (forward_det vs vs' e x x'); [apply A|apply B|apply A|apply B|apply A|apply B]. Qed.
Lemma arc_prev_det x vs e vs' e' : arc d n e vs x -> arc d n e' vs' x -> vs = vs' /\ e = e'.
Proof using.
  clear L pos_n M even_k. intros A B. apply (backward_det vs vs' x e e'); [apply A|apply B|apply A|apply B|apply A|apply B]. Qed.
Lemma arc_share e vs x e' vs' x' c : arc d n e vs x -> arc d n e' vs' x' -> In c vs -> In c vs' -> e = e' /\ vs = vs' /\ x = x'.
Proof using.
  clear L pos_n M even_k.
  intros A B I1 I2. apply in_split in I1. apply in_split in I2. destruct I1 as [p [q E1]]. destruct I2 as [p' [q' E2]].
  pose proof (arc_chain _ _ _ _ _ A) as C1. pose proof (arc_chain _ _ _ _ _ B) as C2. rewrite E1 in C1. rewrite E2 in C2. rewrite <- app_assoc in C1, C2. cbn [app] in C1, C2.
  apply (chain_tail F d (e :: p)) in C1. apply (chain_tail F d (e' :: p')) in C2.
  assert (x = x') as <-.
  { apply (forward_det q q' c x x' C1 C2); [intros v Hv; apply (arc_corners _ _ _ _ _ A); rewrite E1; apply in_or_app; right; right; exact Hv|intros v Hv; apply (arc_corners _ _ _ _ _ B); rewrite E2; apply in_or_app; right; right; exact Hv|apply A|apply B]. }
  destruct (arc_prev_det x vs e vs' e' A B) as [-> ->]. auto.
Qed.
Lemma exit_known u : n <= u -> u < length d -> exists b, fld exit d u = Some b.
Proof. intros H1 H2. destruct (in_order u H2) as [p [q E]]. eexists. apply (M p u q E H1). Qed.
Lemma arc_cover c : c < n -> 0 < k -> ((exists e vs x, arc d n e vs x /\ In c vs) <-> xorb ins (Nat.odd (passed segs c)) = true).
Proof.
  intros Hc Hk. assert (HL : c < length d) by lia. destruct (in_order c HL) as [p [q E]]. rewrite <- (count_passed d n segs c p q R Hc E).
  pose proof (ring_nodup _ _ _ _ R) as ND.
  (* a corner lies between the crossing before it and the one after *)
  assert (G : exists e l r x, chain F d (e :: l ++ c :: r ++ [x]) /\ (forall v, In v (l ++ c :: r) -> v < n) /\ n <= e < length d /\ n <= x < length d /\ fld exit d x = Some (xorb ins (Nat.odd (count n p))) /\ fld exit d e = Some (negb (xorb ins (Nat.odd (count n p))))).
  { assert (EN : forall p' e q', order n segs = p' ++ e :: q' -> n <= e -> (forall v, In v q' -> v < n) -> fld exit d e = Some (negb ins)).
    { intros p' e q' E2 He P. rewrite (M p' e q' E2 He). pose proof (total_count p' e q' E2 He) as TC. rewrite (proj2 (count_zero n q') P) in TC. rewrite (odd_pred (count n p')) by lia. destruct ins; reflexivity. }
    assert (XF : forall p' x q', order n segs = p' ++ x :: q' -> n <= x -> (forall v, In v p' -> v < n) -> fld exit d x = Some ins).
    { intros p' x q' E2 Hx P. rewrite (M p' x q' E2 Hx). rewrite (proj2 (count_zero n p') P). cbn [Nat.odd]. destruct ins; reflexivity. }
    assert (TK : count n p + count n q = k). { rewrite <- (count_order d n segs k R L), E, count_app, count_cons. destruct (Nat.leb_spec n c); lia. }
    destruct (last_crossing n p) as [Z1|[p1 [e [l [E1 [P1 He]]]]]]; destruct (first_crossing n q) as [Z2|[r [x [q1 [E2 [P2 Hx]]]]]].
    - lia.
    - (* the crossing before it is the last one of the outline *)
      subst q. assert (EX : order n segs = (p ++ c :: r) ++ x :: q1) by (rewrite E, <- app_assoc; reflexivity).
      destruct (last_crossing n (order n segs)) as [Z3|[p3 [e [l [E3 [P3 He]]]]]]; [rewrite (count_order d n segs k R L) in Z3; lia|].
      exists e, (l ++ p), r, x. rewrite Z1. cbn [Nat.odd]. rewrite xorb_false_r. split.
      + pose proof (chain_wrap p3 e l (p ++ c :: r) x q1 E3 EX ltac:(destruct p; discriminate)) as CW. rewrite <- !app_assoc in CW. cbn [app] in CW. rewrite <- app_assoc. exact CW.
      + split; [intros v Hv; rewrite <- app_assoc in Hv; apply in_app_or in Hv; destruct Hv as [Hv|Hv]; [apply P3; exact Hv|apply in_app_or in Hv; destruct Hv as [Hv|[<-|Hv]]; [apply (proj1 (count_zero n p) Z1 v Hv)|exact Hc|apply P2; exact Hv]]|].
        split; [split; [exact He|apply (order_lt p3 e l E3)]|]. split; [split; [exact Hx|apply (order_lt _ x q1 EX)]|]. split; [|apply (EN p3 e l E3 He P3)].
        apply (XF (p ++ c :: r) x q1 EX Hx). intros v Hv. apply in_app_or in Hv; destruct Hv as [Hv|[<-|Hv]]; [apply (proj1 (count_zero n p) Z1 v Hv)|exact Hc|apply P2; exact Hv].
    - (* the crossing after it is the first one of the outline *)
      subst p. assert (EE : order n segs = p1 ++ e :: l ++ c :: q) by (rewrite E, <- app_assoc; reflexivity).
      destruct (first_crossing n (order n segs)) as [Z3|[r [x [q3 [E3 [P3 Hx]]]]]]; [rewrite (count_order d n segs k R L) in Z3; lia|].
      assert (TO : Nat.odd (count n (p1 ++ e :: l)) = false). { rewrite Z2, Nat.add_0_r in TK. rewrite TK. rewrite <- Nat.negb_even, even_k. reflexivity. }
      rewrite TO, xorb_false_r. exists e, l, (q ++ r), x. split.
      + pose proof (chain_wrap p1 e (l ++ c :: q) r x q3 EE E3 (not_first r x q3 E3 Hx)) as CW. rewrite <- !app_assoc in CW. cbn [app] in CW. rewrite <- app_assoc. exact CW.
      + split; [intros v Hv; apply in_app_or in Hv; destruct Hv as [Hv|[<-|Hv]]; [apply P1; exact Hv|exact Hc|apply in_app_or in Hv; destruct Hv as [Hv|Hv]; [apply (proj1 (count_zero n q) Z2 v Hv)|apply P3; exact Hv]]|].
        split; [split; [exact He|apply (order_lt p1 e _ EE)]|]. split; [split; [exact Hx|apply (order_lt _ x q3 E3)]|]. split; [apply (XF r x q3 E3 Hx P3)|].
        apply (EN p1 e (l ++ c :: q) EE He). intros v Hv. apply in_app_or in Hv; destruct Hv as [Hv|[<-|Hv]]; [apply P1; exact Hv|exact Hc|apply (proj1 (count_zero n q) Z2 v Hv)].
    - subst p q. assert (EE : order n segs = p1 ++ (e :: l ++ c :: r) ++ x :: q1) by (rewrite E, <- !app_assoc; cbn [app]; rewrite <- !app_assoc; reflexivity).
      exists e, l, r, x. split; [pose proof (chain_part p1 (e :: l ++ c :: r) x q1 EE) as CP; cbn [app] in CP; rewrite <- app_assoc in CP; exact CP|].
      split; [intros v Hv; apply in_app_or in Hv; destruct Hv as [Hv|[<-|Hv]]; [apply P1; exact Hv|exact Hc|apply P2; exact Hv]|].
      assert (EX : order n segs = (p1 ++ e :: l ++ c :: r) ++ x :: q1) by (rewrite EE, <- app_assoc; reflexivity).
      split; [split; [exact He|apply (order_lt p1 e ((l ++ c :: r) ++ x :: q1)); rewrite EE; reflexivity]|]. split; [split; [exact Hx|apply (order_lt _ x q1 EX)]|].
      rewrite (M _ x q1 EX Hx), (M p1 e ((l ++ c :: r) ++ x :: q1)) by (assumption || (rewrite EE; reflexivity)).
      rewrite !count_app, !count_cons, !count_app, !count_cons, (proj2 (count_zero n l) P1), (proj2 (count_zero n r) P2). destruct (Nat.leb_spec n e); [|lia]. destruct (Nat.leb_spec n c); [lia|]. cbn [Nat.add]. rewrite !Nat.add_1_r.
      split; [reflexivity|]. rewrite Nat.odd_succ, <- Nat.negb_odd. destruct ins, (Nat.odd (count n p1)); reflexivity. }
  destruct G as [e [l [r [x [CH [P [He [Hx [EX EE]]]]]]]]]. split.
  - intros [e' [vs [x' [A I]]]]. destruct (xorb ins (Nat.odd (count n p))) eqn:B; [reflexivity|]. exfalso.
    apply in_split in I. destruct I as [p' [q' EV]]. pose proof (arc_chain _ _ _ _ _ A) as C2. rewrite EV, <- app_assoc in C2. cbn [app] in C2. apply (chain_tail F d (e' :: p')) in C2. apply (chain_tail F d (e :: l)) in CH.
    destruct (forward_det r q' c x x' CH C2) as [_ EXX]; [intros v Hv; apply P; apply in_or_app; right; right; exact Hv|intros v Hv; apply (arc_corners _ _ _ _ _ A); rewrite EV; apply in_or_app; right; right; exact Hv|apply Hx|apply A|].
    subst x'. destruct (arc_exit _ _ _ _ _ A) as [_ [_ K]]. congruence.
  - intros B. rewrite B in EX, EE. cbn [negb] in EE. destruct (arc_from e (proj1 He) (proj2 He) EE) as [vs [x' A]]. exists e, vs, x'. split; [exact A|].
    replace (e :: l ++ c :: r ++ [x]) with (e :: (l ++ c :: r) ++ [x]) in CH by (rewrite <- app_assoc; reflexivity).
    destruct (forward_det (l ++ c :: r) vs e x x' CH (arc_chain _ _ _ _ _ A) P (arc_corners _ _ _ _ _ A) (proj1 Hx)) as [<- _]; [apply A|]. apply in_or_app. right. left. reflexivity.
Qed.
End Ring.
End Arcs.
