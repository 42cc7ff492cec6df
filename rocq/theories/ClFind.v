(** Clipping: clipPolyTransformData and clipPolyFindIntersections keep the rings; proofs *)
From Coq Require Import Arith Bool Lia List Permutation.
From Verif Require Import Base PgModel ClModel ClSpec ClProofs.
Import ListNotations.

Section Find.
Variable F : arith.
Hypothesis asym : forall x y, ltb F x y = true -> ltb F y x = false.
Notation fld f d i := (@ClSpec.field F _ (f F) d i).
Implicit Types d : list (vertex F).

Lemma ascending_app d l r : ascending F d (l ++ r) <-> ascending F d l /\ ascending F d r /\ (l <> [] -> r <> [] -> not_after F d (last l 0) (hd 0 r)).
Proof.
  induction l as [|u l IH].
  - cbn [app]. split; [intros H; split; [exact I|split; [exact H|congruence]]|tauto].
  - destruct l as [|v l].
    + cbn [app last]. destruct r as [|z r]; cbn [hd].
      * split; [intros _; split; [exact I|split; [exact I|congruence]]|intros _; exact I].
      * change (ascending F d (u :: z :: r)) with (not_after F d u z /\ ascending F d (z :: r)). split.
        -- intros [H1 H2]. split; [exact I|]. split; [exact H2|]. intros _ _. exact H1.
        -- intros [_ [H2 H3]]. split; [apply H3; discriminate|exact H2].
    + cbn [app] in *. change (ascending F d (u :: v :: l ++ r)) with (not_after F d u v /\ ascending F d (v :: l ++ r)). change (ascending F d (u :: v :: l)) with (not_after F d u v /\ ascending F d (v :: l)).
      change (last (u :: v :: l) 0) with (last (v :: l) 0). split.
      * intros [H1 H2]. apply IH in H2. destruct H2 as [H2 [H3 H4]]. split; [split; assumption|]. split; [exact H3|]. intros _ N. apply H4; [discriminate|exact N].
      * intros [[H1 H2] [H3 H4]]. split; [exact H1|]. apply IH. split; [exact H2|]. split; [exact H3|]. intros _ N. apply H4; [discriminate|exact N].
Qed.
Lemma ascending_frame d d' l : (forall u, In u l -> fld alpha d' u = fld alpha d u) -> ascending F d l -> ascending F d' l.
Proof.
  induction l as [|u l IH]; [auto|]. destruct l as [|v l]; [auto|]. intros H [A B]. split.
  - intros x y Hx Hy. apply A; [rewrite <- H; [exact Hx|left; reflexivity]|rewrite <- H; [exact Hy|right; left; reflexivity]].
  - apply IH; [|exact B]. intros w Hw. apply H. right. exact Hw.
Qed.
Lemma core_alpha d d' i : ClSpec.field F (core F) d' i = ClSpec.field F (core F) d i -> fld alpha d' i = fld alpha d i.
Proof. unfold ClSpec.field, core. destruct (nth_error d' i), (nth_error d i); cbn [option_map]; congruence. Qed.
Lemma core_pos d d' i : ClSpec.field F (core F) d' i = ClSpec.field F (core F) d i -> fld pos d' i = fld pos d i.
Proof. unfold ClSpec.field, core. destruct (nth_error d' i), (nth_error d i); cbn [option_map]; congruence. Qed.
Lemma core_neighbor d d' i : ClSpec.field F (core F) d' i = ClSpec.field F (core F) d i -> fld neighbor d' i = fld neighbor d i.
Proof. unfold ClSpec.field, core. destruct (nth_error d' i), (nth_error d i); cbn [option_map]; congruence. Qed.
Lemma core_exit d d' i : ClSpec.field F (core F) d' i = ClSpec.field F (core F) d i -> fld exit d' i = fld exit d i.
Proof. unfold ClSpec.field, core. destruct (nth_error d' i), (nth_error d i); cbn [option_map]; congruence. Qed.
Lemma core_seen d d' i : ClSpec.field F (core F) d' i = ClSpec.field F (core F) d i -> fld seen d' i = fld seen d i.
Proof. unfold ClSpec.field, core. destruct (nth_error d' i), (nth_error d i); cbn [option_map]; congruence. Qed.
Lemma core_of d i x nb is_ ex se al : ClSpec.field F (core F) d i = Some (x, nb, is_, ex, se, al) ->
  fld pos d i = Some x /\ fld neighbor d i = Some nb /\ fld exit d i = Some ex /\ fld seen d i = Some se /\ fld alpha d i = Some al.
Proof. unfold ClSpec.field, core. destruct (nth_error d i); cbn [option_map]; [|discriminate]. intros E. repeat split; congruence. Qed.

Definition before (n i : nat) : nat := match i with O => n - 1 | S i => i end.
(** One polygon while crossings are inserted: [k] of them so far *)
Record half (p : vertices F) (n : nat) (segs : nat -> list nat) : Prop := Half {
  half_ring : ring F (data F p) n segs;
  half_size : original F p = n;
  half_clean : forall i, i < length (data F p) -> fld exit (data F p) i = Some false /\ fld seen (data F p) i = Some false;
  half_sorted : forall e, e < n -> ascending F (data F p) (segs e)
}.
Lemma in_segs d n segs e u : ring F d n segs -> e < n -> In u (segs e) -> u < length d.
Proof. intros R He Hu. apply (ring_all _ _ _ _ R). unfold order. apply in_flat_map. exists e. split; [apply in_seq; lia|right; exact Hu]. Qed.
Lemma corner_lt d n segs e : ring F d n segs -> e < n -> e < length d.
Proof. intros R He. apply (ring_all _ _ _ _ R). unfold order. apply in_flat_map. exists e. split; [apply in_seq; lia|left; reflexivity]. Qed.
Lemma follow_before n i : i < n -> before n i < n /\ follow n (before n i) = i.
Proof. intros H. unfold follow. destruct i as [|i]; cbn [before]; [destruct (Nat.eqb_spec (S (n - 1)) n); lia|destruct (Nat.eqb_spec (S i) n); lia]. Qed.
Lemma prev_corner d n segs i : ring F d n segs -> i < n -> fld prev d i = Some (last (before n i :: segs (before n i)) 0).
Proof.
  intros R Hi. destruct (follow_before n i Hi) as [Hb Hfo]. destruct (order_split n segs (before n i) Hb) as [P [Q [O _]]]. pose proof (ring_chain _ _ _ _ R) as CH. rewrite O, Hfo in CH.
  destruct (exists_last (l := before n i :: segs (before n i))) as [w [z EZ]]; [discriminate|]. rewrite EZ in CH |- *. rewrite last_last. rewrite <- app_assoc in CH. cbn [app] in CH. rewrite app_assoc in CH. apply chain_links in CH. apply CH.
Qed.

(** A crossing is inserted *)
Lemma insert_half p n segs i x nb al : half p n segs -> i < n -> length (data F p) < capacity F p -> capacity F p <= 2 ^ 16 ->
  exists v at_ p' segs', nth_error (data F p) i = Some v /\ find_index F (S (length (data F p))) p (prev F v) al = Some at_ /\ create F p at_ x nb al = Some p'
  /\ half p' n segs' /\ capacity F p' = capacity F p /\ length (data F p') = S (length (data F p))
  /\ (forall e u, e < n -> In u (segs' e) <-> In u (segs e) \/ (e = before n i /\ u = length (data F p)))
  /\ (forall u, u < length (data F p) -> ClSpec.field F (core F) (data F p') u = ClSpec.field F (core F) (data F p) u)
  /\ ClSpec.field F (core F) (data F p') (length (data F p)) = Some (x, index nb, true, false, false, al).
Proof.
  intros H Hi Hc H16. destruct H as [R OR CL SO]. pose proof (prev_corner _ _ _ _ R Hi) as PV. destruct (follow_before n i Hi) as [Hb _]. set (e := before n i) in *.
  unfold ClSpec.field in PV. destruct (nth_error (data F p) i) as [v|] eqn:NV; [|discriminate]. cbn [option_map] in PV.
  assert (LS : length (segs e) <= length (data F p)).
  { assert (ND : NoDup (segs e)). { pose proof (ring_nodup _ _ _ _ R) as ND. destruct (order_split n segs e Hb) as [P [Q [_ [O _]]]]. rewrite O in ND. apply nodup_app in ND. destruct ND as [_ [ND _]]. apply nodup_app in ND. destruct ND as [ND _]. inversion ND. assumption. }
    rewrite <- (seq_length (length (data F p)) 0). apply NoDup_incl_length; [exact ND|]. intros u Hu. apply in_seq. pose proof (in_segs _ _ _ _ _ R Hb Hu). lia. }
  destruct (find_index_spec F p n segs e al R Hb (SO e Hb) (segs e) [] (S (length (data F p)))) as [w [y [E1 [E2 [E3 E4]]]]]; [rewrite app_nil_r; reflexivity|lia|].
  destruct (create_ring F p n segs e w y x nb al R Hb E1 Hc) as [p' [C1 [C2 [C3 [C4 [C5 [C6 C7]]]]]]]; [lia|].
  exists v, (last (e :: w) 0), p', (inserted segs e (w ++ length (data F p) :: y)). split; [reflexivity|]. split; [assert (E : prev F v = last (e :: segs e) 0) by congruence; rewrite E; exact E2|]. split; [exact C1|].
  split; [|split; [exact C3|split; [exact C5|split; [|split; [exact C6|exact C7]]]]].
  - constructor; [exact C4|congruence| |].
    + intros u Hu. rewrite C5 in Hu. destruct (Nat.eq_dec u (length (data F p))) as [->|N].
      * apply core_of in C7. tauto.
      * rewrite (core_exit (data F p)), (core_seen (data F p)) by (apply C6; lia). apply CL. lia.
    + intros f Hf. unfold inserted. destruct (Nat.eqb_spec f e) as [->|N].
      * assert (AL : forall u, u < length (data F p) -> fld alpha (data F p') u = fld alpha (data F p) u) by (intros u Hu; apply core_alpha; apply C6; exact Hu).
        assert (AN : fld alpha (data F p') (length (data F p)) = Some al) by (apply core_of in C7; tauto).
        pose proof (SO e Hb) as SE. rewrite E1 in SE. apply ascending_app in SE. destruct SE as [SW [SY _]].
        assert (INS : forall u, In u w \/ In u y -> u < length (data F p)) by (intros u Hu; apply (in_segs _ _ _ _ _ R Hb); rewrite E1; apply in_or_app; exact Hu).
        apply ascending_app. split; [apply (ascending_frame (data F p)); [intros u Hu; apply AL; apply INS; left; exact Hu|exact SW]|]. split.
        -- change (length (data F p) :: y) with ([length (data F p)] ++ y). apply ascending_app. split; [exact I|]. split; [apply (ascending_frame (data F p)); [intros u Hu; apply AL; apply INS; right; exact Hu|exact SY]|].
           intros _ NY s t Hs Ht. cbn [last] in Hs. destruct y as [|z y]; [congruence|]. cbn [hd] in Ht. destruct (E3 z (or_introl eq_refl)) as [az [Z1 Z2]].
           rewrite AL in Ht by (apply INS; right; left; reflexivity). assert (t = az) by congruence. assert (s = al) by congruence. subst. apply asym. exact Z2.
        -- intros NW _ s t Hs Ht. cbn [hd] in Ht. assert (t = al) by congruence. subst t.
           assert (LW : last w 0 = last (e :: w) 0) by (destruct w; [congruence|reflexivity]).
           destruct (E4 (last w 0) NW LW) as [az [Z1 Z2]]. rewrite AL in Hs; [assert (s = az) by congruence; subst; exact Z2|].
           apply INS. left. destruct (exists_last NW) as [w0 [z0 EZ]]. rewrite EZ, last_last. apply in_or_app. right. left. reflexivity.
      * apply (ascending_frame (data F p)); [|apply SO; exact Hf]. intros u Hu. apply core_alpha. apply C6. apply (in_segs _ _ _ _ _ R Hf Hu).
  - intros f u Hf. unfold inserted. destruct (Nat.eqb_spec f e) as [->|N]; [rewrite E1, !in_app_iff; cbn [In]|].
    + split; [intros [K|[K|K]]; [left; left; exact K|right; split; [reflexivity|congruence]|left; right; exact K]|intros [[K|K]|[_ K]]; [left; exact K|right; right; exact K|right; left; congruence]].
    + split; [intros K; left; exact K|intros [K|[K _]]; [exact K|contradiction]].
Qed.
(** A corner is moved *)
Lemma move_half p n segs i (g : vec F -> vec F) : half p n segs -> i < n ->
  exists d', update (data F p) i (fun v => set_pos F (g (pos F v)) v) = Some d' /\ half (with_data F d' p) n segs /\ length d' = length (data F p)
  /\ (forall u, u <> i -> nth_error d' u = nth_error (data F p) u) /\ (exists v, fld pos (data F p) i = Some v /\ fld pos d' i = Some (g v)) /\ forall u, fld alpha d' u = fld alpha (data F p) u.
Proof.
  intros [R OR CL SO] Hi. destruct (nth_error (data F p) i) as [v|] eqn:NV; [|apply nth_error_None in NV; pose proof (corner_lt _ _ _ _ R Hi); lia].
  destruct (update_spec (data F p) i (fun v => set_pos F (g (pos F v)) v) v NV) as [d' [U [L [V W]]]]. exists d'. split; [exact U|].
  assert (FR : forall {A} (h : vertex F -> A) u, (forall q w, h (set_pos F q w) = h w) -> ClSpec.field F h d' u = ClSpec.field F h (data F p) u).
  { intros A h u Hh. unfold ClSpec.field. destruct (Nat.eq_dec u i) as [->|N]; [rewrite V, NV; cbn [option_map]; rewrite Hh; reflexivity|rewrite W by exact N; reflexivity]. }
  split; [|split; [exact L|split; [exact W|split; [exists (pos F v); unfold ClSpec.field; rewrite V, NV; split; reflexivity|intros u; apply FR; reflexivity]]]]. unfold with_data. constructor; cbn [data original].
  - destruct R as [R1 R2 R3 R4 R5]. constructor; [exact R1|rewrite L; exact R2| |rewrite L; intros u Hu; rewrite FR by reflexivity; apply R4; exact Hu|exact R5].
    apply (chain_frame F (data F p)); [exact R3|intros u _; apply FR; reflexivity|intros u _; apply FR; reflexivity].
  - exact OR.
  - rewrite L. intros u Hu. rewrite !FR by reflexivity. apply CL. exact Hu.
  - intros e He. apply (ascending_frame (data F p)); [intros u _; apply FR; reflexivity|apply SO; exact He].
Qed.

(** Both polygons *)
Record both (va vb : list (vec F)) (a b : vertices F) (na nb i j : nat) (sa sb : nat -> list nat) (pairs : list (nat * nat)) : Prop := Both {
  both_a : half a na sa; both_b : half b nb sb;
  both_crossed : crossed F (data F a) (data F b) na nb sa sb pairs;
  both_room_a : na + na * nb <= capacity F a <= 2 ^ 16; both_room_b : nb + na * nb <= capacity F b <= 2 ^ 16;
  both_count : length pairs <= i * nb + j;
  both_done : forall e f, In (e, f) pairs -> exists i' j', e = before na i' /\ f = before nb j' /\ i' < na /\ j' < nb /\ (i' < i \/ (i' = i /\ j' < j));
  both_len_a : length va = na; both_len_b : length vb = nb;
  both_placed_a : placed F true va (data F a) (map fst pairs); both_placed_b : placed F false vb (data F b) (map snd pairs)
}.
Lemma follow_is n i : i < n -> (if S (before n i) =? n then 0 else S (before n i)) = i.
Proof. intros H. destruct i as [|i]; cbn [before]; [destruct (Nat.eqb_spec (S (n - 1)) n); lia|destruct (Nat.eqb_spec (S i) n); lia]. Qed.
Lemma placed_move ex vs p es n segs i dir : placed F ex vs (data F p) es -> length vs = n -> half p n segs -> i < n -> exists d', update (data F p) i (fun v => set_pos F (pushed F dir (pos F v)) v) = Some d' /\ half (with_data F d' p) n segs /\ length d' = length (data F p)
  /\ (forall u, u <> i -> nth_error d' u = nth_error (data F p) u) /\ placed F ex vs d' es.
Proof.
  intros [P1 P2] E H Hi. destruct (move_half p n segs i (pushed F dir) H Hi) as [d' [U [H' [L [W [[v [V1 V2]] AL]]]]]]. exists d'. repeat (split; [assumption|]). constructor.
  - intros j u Hu. destruct (Nat.eq_dec j i) as [->|N].
    + destruct (P1 i u Hu) as [q [Q1 Q2]]. assert (q = v) by congruence. subst q. exists (pushed F dir v). split; [exact V2|]. apply (moved_push F u v dir Q2).
    + destruct (P1 j u Hu) as [q [Q1 Q2]]. exists q. split; [unfold ClSpec.field in *; rewrite W by exact N; exact Q1|exact Q2].
  - intros m e Hm. destruct (P2 m e Hm) as [x [w [q [r [t [A1 [A2 [A3 [A4 [A5 [A6 [A7 A8]]]]]]]]]]]]. exists x, w, q, r, t. repeat (split; [assumption|]). split; [rewrite AL; exact A5|]. split; [exact A6|]. split; [exact A7|]. intros X. specialize (A8 X). unfold ClSpec.field in *. rewrite W by lia. exact A8.
Qed.
Lemma placed_insert ex vs d d' es n i k nb al x : placed F ex vs d es -> length vs = n -> i < n -> length d = n + k -> length es = k -> (forall u, u < length d -> ClSpec.field F (core F) d' u = ClSpec.field F (core F) d u) ->
  ClSpec.field F (core F) d' (length d) = Some (x, nb, true, false, false, al) -> leb F (zero F) al = true -> leb F al (one F) = true ->
  (ex = true -> exists p q, fld pos d (before n i) = Some p /\ fld pos d i = Some q /\ x = between F p q al) -> placed F ex vs d' (es ++ [before n i]).
Proof.
  intros [P1 P2] E Hi L LE C1 C2 G1 G2 EX. constructor.
  - intros j u Hu. destruct (P1 j u Hu) as [q [Q1 Q2]]. assert (j < length vs) by (apply nth_error_Some; congruence). exists q. split; [|exact Q2]. rewrite (core_pos d d' j); [exact Q1|]. apply C1. lia.
  - intros m e Hm. destruct (Nat.lt_ge_cases m k) as [C|C].
    + rewrite nth_error_app1 in Hm by lia. destruct (P2 m e Hm) as [y [w [q [r [t [A1 [A2 [A3 [A4 [A5 [A6 [A7 A8]]]]]]]]]]]]. exists y, w, q, r, t. repeat (split; [assumption|]). split; [rewrite (core_alpha d d') by (apply C1; lia); exact A5|]. split; [exact A6|]. split; [exact A7|]. intros X. rewrite (core_pos d d') by (apply C1; lia). apply A8. exact X.
    + rewrite nth_error_app2 in Hm by lia. destruct (m - length es) as [|z] eqn:Z; [|cbn [nth_error] in Hm; destruct z; discriminate]. cbn [nth_error] in Hm. assert (e = before n i) by congruence. subst e. rewrite E, follow_is by exact Hi. replace (n + m) with (length d) by lia.
      destruct (follow_before n i Hi) as [Hb _].
      destruct (nth_error vs (before n i)) as [v|] eqn:N1; [|apply nth_error_None in N1; lia]. destruct (nth_error vs i) as [w|] eqn:N2; [|apply nth_error_None in N2; lia].
      destruct (P1 _ _ N1) as [p [Q1 Q2]]. destruct (P1 _ _ N2) as [q [Q3 Q4]]. apply core_of in C2. exists v, w, p, q, al. split; [reflexivity|]. split; [reflexivity|]. split; [exact Q2|]. split; [exact Q4|]. split; [apply C2|]. split; [exact G1|]. split; [exact G2|].
      intros X. destruct (EX X) as [p' [q' [R1 [R2 ->]]]]. assert (p' = p) by congruence. assert (q' = q) by congruence. subst. apply C2.
Qed.
Lemma before_inj n i j : i < n -> j < n -> before n i = before n j -> i = j.
Proof. destruct i, j; cbn [before]; lia. Qed.
Lemma edges_both va vb a b na nb i j sa sb pairs : both va vb a b na nb i j sa sb pairs -> i < na -> j < nb ->
  exists advance a' b', edges F a b i (before na i) j (before nb j) = Some (advance, a', b')
  /\ if advance : bool then exists sa' sb' pairs', both va vb a' b' na nb i (S j) sa' sb' pairs' else both va vb a' b' na nb i j sa sb pairs.
Proof.
  intros B Hi Hj. destruct (follow_before na i Hi) as [Hpi _]. destruct (follow_before nb j Hj) as [Hpj _].
  pose proof (both_a _ _ _ _ _ _ _ _ _ _ _ B) as HA. pose proof (both_b _ _ _ _ _ _ _ _ _ _ _ B) as HB.
  assert (AD : exists sa' sb' pairs', both va vb a b na nb i (S j) sa' sb' pairs').
  { exists sa, sb, pairs. destruct B as [B1 B2 B3 B4 B5 B6 B7 BA BB BPA BPB]. constructor; try assumption; [lia|]. intros e f K. destruct (B7 e f K) as [i' [j' [Q1 [Q2 [Q3 [Q4 Q5]]]]]]. exists i', j'. repeat (split; [assumption|]). lia. }
  assert (MA : forall c dir, c < na -> exists d, update (data F a) c (fun v => set_pos F (pushed F dir (pos F v)) v) = Some d /\ both va vb (with_data F d a) b na nb i j sa sb pairs).
  { intros c dir Hc. destruct B as [B1 B2 B3 B4 B5 B6 B7 BA BB BPA BPB]. destruct (placed_move _ _ _ _ na sa c dir BPA BA HA Hc) as [d [U [H [L [W PM]]]]]. exists d. split; [exact U|]. constructor; try assumption.
    destruct B3 as [C1 C2 C3 C4 C5 C6]. constructor; unfold with_data; cbn [data]; try assumption; [congruence| |]; intros m Hm; unfold ClSpec.field in *; rewrite W by lia; [apply C5|apply C6]; exact Hm. }
  assert (MB : forall c dir, c < nb -> exists d, update (data F b) c (fun v => set_pos F (pushed F dir (pos F v)) v) = Some d /\ both va vb a (with_data F d b) na nb i j sa sb pairs).
  { intros c dir Hc. destruct B as [B1 B2 B3 B4 B5 B6 B7 BA BB BPA BPB]. destruct (placed_move _ _ _ _ nb sb c dir BPB BB HB Hc) as [d [U [H [L [W PM]]]]]. exists d. split; [exact U|]. constructor; try assumption.
    destruct B3 as [C1 C2 C3 C4 C5 C6]. constructor; unfold with_data; cbn [data]; try assumption; [congruence| |]; intros m Hm; unfold ClSpec.field in *; rewrite W by lia; [apply C5|apply C6]; exact Hm. }
  unfold edges.
  destruct (nth_error (data F a) i) as [av|] eqn:N1; [|apply nth_error_None in N1; pose proof (corner_lt _ _ _ _ (half_ring _ _ _ HA) Hi); lia].
  destruct (nth_error (data F a) (before na i)) as [ap|] eqn:N2; [|apply nth_error_None in N2; pose proof (corner_lt _ _ _ _ (half_ring _ _ _ HA) Hpi); lia].
  destruct (nth_error (data F b) j) as [bv|] eqn:N3; [|apply nth_error_None in N3; pose proof (corner_lt _ _ _ _ (half_ring _ _ _ HB) Hj); lia].
  destruct (nth_error (data F b) (before nb j)) as [bp|] eqn:N4; [|apply nth_error_None in N4; pose proof (corner_lt _ _ _ _ (half_ring _ _ _ HB) Hpj); lia].
  cbv beta iota zeta.
  destruct (factor F (pos F ap) _ (pos F bp) _) as [al|]; [|exists true, a, b; split; [reflexivity|exact AD]].
  destruct (factor F (pos F bp) _ (pos F ap) _) as [be|]; [|exists true, a, b; split; [reflexivity|exact AD]].
  destruct (leb F (zero F) al && leb F al (one F) && leb F (zero F) be && leb F be (one F)) eqn:RNG; [|exists true, a, b; split; [reflexivity|exact AD]].
  destruct (leb F al (near0 F)).
  { destruct (MA (before na i) (minus F (pos F bv) (pos F bp)) Hpi) as [d [U K]]. rewrite U. exists false, (with_data F d a), b. split; [reflexivity|exact K]. }
  destruct (leb F (near1 F) al).
  { destruct (MA i (minus F (pos F bv) (pos F bp)) Hi) as [d [U K]]. rewrite U. exists false, (with_data F d a), b. split; [reflexivity|exact K]. }
  destruct (leb F be (near0 F)).
  { destruct (MB (before nb j) (minus F (pos F av) (pos F ap)) Hpj) as [d [U K]]. rewrite U. exists false, a, (with_data F d b). split; [reflexivity|exact K]. }
  destruct (leb F (near1 F) be).
  { destruct (MB j (minus F (pos F av) (pos F ap)) Hj) as [d [U K]]. rewrite U. exists false, a, (with_data F d b). split; [reflexivity|exact K]. }
  clear MA MB AD. destruct B as [B1 B2 B3 B4 B5 B6 B7 BA BB BPA BPB]. pose proof B3 as B30. destruct B30 as [C1 C2 C3 C4 C5 C6].
  assert (LT : length pairs < na * nb) by nia.
  match goal with |- context [create F a _ ?x0 _ al] => set (x := x0) end.
  destruct (insert_half a na sa i x (length (data F b)) al HA Hi) as [v1 [at1 [a' [sa' [I1 [I2 [I3 [I4 [I5 [I6 [I7 [I8 I9]]]]]]]]]]]]; [lia|lia|].
  destruct (insert_half b nb sb j x (length (data F a)) be HB Hj) as [v2 [at2 [b' [sb' [J1 [J2 [J3 [J4 [J5 [J6 [J7 [J8 J9]]]]]]]]]]]]; [lia|lia|].
  assert (v1 = av) by congruence. assert (v2 = bv) by congruence. subst v1 v2. rewrite I2, J2. cbv beta iota. rewrite I3. cbv beta iota. rewrite J3. cbv beta iota.
  exists true, a', b'. split; [reflexivity|]. exists sa', sb', (pairs ++ [(before na i, before nb j)]).
  rewrite (index_small (length (data F b))) in I9 by lia. rewrite (index_small (length (data F a))) in J9 by lia.
  constructor; try assumption; try (rewrite I5 || rewrite J5; assumption).
  - constructor.
    + rewrite app_length. cbn [length]. lia.
    + rewrite app_length. cbn [length]. lia.
    + apply nodup_app. split; [exact C3|]. split; [constructor; [intros []|constructor]|]. intros [e f] K [E|[]]. destruct (B7 e f K) as [i' [j' [Q1 [Q2 [Q3 [Q4 Q5]]]]]].
      assert (E1 : before na i = before na i') by congruence. assert (E2 : before nb j = before nb j') by congruence. apply before_inj in E1; [|lia|lia]. apply before_inj in E2; [|lia|lia]. lia.
    + intros m e f Hm. destruct (Nat.lt_ge_cases m (length pairs)) as [L|L].
      * rewrite nth_error_app1 in Hm by exact L. destruct (C4 m e f Hm) as [K1 [K2 [K3 K4]]]. split; [exact K1|]. split; [exact K2|]. split; [apply I7; [exact K1|left; exact K3]|apply J7; [exact K2|left; exact K4]].
      * rewrite nth_error_app2 in Hm by exact L. destruct (m - length pairs) as [|z] eqn:Z; [|cbn [nth_error] in Hm; destruct z; discriminate]. cbn [nth_error] in Hm.
        assert (e = before na i /\ f = before nb j) as [-> ->] by (split; congruence). split; [exact Hpi|]. split; [exact Hpj|].
        split; [apply I7; [exact Hpi|right; split; [reflexivity|lia]]|apply J7; [exact Hpj|right; split; [reflexivity|lia]]].
    + intros m Hm. rewrite app_length in Hm. cbn [length] in Hm. destruct (Nat.eq_dec m (length pairs)) as [->|N].
      * rewrite <- C1, <- C2. apply core_of in I9. apply core_of in J9. tauto.
      * rewrite (core_neighbor (data F a) (data F a')) by (apply I8; lia). rewrite (core_neighbor (data F b) (data F b')) by (apply J8; lia). apply C5. lia.
    + intros m Hm. rewrite app_length in Hm. cbn [length] in Hm. destruct (Nat.eq_dec m (length pairs)) as [->|N].
      * rewrite <- C1, <- C2. apply core_of in I9. apply core_of in J9. destruct I9 as [-> _]. destruct J9 as [-> _]. reflexivity.
      * rewrite (core_pos (data F a) (data F a')) by (apply I8; lia). rewrite (core_pos (data F b) (data F b')) by (apply J8; lia). apply C6. lia.
  - rewrite app_length. cbn [length]. lia.
  - intros e f K. apply in_app_or in K. destruct K as [K|[K|[]]].
    + destruct (B7 e f K) as [i' [j' [Q1 [Q2 [Q3 [Q4 Q5]]]]]]. exists i', j'. repeat (split; [assumption|]). lia.
    + exists i, j. split; [congruence|]. split; [congruence|]. split; [exact Hi|]. split; [exact Hj|]. lia.
  - rewrite !andb_true_iff in RNG. rewrite map_app. cbn [map fst]. apply (placed_insert true va (data F a) (data F a') (map fst pairs) na i (length pairs) (length (data F b)) al x); try assumption; try apply RNG; [rewrite map_length; reflexivity|].
    intros _. exists (pos F ap), (pos F av). unfold ClSpec.field. rewrite N1, N2. split; [reflexivity|]. split; [reflexivity|]. reflexivity.
  - rewrite !andb_true_iff in RNG. rewrite map_app. cbn [map snd]. apply (placed_insert false vb (data F b) (data F b') (map snd pairs) nb j (length pairs) (length (data F a)) be x); try assumption; try apply RNG; [rewrite map_length; reflexivity|discriminate].
Qed.

Lemma inner_both va vb na nb i : i < na -> forall fuel a b j sa sb pairs, both va vb a b na nb i j sa sb pairs -> j <= nb -> (0 < nb) ->
  exists r, inner F fuel a b i (before na i) j (before nb j) = Some r
  /\ match r with None => True | Some (a', b', bp) => bp = nb - 1 /\ exists sa' sb' pairs', both va vb a' b' na nb (S i) 0 sa' sb' pairs' end.
Proof.
  intros Hi. induction fuel as [|fuel IH]; intros a b j sa sb pairs B Hj Hb; cbn [inner]; rewrite (half_size _ _ _ (both_b _ _ _ _ _ _ _ _ _ _ _ B)).
  all: destruct (Nat.ltb_spec j nb) as [C|C].
  1: exists None; split; [reflexivity|exact I].
  1, 3: eexists; split; [reflexivity|]; split; [destruct j; cbn [before]; lia|]; exists sa, sb, pairs; destruct B as [B1 B2 B3 B4 B5 B6 B7 BA BB BPA BPB]; constructor; try assumption; [lia|];
    intros e f K; destruct (B7 e f K) as [i' [j' [Q1 [Q2 [Q3 [Q4 Q5]]]]]]; exists i', j'; repeat (split; [assumption|]); lia.
  destruct (edges_both va vb a b na nb i j sa sb pairs B Hi C) as [advance [a' [b' [E R]]]]. rewrite E. cbv beta iota. destruct advance.
  - destruct R as [sa' [sb' [pairs' R]]]. apply (IH a' b' (S j) sa' sb' pairs' R); [lia|exact Hb].
  - apply (IH a' b' j sa sb pairs R); [exact Hj|exact Hb].
Qed.
Lemma outer_both va vb na nb fuel : 0 < nb -> forall n a b i sa sb pairs, both va vb a b na nb i 0 sa sb pairs -> i + n = na ->
  exists r, outer F fuel n a b i (before na i) (nb - 1) = Some r
  /\ match r with None => True | Some (a', b') => exists sa' sb' pairs', both va vb a' b' na nb na 0 sa' sb' pairs' end.
Proof.
  intros Hb. induction n as [|n IH]; intros a b i sa sb pairs B E; cbn [outer].
  - eexists. split; [reflexivity|]. exists sa, sb, pairs. replace na with i at 2 by lia. exact B.
  - destruct (inner_both va vb na nb i ltac:(lia) fuel a b 0 sa sb pairs B ltac:(lia) Hb) as [r [E1 R]]. change (before nb 0) with (nb - 1) in E1. rewrite E1. cbv beta iota.
    destruct r as [[[a' b'] bp]|]; [|exists None; split; [reflexivity|exact I]]. destruct R as [-> [sa' [sb' [pairs' R]]]].
    apply (IH a' b' (S i) sa' sb' pairs' R). lia.
Qed.

Lemma nth_error_map {A B} (f : A -> B) l i : nth_error (map f l) i = option_map f (nth_error l i).
Proof. revert i. induction l as [|x l IH]; intros [|i]; cbn; auto. Qed.
Lemma nth_error_combine_seq {A} (vs : list A) : forall s i, nth_error (combine (seq s (length vs)) vs) i = option_map (fun v => (s + i, v)) (nth_error vs i).
Proof.
  induction vs as [|v vs IH]; intros s i; cbn [length seq combine]; [destruct i; reflexivity|]. destruct i as [|i]; cbn [nth_error option_map]; [rewrite Nat.add_0_r; reflexivity|].
  rewrite IH. replace (S s + i) with (s + S i) by lia. reflexivity.
Qed.
Lemma chain_seq d : forall k s, (forall t, s <= t < s + k -> links F d t (S t)) -> chain F d (seq s (S k)).
Proof.
  induction k as [|k IH]; intros s H; [exact I|]. change (seq s (S (S k))) with (s :: seq (S s) (S k)). change (chain F d (s :: seq (S s) (S k))) with (links F d s (S s) /\ chain F d (seq (S s) (S k))).
  split; [apply H; lia|]. apply IH. intros t Ht. apply H. lia.
Qed.
Lemma transform_half vs cap : length vs <= cap -> cap <= 2 ^ 16 -> 0 < length vs ->
  exists p, transform F vs cap = Some p /\ half p (length vs) (fun _ => []) /\ capacity F p = cap /\ length (data F p) = length vs /\ outline F p = vs.
Proof.
  intros H1 H2 H3. unfold transform, assert_. destruct (Nat.leb_spec (length vs) cap) as [_|C]; [|lia]. eexists. split; [reflexivity|]. cbn [data original capacity].
  set (d := map _ _).
  assert (ND : forall i v, nth_error vs i = Some v -> nth_error d i = Some (Vertex F v (if S i =? length vs then 0 else S i) (match i with O => length vs - 1 | S i' => i' end) 0 false false false (zero F))).
  { intros i v Hv. assert (LI : i < length vs) by (apply nth_error_Some; congruence). unfold d. rewrite nth_error_map, nth_error_combine_seq, Hv. cbn [option_map fst snd Nat.add]. f_equal. f_equal.
    - destruct (Nat.eqb_spec (S i) (length vs)); [reflexivity|]. apply index_small. lia.
    - destruct i as [|i]; [|apply index_small; lia]. unfold index. destruct (Nat.eq_dec (length vs) (2 ^ 16)) as [E|N].
      + rewrite E, Nat.mod_same by (apply Nat.pow_nonzero; discriminate). cbn [Nat.add]. apply Nat.mod_small. assert (0 < 2 ^ 16) by (apply Nat.neq_0_lt_0, Nat.pow_nonzero; discriminate). lia.
      + rewrite (Nat.mod_small (length vs)) by lia. assert (0 < 2 ^ 16) by (apply Nat.neq_0_lt_0, Nat.pow_nonzero; discriminate). symmetry. apply (Nat.mod_unique _ _ 1); lia. }
  assert (LD : length d = length vs) by (unfold d; rewrite map_length, combine_length, seq_length; lia).
  assert (FD : forall {A} (g : vertex F -> A) i, i < length vs -> exists v, ClSpec.field F g d i = Some (g (Vertex F v (if S i =? length vs then 0 else S i) (match i with O => length vs - 1 | S i' => i' end) 0 false false false (zero F)))).
  { intros A g i Hi. destruct (nth_error vs i) as [v|] eqn:Hv; [|apply nth_error_None in Hv; lia]. exists v. unfold ClSpec.field. rewrite (ND i v Hv). reflexivity. }
  assert (OR : order (length vs) (fun _ => []) = seq 0 (length vs)).
  { unfold order. generalize 0 as s. generalize (length vs) as k. induction k as [|k IH]; intros s; [reflexivity|]. cbn [seq flat_map app]. rewrite IH. reflexivity. }
  split; [|split; [reflexivity|split; [exact LD|]]].
  - constructor.
    + constructor; cbn [data].
      * rewrite OR. apply seq_NoDup.
      * rewrite OR, LD. intros i. rewrite in_seq. lia.
      * rewrite OR. destruct (length vs) as [|k] eqn:K; [lia|].
        assert (E : seq 0 (S k) ++ [0] = seq 0 k ++ k :: 0 :: []) by (rewrite seq_S, <- app_assoc; reflexivity). rewrite E. apply chain_join. split; [|split; [|exact I]].
        -- assert (E2 : seq 0 k ++ [k] = seq 0 (S k)) by (rewrite seq_S; reflexivity). rewrite E2. apply chain_seq. intros t Ht. split.
           ++ destruct (FD _ (next F) t) as [v ->]; [lia|]. cbn [next]. destruct (Nat.eqb_spec (S t) (S k)); [lia|reflexivity].
           ++ destruct (FD _ (prev F) (S t)) as [v ->]; [lia|]. reflexivity.
        -- split.
           ++ destruct (FD _ (next F) k) as [v ->]; [lia|]. cbn [next]. rewrite Nat.eqb_refl. reflexivity.
           ++ destruct (FD _ (prev F) 0) as [v ->]; [lia|]. cbn [prev]. f_equal. lia.
      * intros i Hi. rewrite LD in Hi. destruct (FD _ (isect F) i Hi) as [v ->]. cbn [isect]. f_equal. symmetry. apply Nat.leb_gt. exact Hi.
      * intros e u _ [].
    + reflexivity.
    + cbn [data]. intros i Hi. rewrite LD in Hi. destruct (FD _ (exit F) i Hi) as [v ->]. destruct (FD _ (seen F) i Hi) as [v' ->]. split; reflexivity.
    + intros e _. exact I.
  - unfold outline. cbn [data original]. rewrite firstn_all2 by lia. unfold d. rewrite map_map. cbn [pos].
    assert (G : forall (l : list (vec F)) s, map (fun x : nat * vec F => snd x) (combine (seq s (length l)) l) = l) by (induction l as [|x l IH]; intros s; [reflexivity|]; cbn [length seq combine map snd]; rewrite IH; reflexivity).
    apply G.
Qed.

Theorem find_correct va vb capa capb : 0 < length va -> 0 < length vb -> length va + length va * length vb <= capa <= 2 ^ 16 -> length vb + length va * length vb <= capb <= 2 ^ 16 ->
  exists a b, transform F va capa = Some a /\ transform F vb capb = Some b /\ outline F a = va /\ outline F b = vb /\ forall fuel, exists r, find_intersections F fuel a b = Some r
  /\ match r with None => True | Some (a', b') => exists sa sb pairs, both va vb a' b' (length va) (length vb) (length va) 0 sa sb pairs end.
Proof.
  intros Ha Hb Ca Cb. destruct (transform_half va capa) as [a [A1 [A2 [A3 [A4 A5]]]]]; [lia|lia|lia|]. destruct (transform_half vb capb) as [b [B1 [B2 [B3 [B4 B5]]]]]; [lia|lia|lia|].
  exists a, b. split; [exact A1|]. split; [exact B1|]. split; [exact A5|]. split; [exact B5|]. intros fuel. unfold find_intersections. rewrite (half_size _ _ _ A2), (half_size _ _ _ B2).
  apply (outer_both va vb (length va) (length vb) fuel Hb (length va) a b 0 (fun _ => []) (fun _ => []) []); [|lia].
  constructor; try assumption; try (rewrite A3 || rewrite B3; assumption); [|cbn [length]; lia|intros e f []| | | |].
  1: constructor; cbn [length]; try lia; [constructor|]; intros m e f Hm; destruct m; discriminate.
  1: exact eq_refl. 1: exact eq_refl.
  all: constructor; [intros i v Hv; exists v; split; [|apply moved_none]|intros m e Hm; destruct m; discriminate].
  1: rewrite <- A5 in Hv; unfold outline in Hv; rewrite (half_size _ _ _ A2), firstn_all2 in Hv by lia. 2: rewrite <- B5 in Hv; unfold outline in Hv; rewrite (half_size _ _ _ B2), firstn_all2 in Hv by lia.
  all: rewrite nth_error_map in Hv; exact Hv.
Qed.
End Find.
