(** C152-C155: clipping of polygons (tm_polygon.h). *)
From Coq Require Import Arith ZArith Bool Lia List.
From Flocq Require Import Core IEEE754.BinarySingleNaN.
From Verif Require Import Base UtFloatModel PgModel PgFloat ClModel ClSpec ClProofs ClFind ClMark ClArcs ClEmit ClClip.
Import ListNotations.

(** Less than holds one way only; this is all that is asked of the arithmetic. *)
Definition asymmetric (F : arith) : Prop := forall x y, ltb F x y = true -> ltb F y x = false.
Theorem C152_floats_asymmetric : asymmetric floats.
Proof.
  intros x y. change (Bltb x y = true -> Bltb y x = false). unfold Bltb, SpecFloat.SFltb. change (SpecFloat.SFcompare (B2SF x) (B2SF y)) with (Bcompare x y). change (SpecFloat.SFcompare (B2SF y) (B2SF x)) with (Bcompare y x).
  rewrite (Bcompare_swap _ _ x y). destruct (Bcompare x y) as [[| |]|]; cbn [CompOpp]; congruence.
Qed.

(** Whatever the coordinates: no fault; when the search ends, both polygons are closed rings of their corners and the crossings between them, in order
    along each edge; each pair of edges crosses once at most; a crossing is the same point on both, lies on its edges, and corners were pushed at most. *)
Theorem C152_crossings_partial : forall F, asymmetric F -> forall va vb capa capb, 0 < length va -> 0 < length vb ->
  length va + length va * length vb <= capa <= 2 ^ 16 -> length vb + length va * length vb <= capb <= 2 ^ 16 ->
  exists a b, transform F va capa = Some a /\ transform F vb capb = Some b /\ outline F a = va /\ outline F b = vb /\
  forall fuel, find_intersections F fuel a b = Some None \/
    exists a' b' sa sb pairs, find_intersections F fuel a b = Some (Some (a', b')) /\ ring F (data F a') (length va) sa /\ ring F (data F b') (length vb) sb /\
      crossed F (data F a') (data F b') (length va) (length vb) sa sb pairs /\ (forall e, e < length va -> ascending F (data F a') (sa e)) /\ (forall e, e < length vb -> ascending F (data F b') (sb e)) /\
      placed F true va (data F a') (map fst pairs) /\ placed F false vb (data F b') (map snd pairs).
Proof.
  intros F AS va vb capa capb Ha Hb Ca Cb. destruct (find_correct F AS va vb capa capb Ha Hb Ca Cb) as (a & b & TA & TB & OA & OB & H). exists a, b. repeat (split; [assumption|]). intros fuel. destruct (H fuel) as (r & E & R). rewrite E.
  destruct r as [[a' b']|]; [right|left; reflexivity]. destruct R as (sa & sb & pairs & [B1 B2 B3 B4 B5 B6 B7 B8 B9 B10 B11]). exists a', b', sa, sb, pairs. split; [reflexivity|]. split; [apply B1|]. split; [apply B2|]. split; [exact B3|]. split; [apply B1|]. split; [apply B2|]. split; [exact B10|exact B11].
Qed.

(** Not every search ends: a push along the normal of a short edge is lost in the rounding of large coordinates. *)
Definition at_ (x y : Z) : vec floats := (fnum x 0, fnum y 0).
Definition far_a := [at_ 5000 5001; at_ 5002 5000; at_ 5002 5002].
Definition far_b := [at_ 5000 5002; at_ 4998 5001; at_ 5000 5000].
Lemma update_same {A : Type} (l : list A) i f x : nth_error l i = Some x -> f x = x -> update l i f = Some l.
Proof.
  intros N E. unfold update. rewrite N, E. f_equal. revert l N. induction i as [|i IH]; intros [|y l] N; cbn in *; try discriminate; [congruence|]. f_equal. apply IH. exact N.
Qed.
Lemma inner_stuck F fuel a b i ap j bp : edges F a b i ap j bp = Some (false, a, b) -> j < original F b -> inner F fuel a b i ap j bp = Some None.
Proof. intros E H. induction fuel as [|fuel IH]; cbn [inner]; (destruct (Nat.ltb_spec j (original F b)) as [_|C]; [|lia]); [reflexivity|]. rewrite E. exact IH. Qed.
Lemma edges_stuck F a b i ap j bp va vap vb vbp al be : nth_error (data F a) i = Some va -> nth_error (data F a) ap = Some vap -> nth_error (data F b) j = Some vb -> nth_error (data F b) bp = Some vbp ->
  factor F (pos F vap) (minus F (pos F va) (pos F vap)) (pos F vbp) (minus F (pos F vb) (pos F vbp)) = Some al -> factor F (pos F vbp) (minus F (pos F vb) (pos F vbp)) (pos F vap) (minus F (pos F va) (pos F vap)) = Some be ->
  leb F (zero F) al && leb F al (one F) && leb F (zero F) be && leb F be (one F) = true -> leb F al (near0 F) = false -> leb F (near1 F) al = true -> pushed F (minus F (pos F vb) (pos F vbp)) (pos F va) = pos F va ->
  edges F a b i ap j bp = Some (false, a, b).
Proof.
  intros N1 N2 N3 N4 F1 F2 C1 C2 C3 P. unfold edges. rewrite N1, N2, N3, N4. cbv beta iota zeta. rewrite F1, F2, C1, C2, C3. rewrite (update_same (data F a) i _ va N1).
  - destruct a; reflexivity.
  - cbv beta. rewrite P. destruct va; reflexivity.
Qed.
Lemma outline_nth F p vs i x : outline F p = vs -> nth_error vs i = Some x -> exists v, nth_error (data F p) i = Some v /\ pos F v = x.
Proof.
  intros <- H. unfold outline in H. rewrite ClFind.nth_error_map in H. destruct (nth_error (firstn (original F p) (data F p)) i) as [v|] eqn:E; [|discriminate]. exists v. cbn [option_map] in H. split; [|congruence].
  assert (L : i < length (firstn (original F p) (data F p))) by (apply nth_error_Some; congruence). rewrite <- (firstn_skipn (original F p) (data F p)). rewrite nth_error_app1 by exact L. exact E.
Qed.
Lemma vec_eq (q r : vec floats) : B2SF (fst q) = B2SF (fst r) -> B2SF (snd q) = B2SF (snd r) -> q = r.
Proof. destruct q, r. cbn [fst snd]. intros E1 E2. apply B2SF_inj in E1. apply B2SF_inj in E2. congruence. Qed.
Definition near_end (r1 r2 : option float) : bool :=
  match r1, r2 with Some al, Some be => leb floats (zero floats) al && leb floats al (one floats) && leb floats (zero floats) be && leb floats be (one floats) && negb (leb floats al (near0 floats)) && leb floats (near1 floats) al | _, _ => false end.
Theorem C152_endless_refuted : exists va vb capa capb, length va + length va * length vb <= capa <= 2 ^ 16 /\ length vb + length va * length vb <= capb <= 2 ^ 16 /\
  exists a b, transform floats va capa = Some a /\ transform floats vb capb = Some b /\ forall fuel, find_intersections floats fuel a b = Some None.
Proof.
  exists far_a, far_b, 12, 12. assert (P : 12 <= 2 ^ 16) by (apply (Nat.le_trans _ (2 ^ 4)); [cbn; lia|apply Nat.pow_le_mono_r; lia]).
  assert (LA : length far_a = 3) by reflexivity. assert (LB : length far_b = 3) by reflexivity. rewrite LA, LB. split; [lia|]. split; [lia|].
  destruct (transform_half floats far_a 12) as (a & TA & HA & _ & _ & OA); [lia|lia|lia|]. destruct (transform_half floats far_b 12) as (b & TB & HB & _ & _ & OB); [lia|lia|lia|].
  exists a, b. split; [exact TA|]. split; [exact TB|]. intros fuel. unfold find_intersections. rewrite (half_size _ _ _ _ HA), (half_size _ _ _ _ HB), LA, LB. cbn [outer Nat.sub].
  destruct (outline_nth floats a far_a 0 _ OA eq_refl) as (v0 & N0 & P0). destruct (outline_nth floats a far_a 2 _ OA eq_refl) as (v2 & N2 & P2).
  destruct (outline_nth floats b far_b 0 _ OB eq_refl) as (w0 & M0 & Q0). destruct (outline_nth floats b far_b 2 _ OB eq_refl) as (w2 & M2 & Q2).
  assert (CK : near_end (factor floats (pos floats v2) (minus floats (pos floats v0) (pos floats v2)) (pos floats w2) (minus floats (pos floats w0) (pos floats w2)))
                        (factor floats (pos floats w2) (minus floats (pos floats w0) (pos floats w2)) (pos floats v2) (minus floats (pos floats v0) (pos floats v2))) = true) by (rewrite P0, P2, Q0, Q2; vm_compute; reflexivity).
  destruct (factor floats (pos floats v2) _ _ _) as [al|] eqn:E1; [|discriminate]. destruct (factor floats (pos floats w2) _ _ _) as [be|] eqn:E2; [|discriminate]. cbn [near_end] in CK. apply andb_prop in CK. destruct CK as [CK C3]. apply andb_prop in CK. destruct CK as [C1 C2]. apply negb_true_iff in C2.
  rewrite (inner_stuck floats fuel a b 0 2 0 2); [reflexivity| |rewrite (half_size _ _ _ _ HB), LB; lia].
  apply (edges_stuck floats a b 0 2 0 2 v0 v2 w0 w2 al be); try assumption. rewrite P0, Q0, Q2. apply vec_eq; vm_compute; reflexivity.
Qed.

(** Every crossing is marked as an exit or an entry: the first one according to where corner 0 is, by the even-odd rule, and then in turns. *)
Theorem C153_entries : forall F va vb a b sa sb adir bdir, ring F (data F a) va sa -> ring F (data F b) vb sb -> original F a = va -> original F b = vb -> 0 < va -> 0 < vb ->
  (forall i, i < length (data F a) -> field F (exit F) (data F a) i = Some false /\ field F (seen F) (data F a) i = Some false) ->
  (forall i, i < length (data F b) -> field F (exit F) (data F b) i = Some false /\ field F (seen F) (data F b) i = Some false) ->
  (forall e, e < va -> ascending F (data F a) (sa e)) -> (forall e, e < vb -> ascending F (data F b) (sb e)) ->
  exists a' b', mark F a b adir bdir = Some (a', b') /\ outline F a' = outline F a /\ outline F b' = outline F b /\ ring F (data F a') va sa /\ ring F (data F b') vb sb /\
    (forall p u q, order va sa = p ++ u :: q -> va <= u ->
       field F (exit F) (data F a') u = Some (xorb (xorb (inner_point F (outline F b) (hd (zero F, zero F) (outline F a))) (negb adir)) (Nat.odd (length (filter (fun v => va <=? v) p))))) /\
    (forall p u q, order vb sb = p ++ u :: q -> vb <= u ->
       field F (exit F) (data F b') u = Some (xorb (xorb (inner_point F (outline F a) (hd (zero F, zero F) (outline F b))) (negb bdir)) (Nat.odd (length (filter (fun v => vb <=? v) p))))).
Proof.
  intros F na nb a b sa sb adir bdir RA RB OA OB Ha Hb CA CB SA SB.
  destruct (mark_correct F a b na nb sa sb adir bdir) as (a' & b' & MK & O1 & O2 & _ & _ & M1 & M2 & K1 & K2); [constructor; assumption|constructor; assumption|exact Ha|exact Hb|].
  exists a', b'. split; [exact MK|]. split; [apply (outline_frame F (bare F)); [apply bare_pos|congruence|exact M1]|]. split; [apply (outline_frame F (bare F)); [apply bare_pos|congruence|exact M2]|].
  split; [apply (ring_frame F (bare F) (data F a)); [apply bare_next|apply bare_prev|apply bare_isect|exact M1|exact RA]|]. split; [apply (ring_frame F (bare F) (data F b)); [apply bare_next|apply bare_prev|apply bare_isect|exact M2|exact RB]|].
  split; [exact K1|exact K2].
Qed.

(** With an even number of crossings, enough memory and any arithmetic: the polygons written are closed walks along the outlines that pass every crossing once
    and just the corners that lie on the side asked for (each crossing changes sides), no place twice; and every polygon's size is right. *)
Theorem C154_clip_partial : forall F, asymmetric F -> forall va vb capa capb fuel a b a' b' adir bdir maxp max, 0 < length va -> 0 < length vb ->
  length va + length va * length vb <= capa <= 2 ^ 16 -> length vb + length va * length vb <= capb <= 2 ^ 16 ->
  transform F va capa = Some a -> transform F vb capb = Some b -> find_intersections F fuel a b = Some (Some (a', b')) -> let k := length (data F a') - length va in
  0 < k -> Nat.even k = true -> length va + length vb + k <= max -> k <= 2 * maxp ->
  exists o sa sb Es, clip F fuel va vb capa capb adir bdir maxp max = Some (Some o) /\ ring F (data F a') (length va) sa /\ ring F (data F b') (length vb) sb /\
    written F (pair_of (data F a') (data F b')) (pair_of (length va) (length vb)) (pair_of sa sb)
      (pair_of (xorb (inner_point F (outline F b') (hd (zero F, zero F) (outline F a'))) (negb adir)) (xorb (inner_point F (outline F a') (hd (zero F, zero F) (outline F b'))) (negb bdir))) k o Es.
Proof.
  intros F AS va vb capa capb fuel a b a' b' adir bdir maxp max Ha Hb Ca Cb TA TB FI k K0 EK MA MP.
  assert (k <> 1) by (intros E; rewrite E in EK; discriminate).
  destruct (clip_correct F AS va vb capa capb fuel a b a' b' adir bdir maxp max Ha Hb Ca Cb TA TB FI EK MA ltac:(fold k in MP; lia) MP) as (o & sa & sb & E & RA & RB & W). fold k in W. cbv zeta in W. destruct (Nat.eqb_spec k 0) as [Z|_]; [lia|]. destruct W as (Es & W).
  exists o, sa, sb, Es. repeat (split; [assumption|]). exact W.
Qed.
(** Outlines that do not cross: the one inside is the result, for the intersection rightly so. *)
Theorem C155_apart : forall F, asymmetric F -> forall va vb capa capb fuel a b a' b' adir bdir maxp max, 0 < length va -> 0 < length vb ->
  length va + length va * length vb <= capa <= 2 ^ 16 -> length vb + length va * length vb <= capb <= 2 ^ 16 ->
  transform F va capa = Some a -> transform F vb capb = Some b -> find_intersections F fuel a b = Some (Some (a', b')) -> length (data F a') = length va ->
  length va + length vb <= max -> 1 <= maxp ->
  clip F fuel va vb capa capb adir bdir maxp max = Some (Some
    (if inner_point F (outline F b') (hd (zero F, zero F) (outline F a')) then Output F (outline F a') [(0, Some (length va))]
     else if inner_point F (outline F a') (hd (zero F, zero F) (outline F b')) then Output F (outline F b') [(0, Some (length vb))] else Output F [] [])).
Proof.
  intros F AS va vb capa capb fuel a b a' b' adir bdir maxp max Ha Hb Ca Cb TA TB FI LK MA MP.
  destruct (clip_correct F AS va vb capa capb fuel a b a' b' adir bdir maxp max Ha Hb Ca Cb TA TB FI) as (o & sa & sb & E & RA & RB & W); rewrite ?LK, ?Nat.sub_diag; [reflexivity|lia|exact MP|lia|].
  rewrite E. cbv zeta in W. rewrite LK, Nat.sub_diag in W. cbn [Nat.eqb] in W. rewrite W. reflexivity.
Qed.

(** Corners that are pushed after crossings were found can leave an odd number of them; the walk then does not come back and fills the memory. *)
Definition odd_a := [at_ 1 0; at_ 0 0; at_ 0 2].
Definition odd_b := [at_ 1 1; at_ 1 0; at_ 2 1].
Definition counted (r : option (option (vertices floats * vertices floats))) (n : nat) : bool := match r with Some (Some (a, _)) => length (data floats a) =? n | _ => false end.
Lemma fault_none {A : Type} (x : option A) : match x with None => true | Some _ => false end = true -> x = None.
Proof. destruct x; [discriminate|reflexivity]. Qed.
Theorem C154_odd_refuted : exists va vb a b, transform floats va 12 = Some a /\ transform floats vb 12 = Some b /\ counted (find_intersections floats 20 a b) (length va + 3) = true /\
  forall adir, clip floats 20 va vb 12 12 adir true 12 200 = None.
Proof.
  exists odd_a, odd_b. eexists. eexists. split; [reflexivity|]. split; [reflexivity|]. split; [vm_compute; reflexivity|]. intros adir. apply fault_none. destruct adir; vm_compute; reflexivity.
Qed.
(** The union of two polygons that lie apart is empty. *)
Definition shown (o : option (option (output floats))) : option (list (SpecFloat.spec_float * SpecFloat.spec_float) * list (nat * option nat)) :=
  match o with Some (Some o) => Some (map (fun v => (B2SF (fst v), B2SF (snd v))) (out floats o), polys floats o) | _ => None end.
Theorem C155_union_refuted : exists va vb, (forall u v, In u va -> In v vb -> ltb floats (fst u) (fst v) = true) /\ shown (clip floats 20 va vb 12 12 false false 12 200) = Some ([], []).
Proof.
  exists [at_ 0 0; at_ 1 0; at_ 0 1], [at_ 5 5; at_ 6 5; at_ 5 6]. split; [|vm_compute; reflexivity].
  intros u v Hu Hv. cbn [In] in Hu, Hv. destruct Hu as [<-|[<-|[<-|[]]]]; destruct Hv as [<-|[<-|[<-|[]]]]; vm_compute; reflexivity.
Qed.

(** Examples: two squares *)
Definition square_a := [at_ 0 0; at_ 2 0; at_ 2 2; at_ 0 2].
Definition square_b := [at_ 1 1; at_ 3 1; at_ 3 3; at_ 1 3].
Definition xy (l : list (Z * Z)) : list (SpecFloat.spec_float * SpecFloat.spec_float) := map (fun v => (B2SF (fnum (fst v) 0), B2SF (fnum (snd v) 0))) l.
Example C154_two_squares :
  counted (r <- transform floats square_a 20 ;; s <- transform floats square_b 20 ;; find_intersections floats 20 r s) 6 = true /\
  shown (clip floats 20 square_a square_b 20 20 true true 1 10) = Some (xy [(2, 2); (1, 2); (1, 1); (2, 1)]%Z, [(0, Some 4)]).
Proof. split; vm_compute; reflexivity. Qed.
(** The crossings of the two squares: of each, one is an exit and one is an entry *)
Definition exits (r : option (vertices floats * vertices floats)) : option (list bool * list bool) := match r with Some (a, b) => Some (map (exit floats) (data floats a), map (exit floats) (data floats b)) | None => None end.
Example C153_two_squares : exits (a <- transform floats square_a 20 ;; b <- transform floats square_b 20 ;; r <- find_intersections floats 20 a b ;; match r with Some (a, b) => mark floats a b true true | None => None end)
  = Some ([false; false; false; false; false; true], [false; false; false; false; true; false]).
Proof. vm_compute. reflexivity. Qed.
Example C154_difference : exists l, shown (clip floats 20 square_a square_b 20 20 false true 1 10) = Some (l, [(0, Some 6)]) /\ length l = 6.
Proof. eexists. split; [vm_compute; reflexivity|reflexivity]. Qed.
(** and four pieces of two bars *)
Definition bar_a := [at_ 0 4; at_ 10 4; at_ 10 6; at_ 0 6].
Definition bar_b := [at_ 4 0; at_ 6 0; at_ 6 10; at_ 4 10].
Example C154_two_bars : exists l, shown (clip floats 20 bar_a bar_b 20 20 false true 2 12) = Some (l, [(0, Some 4); (4, Some 4)]) /\ length l = 8.
Proof. eexists. split; [vm_compute; reflexivity|reflexivity]. Qed.
Example C155_inner : shown (clip floats 20 [at_ 0 0; at_ 9 0; at_ 0 9] [at_ 1 1; at_ 2 1; at_ 1 2] 20 20 true true 1 10) = Some (xy [(1, 1); (2, 1); (1, 2)]%Z, [(0, Some 3)]).
Proof. vm_compute. reflexivity. Qed.

Print Assumptions C152_floats_asymmetric.
Print Assumptions C152_crossings_partial.
Print Assumptions C152_endless_refuted.
Print Assumptions C153_entries.
Print Assumptions C154_clip_partial.
Print Assumptions C155_apart.
Print Assumptions C154_odd_refuted.
Print Assumptions C155_union_refuted.
