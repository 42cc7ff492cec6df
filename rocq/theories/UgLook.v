(** Lookup in the generated tables. *)
From Coq Require Import ZArith NArith List Bool Lia Arith.
From Verif Require Import UgModel UgLists UgOne UgTriv UgTab.
Import ListNotations.

Lemma flat_nth {A C} (f : A -> list C) B l : (forall x, In x l -> List.length (f x) = B) ->
  forall b x j, nth_error l b = Some x -> (j < B)%nat -> nth_error (flat_map f l) (b * B + j) = nth_error (f x) j.
Proof.
  induction l as [|y l IH]; intros L b x j N J; [destruct b; discriminate|]. cbn [flat_map].
  assert (Ly : List.length (f y) = B) by (apply L; now left).
  destruct b as [|b].
  - cbn in N. injection N as ->. cbn. apply nth_error_app1. lia.
  - cbn [nth_error] in N. rewrite nth_error_app2 by lia. rewrite <- (IH (fun z I => L z (or_intror I)) b x j N J). f_equal. lia.
Qed.

Lemma trivial_in b rs : trivial b = Some rs -> exists e, case_expr (List.length b) rs = Some e /\ forall off, In (eval e off) b.
Proof.
  unfold trivial. destruct (extract 5 0 b) as [rs' rest] eqn:E. intros H. destruct rest; [|discriminate].
  destruct (extract_spec _ _ _ _ _ E) as (T & _ & C).
  assert (Five : forall r, In r rs' -> (rg_first r < rg_last r)%nat).
  { clear -T. revert T. generalize 0%nat at 1 as pos. intros pos. generalize (0 + (List.length b - List.length (@nil nat)))%nat as e. revert pos.
    induction rs' as [|r l IH]; intros pos e T q I; [destruct I|].
    cbn [tiles] in T. destruct T as (T1 & T2 & T3). destruct I as [<-|I]; [lia|eauto]. }
  assert (V : forall r, In r rs' -> In (rg_value r) b).
  { intros r I. assert (F := Five r I). assert (Q := C r (rg_first r) I ltac:(lia)). unfold cell in Q. cbn [Nat.leb] in Q. rewrite Nat.sub_0_r in Q.
    eapply nth_error_In; eauto. }
  assert (RE : forall B f l x y off, In x b -> In y b -> In (eval (range_expr B f l x y) off) b).
  { intros B f l x y off X Y. unfold range_expr. repeat match goal with |- context [if ?c then _ else _] => destruct c end; cbn [eval];
      repeat match goal with |- context [if ?c then _ else _] => destruct c end; assumption. }
  assert (R2 : forall i j x y off, In x b -> In y b -> In (eval (IfEq2 i j x y) off) b).
  { intros i j x y off X Y. cbn [eval]. destruct (_ || _); assumption. }
  assert (I0 : forall (x : range) l, rs' = x :: l -> In (rg_value x) b) by (intros x l ->; apply V; now left).
  assert (I1 : forall (x y : range) l, rs' = x :: y :: l -> In (rg_value y) b) by (intros x y l ->; apply V; right; now left).
  destruct rs' as [|r0 [|r1 [|r2 [|r3 [|r4 [|r5 q]]]]]]; try discriminate.
  all: try (match type of H with (if ?c then _ else _) = _ => destruct c; [|discriminate] end).
  all: injection H as <-; cbn [case_expr]; eexists; (split; [reflexivity|]); intros off.
  - cbn [eval]. eauto.
  - apply RE; eauto.
  - apply RE; eauto.
  - destruct (rg_length r0 =? 1)%nat; apply R2; eauto.
  - apply R2; eauto.
Qed.

Definition two_cells (t : tables) : list nat := flat_map pl_block (filter nontrivial (t_two t)).

(** Every cell of the tables can be found, unless its block is awkward. *)
Lemma prune_lookup B P fl t tb w : (0 < B)%nat -> wf B t -> prune P fl t = Some tb -> two_code B fl tb = Some w ->
  List.length (t_one tb) = List.length (one t) /\
  (f_prune1 fl = true -> (t_one_size tb = 1%nat \/ t_one_size tb <= List.length (t_one tb))%nat) /\
  (f_prune1 fl = false -> t_one_size tb = 0%nat) /\
  w_blocks w = List.length (t_two tb) /\
  (forall i, (i < List.length (one t))%nat -> exists b blk, nth_error (t_one tb) i = Some b /\ (b < List.length (t_two tb))%nat /\
     In blk (map pl_block (t_two tb)) /\ List.length blk = B /\
     (forall j, (j < B)%nat -> nth_error blk j = Some (cell_of (look t i j))) /\
     (forall asserts j, (j < B)%nat -> exists v, run_two B asserts (zs (two_cells tb)) w b j = Some (Z.of_nat v) /\ In v blk /\
        (f_prune2 fl = false \/ ~ awkward blk -> v = cell_of (look t i j)))) /\
  (forall i, (i < List.length (one t))%nat -> (forall j, (j < B)%nat -> cell_of (look t i j) = 0%nat) -> nth_error (t_one tb) i = Some (t_start tb)).
Proof.
  intros HB W H Hw. unfold prune in H.
  destruct (prune_duplicates t) as [[s1 bs]|] eqn:PD; [|discriminate]. cbn [obind] in H.
  destruct (prune_duplicates_spec B t s1 bs W PD) as (L1 & Cells & ND & Used & LenB & Zero).
  assert (Size : forall s1' start size, List.length s1' = List.length s1 ->
            (if f_prune1 fl then shrink s1' start (P - 1) else Some 0%nat) = Some size ->
            (f_prune1 fl = true -> (size = 1%nat \/ size <= List.length s1')%nat) /\ (f_prune1 fl = false -> size = 0%nat)).
  { intros s1' start size L Hs. destruct (f_prune1 fl); [|split; [discriminate|intros _; congruence]].
    split; [intros _|discriminate]. destruct (P - 1)%nat as [|n] eqn:Pn.
    - cbn in Hs. injection Hs as <-. now left.
    - right. eapply shrink_le; [exact Hs|]. cbn [shrink] in Hs. apply nth_error_Some. intros X. rewrite X in Hs. discriminate. }
  (* the row of a zero block *)
  assert (Zidx : forall i, (i < List.length (one t))%nat -> (forall j, (j < B)%nat -> cell_of (look t i j) = 0%nat) ->
            nth_error s1 i = Some 0%nat /\ nth_error bs 0 = Some (repeat 0%nat B)).
  { intros i Li Z0. assert (B0 := Zero i Li Z0). destruct (Cells i Li) as (b & blk & Q1 & Q2 & Q3 & Q4). split; [|exact B0].
    assert (blk = repeat 0%nat B).
    { apply nth_error_ext. intros j. destruct (Nat.lt_ge_cases j B) as [J|J].
      - rewrite Q4 by exact J. rewrite nth_error_repeat by exact J. now rewrite Z0.
      - rewrite (proj2 (nth_error_None _ _)) by lia. symmetry. apply nth_error_None. rewrite repeat_length. exact J. }
    subst blk. rewrite Q1. f_equal. apply (proj1 (NoDup_nth_error bs) ND); [apply nth_error_Some; congruence|congruence]. }
  destruct (f_prune2 fl) eqn:P2.
  - unfold prune_trivial in H. destruct (place_one 0 bs) as [ps1 start] eqn:PO.
    destruct (place_one_spec _ _ _ _ PO) as (A1 & A2 & A3 & A4). rewrite Nat.sub_0_r in A3.
    destruct (place_two_spec ps1 start) as (B1 & B2 & B3 & B4). set (ps := place_two start ps1) in *.
    destruct (omap (fun i => let! p := nth_error ps i in Some (pl_index p)) s1) as [s1'|] eqn:OM; [|discriminate]. cbn [obind] in H.
    destruct (if f_prune1 fl then shrink s1' start (P - 1) else Some 0%nat) as [size|] eqn:SZ; [|discriminate]. cbn [obind] in H. injection H as <-.
    assert (Ls1 : List.length s1' = List.length s1) by apply (omap_length _ _ _ OM).
    destruct (Size _ _ _ Ls1 SZ) as [S1 S2].
    set (a := filter nontrivial ps) in *. set (c := filter (fun p => negb (nontrivial p)) ps) in *.
    assert (Lc : List.length (filter (fun p => negb (nontrivial p)) ps1) = List.length c).
    { rewrite <- (map_length pl_index c). rewrite B4. now rewrite seq_length. }
    assert (Ha : map pl_index a = seq 0 start) by (rewrite B3; exact A3).
    assert (Hc : map pl_index c = seq start (List.length c)) by (rewrite <- Lc; exact B4).
    assert (Re := rearrange_spec ps start Ha Hc). fold a c in Re.
    cbn [t_one t_two t_start t_one_size].
    unfold two_code in Hw. rewrite P2 in Hw. cbn [t_two t_start] in Hw. rewrite Re in Hw.
    assert (Rp : forall p, In p ps -> pl_ranges p = trivial (pl_block p)).
    { intros p I. apply In_nth_error in I. destruct I as [k K].
      assert (K1 := map_nth_error pl_block k ps K). rewrite B1 in K1. assert (K2 := map_nth_error pl_ranges k ps K). rewrite B2 in K2.
      rewrite nth_error_map in K1, K2. destruct (nth_error ps1 k) as [q|] eqn:Q; [|discriminate]. cbn in K1, K2.
      injection K1 as K1. injection K2 as K2. rewrite <- K1, <- K2. apply A2. eapply nth_error_In; eauto. }
    assert (Lps : forall p, In p ps -> List.length (pl_block p) = B).
    { intros p I. apply LenB. rewrite <- A1, <- B1. now apply in_map. }
    assert (La : List.length a = start). { rewrite <- (map_length pl_index a), Ha. apply seq_length. }
    assert (Ia : forall k p, nth_error a k = Some p -> pl_index p = k).
    { intros k p N. rewrite (nodup_nth_index a 0) with (k := k); [lia| |exact N]. now rewrite La. }
    assert (Ic : forall k p, nth_error c k = Some p -> pl_index p = (start + k)%nat) by (apply nodup_nth_index; exact Hc).
    assert (Fa : filter nontrivial (a ++ c) = a).
    { rewrite filter_app. assert (F1 : filter nontrivial a = a). { unfold a. clear. induction ps as [|p l IH]; cbn; [reflexivity|].
        destruct (nontrivial p) eqn:E; cbn; rewrite ?E, ?IH; reflexivity. }
      assert (F2 : filter nontrivial c = []). { unfold c. clear. induction ps as [|p l IH]; cbn; [reflexivity|].
        destruct (nontrivial p) eqn:E; cbn; rewrite ?E, ?IH; reflexivity. }
      now rewrite F1, F2, app_nil_r. }
    assert (Fc : filter (fun p => (start <=? pl_index p)%nat) (a ++ c) = c).
    { rewrite filter_app. assert (F1 : filter (fun p => (start <=? pl_index p)%nat) a = []).
      { assert (G : forall p, In p a -> (start <=? pl_index p)%nat = false).
        { intros p I. apply In_nth_error in I. destruct I as [k K]. rewrite (Ia k p K). apply Nat.leb_gt.
          assert (k < List.length a)%nat by (apply nth_error_Some; congruence). lia. }
        clear -G. induction a as [|p l IH]; [reflexivity|]. cbn. rewrite (G p (or_introl eq_refl)). apply IH. intros q Q. apply G. now right. }
      assert (F2 : filter (fun p => (start <=? pl_index p)%nat) c = c).
      { assert (G : forall p, In p c -> (start <=? pl_index p)%nat = true).
        { intros p I. apply In_nth_error in I. destruct I as [k K]. rewrite (Ic k p K). apply Nat.leb_le. lia. }
        clear -G. induction c as [|p l IH]; [reflexivity|]. cbn. rewrite (G p (or_introl eq_refl)), IH; [reflexivity|]. intros q Q. apply G. now right. }
      now rewrite F1, F2. }
    rewrite Fc in Hw.
    destruct (omap _ c) as [cases|] eqn:OC in Hw; [|discriminate]. cbn [obind] in Hw. injection Hw as <-. cbn [w_blocks].
    unfold two_cells. cbn [t_two]. rewrite Re, Fa.
    split; [now rewrite Ls1|]. split; [exact S1|]. split; [exact S2|]. split; [reflexivity|]. split.
    + intros i Li. destruct (Cells i Li) as (b & blk & Q1 & Q2 & Q3 & Q4).
      destruct (omap_nth _ _ _ _ _ OM Q1) as [b' [R1 R2]].
      destruct (nth_error ps b) as [p|] eqn:Pb; [|discriminate]. cbn [obind] in R2. injection R2 as <-.
      assert (Blk : pl_block p = blk).
      { assert (K1 := map_nth_error pl_block b ps Pb). rewrite B1, A1 in K1. congruence. }
      assert (Ip : In p ps) by (eapply nth_error_In; eauto).
      exists (pl_index p), blk. split; [exact R1|].
      assert (Pos : (nontrivial p = true /\ nth_error a (pl_index p) = Some p) \/
                    (nontrivial p = false /\ (start <= pl_index p)%nat /\ nth_error c (pl_index p - start) = Some p)).
      { destruct (nontrivial p) eqn:NT; [left|right]; (split; [reflexivity|]).
        - assert (I : In p a) by (apply filter_In; now split). apply In_nth_error in I. destruct I as [k K]. now rewrite (Ia k p K).
        - assert (I : In p c) by (apply filter_In; split; [exact Ip|now rewrite NT]). apply In_nth_error in I. destruct I as [k K].
          rewrite (Ic k p K). split; [lia|]. now replace (start + k - start)%nat with k by lia. }
      split; [|split; [|split; [exact Q3|split; [exact Q4|]]]].
      * rewrite app_length. destruct Pos as [[_ N]|[_ [G N]]].
        -- assert (pl_index p < List.length a)%nat by (apply nth_error_Some; congruence). lia.
        -- assert (pl_index p - start < List.length c)%nat by (apply nth_error_Some; congruence). lia.
      * rewrite <- Blk. apply in_map. apply in_or_app. destruct Pos as [[_ N]|[_ [_ N]]]; [left|right]; eapply nth_error_In; eauto.
      * intros asserts j J. unfold run_two. cbn [w_blocks w_prune w_start w_cases].
        assert (Lt : (pl_index p < List.length (a ++ c))%nat).
        { rewrite app_length. destruct Pos as [[_ N]|[_ [G N]]].
          - assert (pl_index p < List.length a)%nat by (apply nth_error_Some; congruence). lia.
          - assert (pl_index p - start < List.length c)%nat by (apply nth_error_Some; congruence). lia. }
        rewrite (proj2 (Nat.ltb_lt _ _) Lt), (proj2 (Nat.ltb_lt _ _) J), orb_true_r. cbn [guard obind].
        destruct Pos as [[NT N]|[NT [G N]]].
        -- assert (Ls : (pl_index p < start)%nat). { rewrite <- La. apply nth_error_Some. congruence. }
           rewrite (proj2 (Nat.ltb_lt _ _) Ls). unfold zs. rewrite nth_error_map.
           rewrite (flat_nth pl_block B a) with (x := p); [|intros x I; apply Lps; apply filter_In in I; tauto|exact N|exact J].
           rewrite Blk, Q4 by exact J. exists (cell_of (look t i j)). split; [reflexivity|]. split; [exact (nth_error_In _ _ (Q4 j J))|reflexivity].
        -- rewrite (proj2 (Nat.ltb_ge _ _) G).
           assert (Tr : exists rs, trivial blk = Some rs).
           { unfold nontrivial in NT. rewrite (Rp p Ip), Blk in NT. destruct (trivial blk); [eauto|discriminate]. }
           destruct Tr as [rs Tr]. destruct (trivial_in blk rs Tr) as [e [E1 E2]].
           assert (E3 : ~ awkward blk -> eval e j = cell_of (look t i j)).
           { intros NA. destruct (trivial_case blk rs j _ NA Tr (Q4 j J)) as [e' [E3 E4]]. congruence. }
           rewrite Q3 in E1.
           assert (Ic' : forall x, In x cases -> exists q, In q c /\ fst x = (pl_index q - start)%nat /\
                     (let! rs := pl_ranges q in case_expr B rs) = Some (snd x)).
           { intros x X. destruct (omap_in _ _ _ _ OC X) as [q [Iq Fq]]. exists q. split; [exact Iq|]. cbn in Fq.
             destruct (pl_ranges q) as [rq|]; [|discriminate]. cbn [obind] in Fq |- *.
             destruct (case_expr B rq); [|discriminate]. cbn [obind] in Fq. injection Fq as <-. now split. }
           assert (Uniq : forall q, In q c -> (pl_index q - start)%nat = (pl_index p - start)%nat -> q = p).
           { intros q Iq Eq. apply In_nth_error in Iq. destruct Iq as [k K]. rewrite (Ic k q K) in Eq.
             replace (start + k - start)%nat with k in Eq by lia. rewrite Eq in K. congruence. }
           destruct (find _ cases) as [x|] eqn:F.
           ++ apply find_some in F. destruct F as [F1 F2]. apply Nat.eqb_eq in F2. destruct (Ic' x F1) as [q (Iq & Eq & Cq)].
              assert (q = p) by (apply Uniq; [exact Iq|congruence]). subst q. rewrite (Rp p Ip), Blk, Tr in Cq. cbn [obind] in Cq.
              rewrite E1 in Cq. injection Cq as <-. exists (eval e j). split; [reflexivity|]. split; [apply E2|]. intros [X|X]; [discriminate|now apply E3].
           ++ exfalso. destruct (omap_nth _ _ _ _ _ OC N) as [x [X1 X2]].
              apply nth_error_In in X1. apply (find_none _ _ F) in X1. destruct (pl_ranges p); [|discriminate]. cbn [obind] in X2.
              destruct (case_expr B l); [|discriminate]. cbn [obind] in X2. injection X2 as <-. cbn in X1. rewrite Nat.eqb_refl in X1. discriminate.
    + intros i Li Z0. destruct (Zidx i Li Z0) as [Q1 Q2].
      destruct (omap_nth _ _ _ _ _ OM Q1) as [b' [R1 R2]].
      destruct (nth_error ps 0) as [p|] eqn:Pb; [|discriminate]. cbn [obind] in R2. injection R2 as <-. rewrite R1. f_equal.
      assert (Blk : pl_block p = repeat 0%nat B).
      { assert (K1 := map_nth_error pl_block 0 ps Pb). rewrite B1, A1 in K1. congruence. }
      assert (Ip : In p ps) by (eapply nth_error_In; eauto).
      assert (Tr : exists rs, trivial (repeat 0%nat B) = Some rs).
      { destruct B as [|n]; [lia|]. unfold trivial. cbn [repeat extract].
        assert (RL : run_length 0 (repeat 0%nat n) = n) by (clear; induction n; cbn; [reflexivity|now rewrite IHn]).
        rewrite RL. assert (SK : skipn n (repeat 0%nat n) = []) by (apply skipn_all2; rewrite repeat_length; lia). rewrite SK. cbn. eauto. }
      assert (NT : nontrivial p = false) by (unfold nontrivial; rewrite (Rp p Ip), Blk; destruct Tr as [rs ->]; reflexivity).
      (* p is the first of the blocks without table *)
      destruct ps as [|p' ps'] eqn:Eps; [discriminate|]. cbn in Pb. injection Pb as ->.
      unfold c in Hc. cbn [filter] in Hc. rewrite NT in Hc. cbn [negb map List.length seq] in Hc. now injection Hc as Hc _.
  - cbn [obind] in H.
    destruct (if f_prune1 fl then shrink s1 0 (P - 1) else Some 0%nat) as [size|] eqn:SZ; [|discriminate]. cbn [obind] in H. injection H as <-.
    destruct (Size _ _ _ eq_refl SZ) as [S1 S2]. cbn [t_one t_two t_start t_one_size].
    unfold two_code in Hw. rewrite P2 in Hw. cbn [obind] in Hw. injection Hw as <-. cbn [w_blocks].
    set (pls := map (fun b => {| pl_block := b; pl_ranges := None; pl_index := 0 |}) bs).
    assert (Fp : filter nontrivial pls = pls). { unfold pls. clear. induction bs as [|b l IH]; cbn; [reflexivity|now rewrite IH]. }
    assert (Mp : map pl_block pls = bs). { unfold pls. rewrite map_map. apply map_id. }
    unfold two_cells. cbn [t_two]. fold pls. rewrite Fp.
    split; [exact L1|]. split; [exact S1|]. split; [exact S2|]. split; [reflexivity|]. split.
    + intros i Li. destruct (Cells i Li) as (b & blk & Q1 & Q2 & Q3 & Q4). exists b, blk.
      assert (Lb : (b < List.length pls)%nat). { rewrite <- (map_length pl_block), Mp. apply nth_error_Some. congruence. }
      split; [exact Q1|]. split; [exact Lb|]. split; [rewrite Mp; eapply nth_error_In; eauto|]. split; [exact Q3|]. split; [exact Q4|].
      intros asserts j J. unfold run_two. cbn [w_blocks w_prune w_start w_cases].
      rewrite (proj2 (Nat.ltb_lt _ _) Lb), (proj2 (Nat.ltb_lt _ _) J), orb_true_r. cbn [guard obind].
      unfold zs. rewrite nth_error_map.
      destruct (nth_error pls b) as [p|] eqn:Np; [|apply nth_error_None in Np; lia].
      assert (Blk : pl_block p = blk) by (assert (K1 := map_nth_error pl_block b pls Np); rewrite Mp in K1; congruence).
      rewrite (flat_nth pl_block B pls) with (x := p); [|intros x I; apply LenB; rewrite <- Mp; now apply in_map|exact Np|exact J].
      rewrite Blk, Q4 by exact J. exists (cell_of (look t i j)). split; [reflexivity|]. split; [exact (nth_error_In _ _ (Q4 j J))|reflexivity].
    + intros i Li Z0. now destruct (Zidx i Li Z0).
Qed.
