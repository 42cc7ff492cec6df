(** What the tables hold after all data were added. *)
From Coq Require Import ZArith NArith List Bool Lia Arith.
From Verif Require Import UgModel UgLists UgType UgOne UgTriv UgTab UgLook UgRuns.
Import ListNotations.
Local Open Scope Z_scope.

Definition at_i (B : nat) (cp : N) : nat := N.to_nat (cp / N.of_nat B).
Definition at_j (B : nat) (cp : N) : nat := N.to_nat (cp mod N.of_nat B).
Lemma at_inj B a b : (0 < B)%nat -> at_i B a = at_i B b -> at_j B a = at_j B b -> a = b.
Proof.
  unfold at_i, at_j. intros HB H1 H2. apply N2Nat.inj in H1, H2.
  assert (N.of_nat B <> 0%N) by lia. rewrite (N.div_mod a (N.of_nat B)), (N.div_mod b (N.of_nat B)) by assumption. congruence.
Qed.
Lemma at_j_lt B cp : (0 < B)%nat -> (at_j B cp < B)%nat.
Proof. intros HB. unfold at_j. assert ((cp mod N.of_nat B < N.of_nat B)%N) by (apply N.mod_lt; lia). lia. Qed.

Lemma NoDup_app_comm_end {A} (l : list A) x : NoDup l -> ~ In x l -> NoDup (l ++ [x]).
Proof.
  induction 1 as [|a l N D IH]; intros X; cbn; [constructor; [intros []|constructor]|].
  constructor; [|apply IH; intros Y; apply X; now right].
  intros I. apply in_app_or in I. destruct I as [I|[->|[]]]; [tauto|]. apply X. now left.
Qed.

Definition full_of (f : full_case -> list Z) (d : udata) : list Z := match d_full d with Some x => f x | None => [] end.
(** The part of add_data on full case mappings. *)
Definition full_part (fl : flags) (u : ucd) (d : udata) :=
  match d_full d with
  | None => (r_upper u, 0, r_title u, 0, r_lower u, 0, 0, r_fold u, 0)
  | Some f =>
      let '(up1, i_up) := if f_full fl then add_unique_run (r_upper u) (fu_upper f) else (r_upper u, 0) in
      let '(ti1, i_ti) := if f_full fl then add_unique_run (r_title u) (fu_title f) else (r_title u, 0) in
      let '(lo1, i_lo) := if f_full fl then add_unique_run (r_lower u) (fu_lower f) else (r_lower u, 0) in
      let '(up2, lo2, i_tog) :=
        if f_full_toggle fl then
          if case_class (d_cat d) =? 2 then let '(r, i) := add_unique_run up1 (fu_upper f) in (r, lo1, i)
          else if case_class (d_cat d) =? 1 then let '(r, i) := add_unique_run lo1 (fu_lower f) in (up1, r, - i)
          else (up1, lo1, 0)
        else (up1, lo1, 0) in
      let '(fo1, i_fo) := if f_full_fold fl then add_unique_run (r_fold u) (fu_fold f) else (r_fold u, 0) in
      (up2, i_up, ti1, i_ti, lo2, i_lo, i_tog, fo1, i_fo)
  end.
Definition toggle_at (fl : flags) (up lo : list (list Z)) (d : udata) (i : Z) : Prop :=
  if f_full_toggle fl && (case_class (d_cat d) =? 2) then 0 <= i /\ run_at up i (full_of fu_upper d)
  else if f_full_toggle fl && (case_class (d_cat d) =? 1) then i <= 0 /\ run_at lo (- i) (full_of fu_lower d)
  else i = 0.
(** More runs, each of them [cps]. *)
Definition grown (a b : list (list Z)) (cps : list Z) : Prop := exists more, b = a ++ more /\ forall r, In r more -> r = cps.
Lemma grown_refl a c : grown a a c.
Proof. exists []. split; [now rewrite app_nil_r|intros ? []]. Qed.
Lemma grown_trans a b c x : grown a b x -> grown b c x -> grown a c x.
Proof.
  intros [m [-> M]] [n [-> N]]. exists (m ++ n). split; [now rewrite app_assoc|]. intros r I. apply in_app_or in I. destruct I; auto.
Qed.
Lemma grown_at a b x i c : grown a b x -> run_at a i c -> run_at b i c.
Proof. intros [m [-> _]]. apply run_at_app. Qed.
Lemma grown_led a b x : grown a b x -> led a -> led b.
Proof. intros [m [-> _]]. apply led_app. Qed.
Lemma led_at a : led a -> run_at a 0 [].
Proof. intros [m ->]. exists [], m. now split. Qed.
Lemma add_if_spec (b : bool) runs cps runs' i : led runs -> (if b then add_unique_run runs cps else (runs, 0)) = (runs', i) ->
  run_at runs' i (if b then cps else []) /\ grown runs runs' cps /\ (b = false -> runs' = runs).
Proof.
  intros L H. destruct b.
  - destruct (add_unique_run_spec _ _ _ _ L H) as [A G]. split; [exact A|]. split; [exact G|discriminate].
  - injection H as <- <-. split; [now apply led_at|]. split; [apply grown_refl|reflexivity].
Qed.
Lemma full_part_spec fl u d up i_up ti i_ti lo i_lo i_tog fo i_fo :
  led (r_upper u) -> led (r_title u) -> led (r_lower u) -> led (r_fold u) ->
  full_part fl u d = (up, i_up, ti, i_ti, lo, i_lo, i_tog, fo, i_fo) ->
  (grown (r_upper u) up (full_of fu_upper d) /\ grown (r_title u) ti (full_of fu_title d) /\
   grown (r_lower u) lo (full_of fu_lower d) /\ grown (r_fold u) fo (full_of fu_fold d)) /\
  run_at up i_up (if f_full fl then full_of fu_upper d else []) /\
  run_at ti i_ti (if f_full fl then full_of fu_title d else []) /\
  run_at lo i_lo (if f_full fl then full_of fu_lower d else []) /\
  run_at fo i_fo (if f_full_fold fl then full_of fu_fold d else []) /\
  toggle_at fl up lo d i_tog /\
  (f_full fl = false -> f_full_toggle fl = false -> up = r_upper u /\ ti = r_title u /\ lo = r_lower u) /\
  (f_full_fold fl = false -> fo = r_fold u).
Proof.
  intros L1 L2 L3 L4 H. unfold full_part in H. unfold toggle_at, full_of. destruct (d_full d) as [f|].
  - destruct (if f_full fl then add_unique_run (r_upper u) (fu_upper f) else (r_upper u, 0)) as [up1 a1] eqn:E1.
    destruct (if f_full fl then add_unique_run (r_title u) (fu_title f) else (r_title u, 0)) as [ti1 a2] eqn:E2.
    destruct (if f_full fl then add_unique_run (r_lower u) (fu_lower f) else (r_lower u, 0)) as [lo1 a3] eqn:E3.
    destruct (if f_full_fold fl then add_unique_run (r_fold u) (fu_fold f) else (r_fold u, 0)) as [fo1 a5] eqn:E5.
    destruct (add_if_spec _ _ _ _ _ L1 E1) as (A1 & G1 & K1). destruct (add_if_spec _ _ _ _ _ L2 E2) as (A2 & G2 & K2).
    destruct (add_if_spec _ _ _ _ _ L3 E3) as (A3 & G3 & K3). destruct (add_if_spec _ _ _ _ _ L4 E5) as (A5 & G5 & K5).
    destruct (f_full_toggle fl) eqn:T; cbn [andb].
    + destruct (case_class (d_cat d) =? 2) eqn:C2.
      * destruct (add_unique_run up1 (fu_upper f)) as [r i] eqn:E4. injection H as <- <- <- <- <- <- <- <- <-.
        destruct (add_unique_run_spec _ _ _ _ (grown_led _ _ _ G1 L1) E4) as [A4 G4]. change (grown up1 r (fu_upper f)) in G4.
        assert (R4 := run_at_range _ _ _ A4).
        split; [split; [eapply grown_trans; eauto|now split]|]. split; [eapply grown_at; eauto|].
        split; [exact A2|]. split; [exact A3|]. split; [exact A5|]. split; [split; [lia|exact A4]|]. split; [discriminate|exact K5].
      * destruct (case_class (d_cat d) =? 1) eqn:C1.
        -- destruct (add_unique_run lo1 (fu_lower f)) as [r i] eqn:E4. injection H as <- <- <- <- <- <- <- <- <-.
           destruct (add_unique_run_spec _ _ _ _ (grown_led _ _ _ G3 L3) E4) as [A4 G4]. change (grown lo1 r (fu_lower f)) in G4.
           assert (R4 := run_at_range _ _ _ A4).
           split; [split; [assumption|split; [assumption|split; [eapply grown_trans; eauto|assumption]]]|].
           split; [exact A1|]. split; [exact A2|]. split; [eapply grown_at; eauto|]. split; [exact A5|].
           split; [split; [lia|rewrite Z.opp_involutive; exact A4]|]. split; [discriminate|exact K5].
        -- injection H as <- <- <- <- <- <- <- <- <-. split; [now repeat split|]. repeat (split; [assumption|]). split; [reflexivity|]. split; [discriminate|exact K5].
    + injection H as <- <- <- <- <- <- <- <- <-. split; [now repeat split|]. repeat (split; [assumption|]). split; [reflexivity|].
      split; [intros F _; auto|exact K5].
  - injection H as <- <- <- <- <- <- <- <- <-. split; [repeat split; apply grown_refl|].
    assert (N : forall (b : bool), (if b then @nil Z else []) = []) by (intros []; reflexivity). rewrite !N.
    repeat (split; [now apply led_at|]). split; [|split; [intros; repeat split; reflexivity|reflexivity]].
    destruct (_ && _); [split; [lia|now apply led_at]|]. destruct (_ && _); [split; [lia|now apply led_at]|reflexivity].
Qed.

Definition simple_of (f : simple_case -> option Z) (d : udata) : option Z := match d_simple d with Some s => f s | None => None end.
Definition tagged_of (canonical : bool) (d : udata) : option Z :=
  match d_tag d with Some (c, v :: _) => if Bool.eqb c canonical then Some v else None | _ => None end.
(** The entry [e] is the one of [d]. *)
Record entry_of (fl : flags) (u : ucd) (d : udata) (e : edata) : Prop := {
  eo_flags : e_flags e = to_flags (f_category fl) (f_case_info fl) (d_cat d) (d_white d);
  eo_gb : e_gb e = if f_grapheme fl then grapheme_num (d_gb d) else 0;
  eo_upper : e_simple_upper e = if f_simple fl then shift_to (d_cp d) (simple_of s_upper d) else 0;
  eo_title : e_simple_title e = if f_simple fl then shift_to (d_cp d) (simple_of s_title d) else 0;
  eo_lower : e_simple_lower e = if f_simple fl then shift_to (d_cp d) (simple_of s_lower d) else 0;
  eo_fold : e_simple_fold e = if f_simple_fold fl then shift_to (d_cp d) (simple_of s_fold d) else 0;
  eo_toggle : e_simple_toggle e = if f_simple_toggle fl then
     (if case_class (d_cat d) =? 2 then shift_to (d_cp d) (simple_of s_upper d)
      else if case_class (d_cat d) =? 1 then shift_to (d_cp d) (simple_of s_lower d) else 0) else 0;
  eo_canonical : e_simple_canonical e = if f_canonical fl then shift_to (d_cp d) (tagged_of true d) else 0;
  eo_compat : e_simple_compat e = if f_compat fl then shift_to (d_cp d) (tagged_of false d) else 0;
  eo_fupper : run_at (r_upper u) (e_full_upper e) (if f_full fl then full_of fu_upper d else []);
  eo_ftitle : run_at (r_title u) (e_full_title e) (if f_full fl then full_of fu_title d else []);
  eo_flower : run_at (r_lower u) (e_full_lower e) (if f_full fl then full_of fu_lower d else []);
  eo_ffold : run_at (r_fold u) (e_full_fold e) (if f_full_fold fl then full_of fu_fold d else []);
  eo_ftoggle : toggle_at fl (r_upper u) (r_lower u) d (e_full_toggle e) }.

Record ucd_le (a b : ucd) : Prop := {
  le_upper : exists m, r_upper b = r_upper a ++ m; le_title : exists m, r_title b = r_title a ++ m;
  le_lower : exists m, r_lower b = r_lower a ++ m; le_fold : exists m, r_fold b = r_fold a ++ m;
  le_entries : exists m, r_entries b = r_entries a ++ m }.
Lemma entry_of_le fl a b d e : ucd_le a b -> entry_of fl a d e -> entry_of fl b d e.
Proof.
  intros [[m1 L1] [m2 L2] [m3 L3] [m4 L4] _] []. constructor; try assumption; rewrite ?L1, ?L2, ?L3, ?L4; try (now apply run_at_app).
  unfold toggle_at in *. destruct (_ && _); [split; [tauto|apply run_at_app; tauto]|]. destruct (_ && _); [split; [tauto|apply run_at_app; tauto]|assumption].
Qed.

(** The runs are made of the code points of the data. *)
Definition made (ds : list udata) (f : full_case -> list Z) (runs : list (list Z)) : Prop :=
  forall r, In r runs -> r = [] \/ exists d, In d ds /\ r = full_of f d.
Record inv (B : nat) (fl : flags) (ds : list udata) (u : ucd) : Prop := {
  iv_wf : wf B (r_staged u);
  iv_upper : led (r_upper u) /\ made ds fu_upper (r_upper u);
  iv_title : led (r_title u) /\ made ds fu_title (r_title u);
  iv_lower : led (r_lower u) /\ made ds fu_lower (r_lower u);
  iv_fold : led (r_fold u) /\ made ds fu_fold (r_fold u);
  iv_canonical : r_canonical u = [[]] /\ r_compat u = [[]];
  iv_off : f_full fl = false -> f_full_toggle fl = false -> r_upper u = [[]] /\ r_title u = [[]] /\ r_lower u = [[]];
  iv_nofold : f_full_fold fl = false -> r_fold u = [[]];
  iv_zero : nth_error (r_entries u) 0 = Some edata_zero;
  iv_nodup : NoDup (r_entries u);
  iv_entries : forall e, In e (r_entries u) -> e = edata_zero \/ exists d, In d ds /\ entry_of fl u d e;
  iv_data : forall d, In d ds -> (d_cp d <= 1114111)%N /\ (at_i B (d_cp d) < List.length (one (r_staged u)))%nat /\
     exists k e, look (r_staged u) (at_i B (d_cp d)) (at_j B (d_cp d)) = Some k /\ nth_error (r_entries u) k = Some e /\ entry_of fl u d e;
  iv_none : forall i j k, look (r_staged u) i j = Some k -> exists d, In d ds /\ i = at_i B (d_cp d) /\ j = at_j B (d_cp d);
  iv_distinct : NoDup (map d_cp ds) }.

Lemma inv_init B fl : inv B fl [] (ucd_init B).
Proof.
  assert (Ld : led [[]]) by (now exists []).
  assert (Md : forall f, made [] f [[]]) by (intros f r [<-|[]]; now left).
  constructor.
  - apply wf_init.
  - split; [exact Ld|apply Md].
  - split; [exact Ld|apply Md].
  - split; [exact Ld|apply Md].
  - split; [exact Ld|apply Md].
  - split; reflexivity.
  - intros _ _. repeat split; reflexivity.
  - reflexivity.
  - reflexivity.
  - constructor; [intros []|constructor].
  - intros e [<-|[]]. now left.
  - intros d [].
  - intros i j k H. rewrite look_init in H. discriminate.
  - constructor.
Qed.

Lemma made_grown ds d f a b : made ds f a -> grown a b (full_of f d) -> made (ds ++ [d]) f b.
Proof.
  intros M [m [-> G]] r I. apply in_app_or in I. destruct I as [I|I].
  - destruct (M r I) as [->|[x [X1 X2]]]; [now left|right; exists x; split; [apply in_or_app; now left|exact X2]].
  - right. exists d. split; [apply in_or_app; right; now left|now apply G].
Qed.

Lemma inv_step B fl ds u d u' : (0 < B)%nat -> inv B fl ds u -> add_data B fl u d = Some u' -> inv B fl (ds ++ [d]) u'.
Proof.
  intros HB I H. unfold add_data in H.
  destruct (guard (d_cp d <=? 1114111)%N) eqn:G; [|discriminate]. cbn [obind] in H. apply guard_some in G. apply N.leb_le in G.
  match type of H with (let '(_, _) := ?x in _) = _ => set (cc := x) in H end.
  assert (Canon : fst (fst cc) = [[]]).
  { destruct I as [_ _ _ _ _ [Ic _] _ _ _ _ _ _ _ _]. unfold cc.
    destruct (d_tag d) as [[[] [|v vs]]|]; try destruct (_ && _); cbn; exact Ic. }
  assert (Can2 : snd (fst cc) = (if f_canonical fl then shift_to (d_cp d) (tagged_of true d) else 0) /\
                 snd cc = (if f_compat fl then shift_to (d_cp d) (tagged_of false d) else 0)).
  { unfold cc, tagged_of. destruct (d_tag d) as [[[] [|v vs]]|]; cbn [Bool.eqb]; destruct (f_canonical fl), (f_compat fl); cbn; split; reflexivity. }
  destruct cc as [[canon s_canon] s_comp]. cbn [fst snd] in Canon, Can2. subst canon. destruct Can2 as [Can2 Can3].
  fold (full_part fl u d) in H.
  destruct (full_part fl u d) as [[[[[[[[up i_up] ti] i_ti] lo] i_lo] i_tog] fo] i_fo] eqn:FP.
  match type of H with (let '(_, _) := add_unique_entry _ ?x in _) = _ => set (e := x) in H end.
  destruct (add_unique_entry (r_entries u) e) as [es k] eqn:AE.
  destruct (add_to_table B (r_staged u) (d_cp d) k) as [t|] eqn:AT; [|discriminate]. cbn [obind] in H. injection H as <-.
  destruct I as [Iwf [Iu Mu] [It Mt] [Il Ml] [If Mf] [Ic Icc] Ioff Inf Iz Ind Ie Id In0 Idist].
  destruct (full_part_spec _ _ _ _ _ _ _ _ _ _ _ _ Iu It Il If FP) as ((G1 & G2 & G3 & G4) & A1 & A2 & A3 & A4 & A5 & K1 & K2).
  destruct (add_unique_entry_spec _ _ _ _ AE) as [Ne Ees].
  destruct (add_to_table_spec B _ _ _ _ HB Iwf AT) as (W' & Lo & Ln & Lother & Li & Ll). fold (at_i B (d_cp d)) (at_j B (d_cp d)) in *.
  set (u' := {| r_upper := up; r_title := ti; r_lower := lo; r_fold := fo; r_canonical := [[]]; r_compat := r_compat u; r_entries := es; r_staged := t |}) in *.
  assert (Le : ucd_le u u').
  { destruct G1 as [m1 [-> _]], G2 as [m2 [-> _]], G3 as [m3 [-> _]], G4 as [m4 [-> _]]. constructor; cbn; eauto.
    destruct Ees as [->|[-> _]]; [exists []; now rewrite app_nil_r|eauto]. }
  assert (En : forall k e, nth_error (r_entries u) k = Some e -> nth_error es k = Some e).
  { intros k0 e0 N. destruct Ees as [->|[-> _]]; [exact N|]. rewrite nth_error_app1; [exact N|]. apply nth_error_Some. congruence. }
  assert (Eo : entry_of fl u' d e).
  { constructor; cbn; try assumption; try (now subst s_canon s_comp); unfold simple_of; destruct (d_simple d); reflexivity. }
  assert (Fresh : ~ In (d_cp d) (map d_cp ds)).
  { intros F. apply in_map_iff in F. destruct F as [d' [F1 F2]]. destruct (Id d' F2) as (_ & _ & k0 & e0 & Q & _).
    rewrite F1 in Q. congruence. }
  constructor; cbn.
  - exact W'.
  - split; [eapply grown_led; eauto|eapply made_grown; eauto].
  - split; [eapply grown_led; eauto|eapply made_grown; eauto].
  - split; [eapply grown_led; eauto|eapply made_grown; eauto].
  - split; [eapply grown_led; eauto|eapply made_grown; eauto].
  - now split.
  - intros F1 F2. destruct (K1 F1 F2) as (-> & -> & ->). now apply Ioff.
  - intros F. rewrite (K2 F). now apply Inf.
  - exact (En 0%nat _ Iz).
  - destruct Ees as [->|[-> Nin]]; [exact Ind|]. apply NoDup_app_comm_end; assumption.
  - intros x X.
    assert (X' : In x (r_entries u) \/ x = e).
    { destruct Ees as [->|[-> _]]; [now left|]. apply in_app_or in X. destruct X as [X|[X|[]]]; [now left|now right]. }
    destruct X' as [X'| ->].
    + destruct (Ie x X') as [->|[d' [D1 D2]]]; [now left|]. right. exists d'. split; [apply in_or_app; now left|now apply (entry_of_le fl u)].
    + right. exists d. split; [apply in_or_app; right; now left|exact Eo].
  - intros d' D. apply in_app_or in D. destruct D as [D|[<-|[]]].
    + destruct (Id d' D) as (Q1 & Q2 & k0 & e0 & Q3 & Q4 & Q5). split; [exact Q1|]. split; [lia|].
      exists k0, e0. split; [|split; [now apply En|now apply (entry_of_le fl u)]].
      rewrite Lother; [exact Q3|]. intros X. injection X as X1 X2. apply Fresh. rewrite <- (at_inj B _ _ HB X1 X2). now apply in_map.
    + split; [exact G|]. split; [exact Li|]. exists k, e. split; [exact Ln|]. split; [exact Ne|exact Eo].
  - intros i j k0 L. destruct (Nat.eq_dec i (at_i B (d_cp d))) as [->|Ni].
    + destruct (Nat.eq_dec j (at_j B (d_cp d))) as [->|Nj].
      * exists d. split; [apply in_or_app; right; now left|now split].
      * rewrite Lother in L by congruence. destruct (In0 _ _ _ L) as [d' [D1 D2]]. exists d'. split; [apply in_or_app; now left|exact D2].
    + rewrite Lother in L by congruence. destruct (In0 _ _ _ L) as [d' [D1 D2]]. exists d'. split; [apply in_or_app; now left|exact D2].
  - rewrite map_app. cbn. apply NoDup_app_comm_end; assumption.
Qed.
Lemma inv_all B fl rest : (0 < B)%nat -> forall ds u u', inv B fl ds u -> add_all B fl u rest = Some u' -> inv B fl (ds ++ rest) u'.
Proof.
  intros HB. induction rest as [|d rest IH]; intros ds u u' I H; cbn [add_all] in H.
  - injection H as <-. now rewrite app_nil_r.
  - destruct (add_data B fl u d) as [u1|] eqn:E; [|discriminate]. cbn [obind] in H.
    change (d :: rest) with ([d] ++ rest). rewrite app_assoc. eapply IH; [|exact H]. eapply inv_step; eauto.
Qed.
