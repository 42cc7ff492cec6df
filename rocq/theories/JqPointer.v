(** Proofs about JSON pointers. *)
From Coq Require Import Arith NArith ZArith List Bool Lia ZifyBool ZifyNat ZifyN.
Import ListNotations.
From Verif Require Import Base JqModel.
From Verif Require JsonModel JsonSpec.
Import JsonSpec (digit, hexdigit, H_dec, H_upper, H_lower, digits, int_part, tree, Scalar, Str, Obj, Arr).
From Verif Require Import JqSpec JqConv.
Local Open Scope N_scope.

(** ** The buffer *)
Lemma write_app {A} (p : list A) x q c : write (p ++ x :: q) (length p) c = Some (p ++ c :: q).
Proof. induction p as [|y p IH]; cbn [write app length]; [reflexivity|]. now rewrite IH. Qed.
Lemma rd_app p c q : rd (p ++ Some c :: q) (length p) = Some c.
Proof. unfold rd. rewrite nth_error_app2 by lia. now rewrite Nat.sub_diag. Qed.
Lemma store_app s : forall p q r, length q = length s ->
  store (p ++ q ++ r) (length p) s = Some (p ++ map Some s ++ r).
Proof.
  induction s as [|c s IH]; intros p q r E; destruct q as [|x q]; try discriminate; cbn [store map app]; [reflexivity|].
  rewrite write_app. replace (S (length p)) with (length (p ++ [Some c])) by (rewrite app_length; cbn; lia).
  replace (p ++ Some c :: q ++ r) with ((p ++ [Some c]) ++ q ++ r) by (rewrite <- app_assoc; reflexivity).
  rewrite IH by (cbn in E; lia). rewrite <- app_assoc. reflexivity.
Qed.
Lemma cells_str_app s r : cells_str (map Some s ++ Some 0 :: r) = Some (cstr s).
Proof.
  induction s as [|c s IH]; [reflexivity|]. cbn [map app cells_str cstr]. destruct (c =? 0); [reflexivity|]. now rewrite IH.
Qed.

(** ** Unescaping *)
Fixpoint useg (frag : bool) (s : list N) : option (list N) :=
  match s with
  | [] => Some []
  | c :: t =>
      if frag && (c =? 37) then
        match t with
        | x :: y :: r =>
            if is_xdigit x && is_xdigit y
            then o <- useg frag r;; Some ((tmj_to_uint [x; y] 0 16) mod 256 :: o) else None
        | _ => None
        end
      else if c =? 126 then
        match t with
        | x :: r =>
            if x =? 48 then o <- useg frag r;; Some (126 :: o)
            else if x =? 49 then o <- useg frag r;; Some (47 :: o)
            else None
        | [] => None
        end
      else o <- useg frag t;; Some (c :: o)
  end.

Lemma app_cons_assoc {A} (p : list A) x q : p ++ x :: q = (p ++ [x]) ++ q.
Proof. now rewrite <- app_assoc. Qed.

(** Writing the next output byte, given at least one byte of the input has been consumed. *)
Lemma out_write (o : list N) (mid rest : cells) (d : N) : mid <> [] -> exists mid',
  write (map Some o ++ mid ++ rest) (length o) (Some d) = Some (map Some (o ++ [d]) ++ mid' ++ rest)
  /\ S (length mid') = length mid.
Proof.
  intros NE. destruct mid as [|x mid]; [congruence|]. exists mid. split; [|reflexivity].
  rewrite <- (map_length Some o). cbn [app]. rewrite write_app, map_app, <- app_assoc. reflexivity.
Qed.

Lemma rd_at (p : cells) c q i : i = length p -> rd (p ++ Some c :: q) i = Some c.
Proof. intros ->. apply rd_app. Qed.

Lemma unescape_loop_spec frag : forall fuel s o mid tl len i,
  (length s < fuel)%nat -> i = (length o + length mid)%nat -> len = (i + length s)%nat ->
  exists b,
  unescape_loop fuel frag (map Some o ++ mid ++ map Some s ++ Some 0 :: tl) len i (length o)
  = match useg frag s with
    | None => Some (inl tt)
    | Some t => Some (inr (b, length (o ++ t)))
    end
  /\ forall t, useg frag s = Some t ->
     exists mid', b = map Some (o ++ t) ++ mid' ++ Some 0 :: tl
       /\ length b = (length o + length mid + length s + 1 + length tl)%nat.
Proof.
  induction fuel as [|fuel IH]; intros s o mid tl len i LF EI EL; [lia|]. cbn [unescape_loop].
  destruct s as [|c s].
  - cbn [length] in EL. destruct (Nat.leb_spec len i); [|lia]. cbn [useg map app]. rewrite app_nil_r.
    eexists. split; [reflexivity|]. intros t E. assert (t = []) by congruence. subst t. rewrite app_nil_r.
    exists mid. split; [reflexivity|]. rewrite !app_length, map_length. cbn [length]. lia.
  - cbn [length] in EL, LF. destruct (Nat.leb_spec len i); [lia|].
    cbn [map app]. set (rest := Some 0 :: tl).
    assert (RD : rd (map Some o ++ mid ++ Some c :: map Some s ++ rest) i = Some c).
    { rewrite app_assoc. apply rd_at. rewrite app_length, map_length. exact EI. }
    rewrite RD. cbn [useg].
    (* a step that consumes [pre] and writes [d] *)
    assert (STEP : forall (pre : list N) (r : list N) (d : N), c :: s = pre ++ r -> pre <> [] ->
      exists b1, write (map Some o ++ mid ++ Some c :: map Some s ++ rest) (length o) (Some d) = Some b1
      /\ exists b, unescape_loop fuel frag b1 len (i + length pre) (S (length o))
         = match useg frag r with
           | None => Some (inl tt)
           | Some t => Some (inr (b, length (o ++ d :: t)))
           end
      /\ forall t, useg frag r = Some t ->
         exists mid', b = map Some (o ++ d :: t) ++ mid' ++ rest
           /\ length b = (length o + length mid + S (length s) + 1 + length tl)%nat).
    { intros pre r d E NE.
      assert (LE : S (length s) = (length pre + length r)%nat) by (rewrite <- app_length, <- E; reflexivity).
      assert (LP : (0 < length pre)%nat) by (destruct pre; [congruence|cbn [length]; lia]).
      destruct (out_write o (mid ++ map Some pre) (map Some r ++ rest) d) as (mid' & W & LM).
      { destruct mid; [destruct pre; [congruence|discriminate]|discriminate]. }
      eexists. split.
      - replace (map Some o ++ mid ++ Some c :: map Some s ++ rest)
          with (map Some o ++ (mid ++ map Some pre) ++ map Some r ++ rest); [exact W|].
        change (Some c :: map Some s ++ rest) with (map Some (c :: s) ++ rest). rewrite E, map_app, <- !app_assoc. reflexivity.
      - rewrite app_length, map_length in LM.
        destruct (IH r (o ++ [d]) mid' tl len (i + length pre)%nat) as (b & U & B); [lia|rewrite app_length; cbn [length]; lia|lia|].
        exists b. rewrite app_length in U. cbn [length] in U. rewrite Nat.add_1_r in U. fold rest in U.
        rewrite U. split.
        + destruct (useg frag r) as [t|]; [|reflexivity]. rewrite <- app_assoc. reflexivity.
        + intros t T. destruct (B t T) as (m2 & EB & LB). exists m2.
          rewrite <- app_assoc in EB. cbn [app] in EB. split; [exact EB|].
          rewrite LB, app_length. cbn [length]. lia. }
    assert (RD1 : rd (map Some o ++ mid ++ Some c :: map Some s ++ rest) (i + 1) = Some (hd 0 s)).
    { destruct s as [|x s].
      - replace (map Some o ++ mid ++ Some c :: map Some [] ++ rest) with ((map Some o ++ mid ++ [Some c]) ++ Some 0 :: tl)
          by (rewrite <- !app_assoc; reflexivity).
        apply rd_at. rewrite !app_length, map_length. cbn [length]. lia.
      - replace (map Some o ++ mid ++ Some c :: map Some (x :: s) ++ rest)
          with ((map Some o ++ mid ++ [Some c]) ++ Some x :: map Some s ++ rest) by (rewrite <- !app_assoc; reflexivity).
        apply rd_at. rewrite !app_length, map_length. cbn [length]. lia. }
    assert (RD2 : forall x s', s = x :: s' -> rd (map Some o ++ mid ++ Some c :: map Some s ++ rest) (i + 2) = Some (hd 0 s')).
    { intros x s' ->. destruct s' as [|y s'].
      - replace (map Some o ++ mid ++ Some c :: map Some [x] ++ rest) with ((map Some o ++ mid ++ [Some c; Some x]) ++ Some 0 :: tl)
          by (rewrite <- !app_assoc; reflexivity).
        apply rd_at. rewrite !app_length, map_length. cbn [length]. lia.
      - replace (map Some o ++ mid ++ Some c :: map Some (x :: y :: s') ++ rest)
          with ((map Some o ++ mid ++ [Some c; Some x]) ++ Some y :: map Some s' ++ rest) by (rewrite <- !app_assoc; reflexivity).
        apply rd_at. rewrite !app_length, map_length. cbn [length]. lia. }
    destruct (frag && (c =? 37)) eqn:FR.
    { rewrite RD1. destruct s as [|x s]; [exists []; split; [reflexivity|discriminate]|]. cbn [hd].
      destruct (is_xdigit x) eqn:X1; [|destruct s; exists []; (split; [reflexivity|discriminate])].
      rewrite (RD2 x s eq_refl). destruct s as [|y s]; [exists []; split; [reflexivity|discriminate]|]. cbn [hd].
      destruct (is_xdigit y) eqn:X2; cbn [andb]; [|exists []; split; [reflexivity|discriminate]].
      destruct (STEP [c; x; y] s ((tmj_to_uint [x; y] 0 16) mod 256) eq_refl) as (b1 & W & b & U & B); [discriminate|].
      rewrite W. cbn [length] in U. rewrite U. exists b. split.
      - destruct (useg frag s); reflexivity.
      - intros t T. destruct (useg frag s) as [t0|]; [|discriminate]. injection T as <-. exact (B t0 eq_refl). }
    destruct (c =? 126) eqn:TI.
    { rewrite RD1. destruct s as [|x s]; [exists []; split; [reflexivity|discriminate]|]. cbn [hd].
      destruct (x =? 48) eqn:X1.
      - destruct (STEP [c; x] s 126 eq_refl) as (b1 & W & b & U & B); [discriminate|].
        rewrite W. cbn [length] in U. rewrite U. exists b. split.
        + destruct (useg frag s); reflexivity.
        + intros t T. destruct (useg frag s) as [t0|]; [|discriminate]. injection T as <-. exact (B t0 eq_refl).
      - destruct (x =? 49) eqn:X2; [|exists []; split; [reflexivity|discriminate]].
        destruct (STEP [c; x] s 47 eq_refl) as (b1 & W & b & U & B); [discriminate|].
        rewrite W. cbn [length] in U. rewrite U. exists b. split.
        + destruct (useg frag s); reflexivity.
        + intros t T. destruct (useg frag s) as [t0|]; [|discriminate]. injection T as <-. exact (B t0 eq_refl). }
    destruct (STEP [c] s c eq_refl) as (b1 & W & b & U & B); [discriminate|].
    rewrite W. cbn [length] in U. rewrite U. exists b. split.
    + destruct (useg frag s); reflexivity.
    + intros t T. destruct (useg frag s) as [t0|]; [|discriminate]. injection T as <-. exact (B t0 eq_refl).
Qed.

(** ** The state *)
Definition st_ok (st : pstate) : Prop := (p_size st <= length (p_cells st))%nat /\ (64 <= p_size st)%nat.

Lemma reserve_ok or st len : st_ok st ->
  match reserve or st len with
  | inl st' => st_ok st' | inr st' => st_ok st' /\ (len + 1 <= length (p_cells st'))%nat
  end.
Proof.
  intros [A B]. unfold reserve. destruct (Nat.ltb_spec (p_size st) (len + 1)).
  - cbv zeta. destruct (p_sbo st); destruct (or (length (p_events st))); unfold st_ok; cbn [p_cells p_size];
      rewrite ?app_length, ?repeat_length; try lia.
  - split; [split; assumption|]. lia.
Qed.

Lemma obj_step or frag st l ns seg : st_ok st -> (l <= length ns)%nat -> ~ starts_with_digit seg ->
  exists r st', resolve_step or frag st (QObject l ns) seg = Some (r, st') /\ st_ok st'
  /\ match reserve or st (length seg) with
     | inl st1 => r = None /\ st' = st1
     | inr st1 => p_sbo st' = p_sbo st1 /\ p_events st' = p_events st1 /\
         match useg frag seg with
         | None => r = None
         | Some t => exists v, r = Some v /\ found ns (cstr t) v
         end
     end.
Proof.
  intros OK L ND. unfold resolve_step.
  assert (D : match seg with c :: _ => is_digit c | [] => false end = false).
  { destruct seg as [|c seg]; [reflexivity|]. destruct (is_digit c) eqn:E; [|reflexivity].
    exfalso. apply ND. exists c, seg. split; [reflexivity|]. unfold is_digit, digit in *. lia. }
  rewrite D. cbv zeta. pose proof (reserve_ok or st (length seg) OK) as R.
  destruct (reserve or st (length seg)) as [st1|st1].
  { exists None, st1. auto. }
  destruct R as [OK1 LC]. set (cs := p_cells st1) in *.
  assert (SPLIT : exists q x tl, cs = q ++ x :: tl /\ length q = length seg).
  { exists (firstn (length seg) cs). destruct (skipn (length seg) cs) as [|x tl] eqn:E.
    - apply (f_equal (@length _)) in E. rewrite skipn_length in E. cbn in E. lia.
    - exists x, tl. rewrite <- E, firstn_skipn. split; [reflexivity|]. apply firstn_length_le. lia. }
  destruct SPLIT as (q & x & tl & EC & LQ).
  assert (ST : store cs 0 seg = Some (map Some seg ++ x :: tl)).
  { rewrite EC. exact (store_app seg [] q (x :: tl) LQ). }
  assert (WT : write (map Some seg ++ x :: tl) (length seg) (Some 0) = Some (map Some seg ++ Some 0 :: tl)).
  { rewrite <- (map_length Some seg). apply write_app. }
  rewrite ST. cbv beta iota. rewrite WT. cbv beta iota.
  destruct (unescape_loop_spec frag (S (length seg)) seg [] [] tl (length seg) 0) as (b & U & B); try (cbn [length]; lia).
  cbn [map app length] in U. rewrite U. clear U.
  assert (LB : length (map Some seg ++ Some 0 :: tl) = length cs).
  { rewrite EC, !app_length, map_length. cbn [length]. lia. }
  destruct (useg frag seg) as [t|].
  - cbv beta iota. destruct (B t eq_refl) as (mid' & -> & LB'). clear B. cbn [app length Nat.add] in *.
    assert (W : exists r2, write (map Some t ++ mid' ++ Some 0 :: tl) (length t) (Some 0) = Some (map Some t ++ Some 0 :: r2)
                /\ length (map Some t ++ Some 0 :: r2) = length (map Some t ++ mid' ++ Some 0 :: tl)).
    { rewrite <- (map_length Some t). destruct mid' as [|y mid']; cbn [app].
      - exists tl. rewrite write_app. auto.
      - exists (mid' ++ Some 0 :: tl). rewrite write_app. split; [reflexivity|]. rewrite !app_length. reflexivity. }
    destruct W as (r2 & W & LW). rewrite W. cbv beta iota. rewrite cells_str_app. cbv beta iota.
    cbn [get_object]. destruct (get_member_found l ns (cstr t) L) as (v & last' & G & _ & F). rewrite G. cbv beta iota.
    exists (Some v). eexists. split; [reflexivity|]. split; [|split; [reflexivity|split; [reflexivity|]]].
    + unfold st_ok in *. cbn [p_cells p_size]. rewrite LW, LB'. fold cs in OK1. rewrite <- LB in OK1.
      rewrite app_length, map_length in OK1. cbn [length] in OK1. lia.
    + exists v. auto.
  - cbv beta iota. exists None. eexists. split; [reflexivity|]. split; [|split; [reflexivity|split; reflexivity]].
    unfold st_ok in *. cbn [p_cells p_size]. rewrite LB. exact OK1.
Qed.

Lemma arr_step or frag st cur seg : starts_with_digit seg -> exists r,
  resolve_step or frag st cur seg = Some (r, st) /\
  match cur with
  | QArray vs => r = if N.of_nat (length vs) <=? tmj_to_uint64 seg 0 10 then None
                     else nth_error vs (N.to_nat (tmj_to_uint64 seg 0 10))
  | _ => r = None
  end.
Proof.
  intros (c & t & -> & D). unfold resolve_step.
  assert (E : is_digit c = true) by (unfold is_digit, digit in *; lia). rewrite E.
  destruct cur as [ty cn|l ns|vs]; try (exists None; split; reflexivity). cbv zeta.
  set (i := tmj_to_uint64 (c :: t) 0 10). destruct (N.leb_spec (N.of_nat (length vs)) i).
  - exists None. auto.
  - destruct (nth_error vs (N.to_nat i)) as [v|] eqn:NE; [exists (Some v); auto|].
    apply nth_error_None in NE. lia.
Qed.
Lemma other_step or frag st cur seg : ~ starts_with_digit seg -> (forall l ns, cur <> QObject l ns) ->
  resolve_step or frag st cur seg = Some (None, st).
Proof.
  intros ND NO. unfold resolve_step.
  assert (D : match seg with c :: _ => is_digit c | [] => false end = false).
  { destruct seg as [|c seg]; [reflexivity|]. destruct (is_digit c) eqn:E; [|reflexivity].
    exfalso. apply ND. exists c, seg. split; [reflexivity|]. unfold is_digit, digit in *. lia. }
  rewrite D. destruct cur as [ty cn|l ns|vs]; try reflexivity. contradiction (NO l ns eq_refl).
Qed.
Lemma digit_dec seg : starts_with_digit seg \/ ~ starts_with_digit seg.
Proof.
  destruct seg as [|c t]; [right; intros (c & t & E & _); discriminate|].
  destruct (is_digit c) eqn:E; unfold is_digit in E.
  - left. exists c, t. split; [reflexivity|]. unfold digit. lia.
  - right. intros (c' & t' & X & D). injection X as -> ->. unfold digit in D. lia.
Qed.

(** ** Safety *)

Lemma in_range_member l ns k v : in_range (QObject l ns) -> In (k, v) ns -> in_range v.
Proof.
  intros [_ H] I. induction ns as [|[k' v'] ns IH]; [destruct I|]. cbn [fold_right snd] in H. destruct H as [H1 H2].
  destruct I as [E|I]; [injection E as -> ->; exact H1|exact (IH H2 I)].
Qed.
Lemma everywhere_member P l ns k v : everywhere P (QObject l ns) -> In (k, v) ns -> everywhere P v.
Proof.
  intros [_ H] I. induction ns as [|[k' v'] ns IH]; [destruct I|]. cbn [fold_right snd] in H. destruct H as [H1 H2].
  destruct I as [E|I]; [injection E as -> ->; exact H1|exact (IH H2 I)].
Qed.
Lemma everywhere_element P vs v : everywhere P (QArray vs) -> In v vs -> everywhere P v.
Proof.
  cbn [everywhere]. intros H I. induction vs as [|v' vs IH]; [destruct I|]. cbn [fold_right] in H. destruct H as [H1 H2].
  destruct I as [->|I]; [exact H1|exact (IH H2 I)].
Qed.
Lemma everywhere_found P l ns k v : everywhere P (QObject l ns) -> found ns k v -> everywhere P v.
Proof. intros H [I|[_ ->]]; [exact (everywhere_member P l ns k v H I)|exact I]. Qed.

(** The calls of the allocator so far: [pre es sbo] says that those of [es] (latest first) are in
    order and leave a block unless [sbo]. *)
Definition log_ok (st : pstate) : Prop :=
  forall rest, orderly (negb (p_sbo st)) rest -> orderly false (rev (p_events st) ++ rest).

Lemma reserve_log or st len : st_ok st -> log_ok st ->
  match reserve or st len with inl st' => log_ok st' | inr st' => log_ok st' end.
Proof.
  intros [_ B] H. unfold reserve. destruct (Nat.ltb_spec (p_size st) (len + 1)); [|exact H].
  cbv zeta. destruct (p_sbo st) eqn:SB; destruct (or (length (p_events st))); unfold log_ok in *; cbn [p_sbo p_events rev negb] in *;
    intros rest R; rewrite <- app_assoc; cbn [app]; apply H; rewrite ?SB; cbn [negb]; constructor; try lia; exact R.
Qed.

Lemma step_safe or frag st cur seg : st_ok st -> log_ok st -> in_range cur -> exists r st',
  resolve_step or frag st cur seg = Some (r, st') /\ st_ok st' /\ log_ok st'
  /\ (forall v, r = Some v -> in_range v)
  /\ ((length seg <= 63)%nat -> p_events st = [] -> p_events st' = []).
Proof.
  intros OK LG IR. destruct (digit_dec seg) as [D|D].
  - destruct (arr_step or frag st cur seg D) as (r & E & R). exists r, st. split; [exact E|]. split; [exact OK|]. split; [exact LG|].
    split; [|auto]. intros v ->. destruct cur as [ty cn|l ns|vs]; try discriminate.
    destruct (N.of_nat (length vs) <=? tmj_to_uint64 seg 0 10); [discriminate|].
    symmetry in R. apply nth_error_In in R. exact (everywhere_element _ _ _ IR R).
  - destruct cur as [ty cn|l ns|vs].
    + exists None, st. rewrite other_step by (auto; intros; discriminate). repeat split; auto; try apply OK. discriminate.
    + destruct (obj_step or frag st l ns seg OK) as (r & st' & E & OK' & R); [apply IR|exact D|].
      exists r, st'. split; [exact E|]. split; [exact OK'|].
      pose proof (reserve_log or st (length seg) OK LG) as RL.
      assert (SM : (length seg <= 63)%nat -> reserve or st (length seg) = inr st).
      { intros LS. unfold reserve. destruct OK as [_ OK]. destruct (Nat.ltb_spec (p_size st) (length seg + 1)); [lia|reflexivity]. }
      destruct (reserve or st (length seg)) as [st1|st1].
      * destruct R as [-> ->]. split; [exact RL|]. split; [discriminate|]. intros LS. specialize (SM LS). discriminate.
      * destruct R as (R1 & R2 & R). split; [|split].
        -- unfold log_ok in *. rewrite R1, R2. exact RL.
        -- intros v ->. destruct (useg frag seg) as [t|]; [|discriminate]. destruct R as (v' & X & F).
           injection X as ->. exact (everywhere_found _ _ _ _ _ IR F).
        -- intros LS EV. specialize (SM LS). injection SM as ->. congruence.
    + exists None, st. rewrite other_step by (auto; intros; discriminate). repeat split; auto; try apply OK. discriminate.
Qed.

Lemma segment_spec s : let '(a, b) := segment s in s = a ++ b /\ ~ In 47 a /\ (b = [] \/ exists t, b = 47 :: t).
Proof.
  induction s as [|c t IH]; cbn [segment]; [auto|].
  destruct (N.eqb_spec c 47) as [->|NE]; [split; [reflexivity|]; split; [intros []|eauto]|].
  destruct (segment t) as [a b]. destruct IH as (-> & NI & B). split; [reflexivity|]. split; [|exact B].
  intros [X|X]; [congruence|exact (NI X)].
Qed.

Lemma short_suffix a s : short_segments (a ++ s) -> short_segments s.
Proof. intros H x b c ->. apply (H (a ++ x) b c). now rewrite <- app_assoc. Qed.

Lemma loop_safe or frag : forall fuel st cur s, (length s < fuel)%nat -> st_ok st -> log_ok st -> in_range cur ->
  exists r st', resolve_loop fuel or frag st cur s = Some (r, st') /\ log_ok st'
  /\ (short_segments s -> p_events st = [] -> p_events st' = []).
Proof.
  induction fuel as [|fuel IH]; intros st cur s LF OK LG IR; [lia|]. cbn [resolve_loop].
  pose proof (segment_spec s) as SP. destruct (segment s) as [seg next] eqn:SE. destruct SP as (ES & NS & SN).
  destruct (step_safe or frag st cur seg OK LG IR) as (r & st' & E & OK' & LG' & IR' & EV). rewrite E.
  assert (SH : short_segments s -> p_events st = [] -> p_events st' = []).
  { intros SS0. apply EV. apply (SS0 [] seg next ES). assumption. }
  destruct r as [v|]; [|exists None, st'; auto]. destruct next as [|x t]; [exists (Some v), st'; auto|].
  assert (LT : (length t < fuel)%nat) by (subst s; rewrite app_length in LF; cbn [length] in LF; lia).
  destruct (IH st' v t LT OK' LG' (IR' v eq_refl)) as (r2 & st2 & E2 & LG2 & EV2).
  exists r2, st2. split; [exact E2|]. split; [exact LG2|].
  intros SS0 X. apply EV2; [|auto]. apply (short_suffix (seg ++ [x])).
  replace ((seg ++ [x]) ++ t) with s by (rewrite <- app_assoc; exact ES). exact SS0.
Qed.

Definition init_state : pstate := PState (repeat None 64) 64 true [].
Lemma init_ok : st_ok init_state /\ log_ok init_state.
Proof. split; [split; vm_compute; lia|]. intros rest R. exact R. Qed.

Lemma resolve_eq or v pointer : resolve or v pointer =
  let p := cstr pointer in
  let frag := match p with 35 :: _ => true | _ => false end in
  let p := match p with 35 :: t => t | _ => p end in
  ' (r, st) <- (match snd (segment p) with
                | [] => Some (Some v, init_state)
                | _ :: s => resolve_loop (S (length s)) or frag init_state v s
                end);;
  Some (match r with Some w => w | None => nil_value end, rev (if p_sbo st then p_events st else EFree :: p_events st)).
Proof.
  unfold resolve, init_state. destruct (cstr pointer) as [|c t]; [reflexivity|].
  destruct c as [|q]; [reflexivity|]. do 6 (destruct q as [q|q|]; try reflexivity).
Qed.

Lemma resolve_safe or v pointer : in_range v -> exists w es, resolve or v pointer = Some (w, es) /\ orderly false es.
Proof.
  intros IR. rewrite resolve_eq. cbv zeta.
  set (p := match cstr pointer with 35 :: t => t | _ => cstr pointer end).
  set (frag := match cstr pointer with 35 :: _ => true | _ => false end).
  assert (X : exists r st', (match snd (segment p) with
                | [] => Some (Some v, init_state)
                | _ :: s => resolve_loop (S (length s)) or frag init_state v s
                end) = Some (r, st') /\ log_ok st').
  { destruct (snd (segment p)) as [|c s]; [exists (Some v), init_state; split; [reflexivity|apply init_ok]|].
    destruct (loop_safe or frag (S (length s)) init_state v s) as (r & st' & E & L & _); try apply init_ok; try lia; auto.
    exists r, st'. auto. }
  destruct X as (r & st' & E & L). rewrite E. eexists. eexists. split; [reflexivity|].
  destruct (p_sbo st') eqn:SB.
  - rewrite <- (app_nil_r (rev (p_events st'))). apply L. rewrite SB. constructor.
  - cbn [rev]. apply L. rewrite SB. cbn [negb]. repeat constructor.
Qed.

Lemma cstr_prefix s : exists r, s = cstr s ++ r.
Proof.
  induction s as [|c s [r IH]]; [exists []; reflexivity|]. cbn [cstr]. destruct (c =? 0); [exists (c :: s); reflexivity|].
  exists r. cbn [app]. congruence.
Qed.
Lemma resolve_small or v pointer : in_range v -> short_segments pointer ->
  exists w, resolve or v pointer = Some (w, []).
Proof.
  intros IR SH. rewrite resolve_eq. cbv zeta.
  assert (SP0 : short_segments (match cstr pointer with 35 :: t => t | _ => cstr pointer end)).
  { assert (SC : short_segments (cstr pointer)).
    { destruct (cstr_prefix pointer) as [r E]. intros x b c X. apply (SH x b (c ++ r)). rewrite E, X, <- !app_assoc. reflexivity. }
    destruct (cstr pointer) as [|c t]; [exact SC|].
    destruct c as [|q]; [exact SC|]. do 6 (destruct q as [q|q|]; try exact SC). exact (short_suffix [35] t SC). }
  set (p := match cstr pointer with 35 :: t => t | _ => cstr pointer end) in *.
  set (frag := match cstr pointer with 35 :: _ => true | _ => false end).
  pose proof (segment_spec p) as SP. destruct (segment p) as [a b]. cbn [snd]. destruct SP as (EP & _ & [->|[s ->]]).
  - eexists. reflexivity.
  - destruct (loop_safe or frag (S (length s)) init_state v s) as (r & st' & E & L & EV); try apply init_ok; try lia; auto.
    rewrite E. assert (X : p_events st' = []) by (apply EV; [apply (short_suffix (a ++ [47])); replace ((a ++ [47]) ++ s) with p by (rewrite <- app_assoc; exact EP); exact SP0|reflexivity]).
    assert (SB : p_sbo st' = true).
    { destruct (p_sbo st') eqn:SB; [reflexivity|]. exfalso. specialize (L [EFree]). rewrite SB, X in L.
      assert (O : orderly false [EFree]) by (apply L; repeat constructor). inversion O. }
    rewrite SB, X. eexists. reflexivity.
Qed.
