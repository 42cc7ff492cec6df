(** Booleans (tm_conversion.h 1749-1866) and print_hex_bytes (2301-2328). *)
From Coq Require Import NArith ZArith String List Bool Lia ZifyBool ZifyNat ZifyN.
From Verif Require Import Base Tactics CTypeModel U128Text DigitsSpec DigitsProofs ConvModel ConvSpec ConvPrint.
Import ListNotations.
Local Open Scope N_scope.

Lemma upper_lower : forall a b, (to_upper a =? to_upper b) = (lower a =? lower b).
Proof.
  intros a b. unfold to_upper, is_lower, lower.
  destruct (N.leb_spec 97 a), (N.leb_spec a 122), (N.leb_spec 97 b), (N.leb_spec b 122),
    (N.leb_spec 65 a), (N.leb_spec a 90), (N.leb_spec 65 b), (N.leb_spec b 90); cbn [andb]; lia.
Qed.
Lemma to_lower_lower : forall a, to_lower a = lower a. Proof. reflexivity. Qed.
Lemma to_upper_zero : forall a, to_upper a = 0 -> a = 0.
Proof. intros a. unfold to_upper, is_lower. destruct (N.leb_spec 97 a), (N.leb_spec a 122); cbn [andb]; lia. Qed.
Lemma lower_zero : forall a, lower a = 0 -> a = 0.
Proof. intros a. unfold lower. destruct (N.leb_spec 65 a), (N.leb_spec a 90); cbn [andb]; lia. Qed.

(** [loosely s w]: s is at least as long as w and agrees with it up to case except maybe in the last
    character of w. *)
Fixpoint loosely (s w : list N) : bool :=
  match w, s with
  | [], _ => true
  | [_], [] => false
  | [_], _ :: _ => true
  | cw :: w', cs :: s' => (lower cs =? lower cw) && loosely s' w'
  | _ :: _ :: _, [] => false
  end.

Lemma tm_strnicmp_default : forall w s rest, ~ In 0 s -> ~ In 0 w -> w <> [] ->
  exists z, tm_strnicmp (s ++ 0 :: rest) (w ++ [0]) (N.of_nat (length w)) = Some z /\
    (z =? 0)%Z = loosely s w.
Proof.
  induction w as [|cw w IH]; intros s rest Hs Hw Hn; [contradiction|].
  assert (Hcw : cw <> 0) by (intros ->; apply Hw; now left).
  destruct s as [|cs s].
  - cbn [app tm_strnicmp]. cbn [N.eqb orb]. destruct (N.eqb_spec (N.of_nat (length (cw :: w))) 0); [cbn in *; lia|].
    eexists. split; [reflexivity|].
    replace (loosely [] (cw :: w)) with false by (destruct w; reflexivity).
    apply Z.eqb_neq. intro E. assert (to_upper cw = to_upper 0) by lia.
    apply Hcw, to_upper_zero. exact H.
  - assert (Hcs : cs <> 0) by (intros ->; apply Hs; now left).
    cbn [app tm_strnicmp]. destruct (N.eqb_spec cs 0); [contradiction|]. destruct (N.eqb_spec cw 0); [contradiction|].
    cbn [orb]. destruct (N.eqb_spec (N.of_nat (length (cw :: w))) 0); [cbn in *; lia|].
    replace (N.of_nat (length (cw :: w)) - 1) with (N.of_nat (length w)) by (cbn [length]; lia).
    rewrite upper_lower. destruct (N.eqb_spec (lower cs) (lower cw)) as [E|E]; cbn [negb].
    + destruct w as [|cw2 w].
      * cbn [length app loosely]. exists 0%Z. split; [|reflexivity].
        destruct s as [|cs2 s]; cbn [app tm_strnicmp N.eqb orb]; [reflexivity|].
        rewrite orb_true_r. reflexivity.
      * destruct (IH s rest) as (z & Ez & Lz);
          [intro; apply Hs; now right|intro; apply Hw; now right|discriminate|].
        exists z. split; [exact Ez|]. rewrite Lz. cbn [loosely]. rewrite E, N.eqb_refl. reflexivity.
    + destruct w as [|cw2 w].
      * cbn [length]. change (N.of_nat 0) with 0. rewrite N.eqb_refl. exists 0%Z. split; reflexivity.
      * destruct (N.eqb_spec (N.of_nat (length (cw2 :: w))) 0); [cbn in *; lia|].
        eexists. split; [reflexivity|]. cbn [loosely].
        destruct (N.eqb_spec (lower cs) (lower cw)); [contradiction|]. cbn [andb].
        apply Z.eqb_neq. intro Z0. assert (to_upper cs = to_upper cw) by lia.
        apply E. apply N.eqb_eq. rewrite <- upper_lower. now apply N.eqb_eq.
Qed.

Lemma loosely_exact : forall w s, map lower (firstn (length w) s) = map lower w -> loosely s w = true.
Proof.
  induction w as [|cw w IH]; intros s H; [destruct s; reflexivity|].
  destruct s as [|cs s]; [discriminate|]. cbn [length firstn map] in H. injection H as H1 H2.
  destruct w as [|cw2 w]; [reflexivity|].
  cbn [loosely]. rewrite H1, N.eqb_refl. apply IH. exact H2.
Qed.

(** The spelling at the start of a text. *)
Definition has_prefix (s w : list N) : bool :=
  if list_eq_dec N.eq_dec (map lower (firstn (length w) s)) (map lower w) then true else false.

Lemma posix_correct : forall w s rest, ~ In 0 s -> ~ In 0 w ->
  exists z, posix_strnicmp (s ++ 0 :: rest) (w ++ [0]) (N.of_nat (length w)) = Some z /\
    (z =? 0)%Z = has_prefix s w.
Proof.
  intros w s rest. unfold posix_strnicmp. rewrite Nat2N.id. revert s.
  induction w as [|cw w IH]; intros s Hs Hw.
  - exists 0%Z. split; [destruct s|]; reflexivity.
  - assert (Hcw : cw <> 0) by (intros ->; apply Hw; now left).
    unfold has_prefix. destruct s as [|cs s].
    + cbn [app length posix_strnicmp_ firstn map]. change to_lower with lower.
      destruct (N.eqb_spec (lower 0) (lower cw)) as [E|E].
      * exfalso. apply Hcw, lower_zero. now rewrite <- E.
      * eexists. split; [reflexivity|]. destruct (list_eq_dec _ _ _) as [X|_]; [discriminate X|].
        apply Z.eqb_neq. lia.
    + assert (Hcs : cs <> 0) by (intros ->; apply Hs; now left).
      cbn [app length posix_strnicmp_ firstn map]. change to_lower with lower.
      destruct (N.eqb_spec (lower cs) (lower cw)) as [E|E]; cbn [negb].
      * destruct (N.eqb_spec cs 0); [contradiction|].
        destruct (IH s) as (z & Ez & Lz); [intro; apply Hs; now right|intro; apply Hw; now right|].
        exists z. split; [exact Ez|]. rewrite Lz. unfold has_prefix.
        destruct (list_eq_dec _ _ _) as [X|X]; destruct (list_eq_dec _ _ _) as [Y|Y]; try reflexivity.
        -- exfalso. apply Y. now rewrite E, X.
        -- exfalso. apply X. congruence.
      * eexists. split; [reflexivity|]. destruct (list_eq_dec _ _ _) as [X|_].
        { exfalso. apply E. congruence. }
        apply Z.eqb_neq. lia.
Qed.

(** What a boolean scanner reports, given which comparison [is] it uses. *)
Definition bool_outcome (is : list N -> list N -> bool) (s : list N) (out : option bool)
  : conv * option bool :=
  match s with
  | [] => (Conv 0 EINVAL, out)
  | c :: _ =>
    if c =? 49 then (Conv 1 OK, option_map (fun _ => true) out)
    else if c =? 48 then (Conv 1 OK, option_map (fun _ => false) out)
    else if is s (bytes_of "true") then (Conv 4 OK, option_map (fun _ => true) out)
    else if is s (bytes_of "false") then (Conv 5 OK, option_map (fun _ => false) out)
    else (Conv 0 EINVAL, out)
  end.

Lemma scan_bool_with_correct : forall cmp is s rest out, ~ In 0 s ->
  (forall w, ~ In 0 w -> w <> [] -> exists z, cmp (s ++ 0 :: rest) (w ++ [0]) (N.of_nat (length w)) = Some z /\
    (z =? 0)%Z = is s w) ->
  (forall w, w <> [] -> is [] w = false) ->
  scan_bool_with cmp (Some (s ++ 0 :: rest)) out = Some (bool_outcome is s out).
Proof.
  intros cmp is s rest out Hs Hc Hn. unfold scan_bool_with.
  destruct (Hc (bytes_of "true")) as (zt & Et & Lt);
    [vm_compute; intuition discriminate|discriminate|].
  destruct (Hc (bytes_of "false")) as (zf & Ef & Lf);
    [vm_compute; intuition discriminate|discriminate|].
  change (bytes_of "true" ++ [0]) with text_true in Et. change (bytes_of "false" ++ [0]) with text_false in Ef.
  change (N.of_nat (length (bytes_of "true"))) with 4 in Et.
  change (N.of_nat (length (bytes_of "false"))) with 5 in Ef.
  assert (M : forall A (v : A) (o : option A), match o with Some _ => Some v | None => None end
    = option_map (fun _ => v) o) by (intros A v []; reflexivity).
  destruct s as [|c s]; cbn [app] in *.
  - cbn [N.eqb Pos.eqb]. rewrite Et, Ef, Lt, Lf, !Hn by discriminate. reflexivity.
  - unfold bool_outcome. rewrite Et, Lt, Ef, Lf, !M.
    destruct (c =? 49); [reflexivity|]. destruct (c =? 48); [reflexivity|].
    destruct (is (c :: s) _); [reflexivity|]. destruct (is (c :: s) _); reflexivity.
Qed.

Lemma scan_bool_default : forall s rest out, ~ In 0 s ->
  scan_bool (Some (s ++ 0 :: rest)) out = Some (bool_outcome loosely s out).
Proof.
  intros s rest out Hs. apply scan_bool_with_correct; [assumption| |].
  - intros w Hw Hn. now apply tm_strnicmp_default.
  - intros w Hw. destruct w as [|x [|y w]]; [contradiction| |]; reflexivity.
Qed.

Lemma scan_bool_posix : forall s rest out, ~ In 0 s ->
  scan_bool_with posix_strnicmp (Some (s ++ 0 :: rest)) out = Some (bool_outcome has_prefix s out).
Proof.
  intros s rest out Hs. apply scan_bool_with_correct; [assumption| |].
  - intros w Hw Hn. now apply posix_correct.
  - intros w Hw. unfold has_prefix. rewrite firstn_nil.
    destruct (list_eq_dec _ _ _) as [X|X]; [|reflexivity]. destruct w; [contradiction|discriminate].
Qed.

(** Relation of [has_prefix] to spellings. *)
Lemma has_prefix_iff : forall s w, has_prefix s w = true <->
  exists t rest, s = t ++ rest /\ same_ignoring_case t w.
Proof.
  intros s w. unfold has_prefix, same_ignoring_case. destruct (list_eq_dec _ _ _) as [E|E].
  - split; [|reflexivity]. intros _. exists (firstn (length w) s), (skipn (length w) s).
    now rewrite firstn_skipn.
  - split; [discriminate|]. intros (t & rest & -> & Ht). exfalso. apply E.
    assert (L : length t = length w) by (rewrite <- (map_length lower t), Ht; apply map_length).
    rewrite <- L, firstn_app, Nat.sub_diag, firstn_all, firstn_O, app_nil_r. exact Ht.
Qed.

(** The first character of a spelling decides which one it is. *)
Lemma not_both : forall s, has_prefix s (bytes_of "true") = true -> has_prefix s (bytes_of "false") = false.
Proof.
  intros s H. apply has_prefix_iff in H as (t & rest & -> & Ht).
  unfold has_prefix. destruct (list_eq_dec _ _ _) as [E|E]; [|reflexivity]. exfalso.
  destruct t as [|c t]; [discriminate Ht|].
  unfold same_ignoring_case in Ht. apply (f_equal (hd 0)) in Ht. apply (f_equal (hd 0)) in E.
  cbn [length bytes_of map firstn app hd] in *.
  change (lower c = 116) in Ht. change (lower c = 102) in E. congruence.
Qed.

Lemma spelling_head : forall t w c r, same_ignoring_case t w -> t = c :: r ->
  (w = bytes_of "true" \/ w = bytes_of "false") -> c <> 49 /\ c <> 48.
Proof.
  intros t w c r H -> [->| ->]; unfold same_ignoring_case in H; apply (f_equal (hd 0)) in H; cbn [map hd] in H;
    [change (lower c = 116) in H|change (lower c = 102) in H];
    split; intros ->; discriminate H.
Qed.

(** Exactly the texts that start with a documented spelling are accepted with [has_prefix]. *)
Lemma bool_outcome_exact : forall s out,
  (forall n v o, bool_outcome has_prefix s out = (Conv n OK, o) -> o = option_map (fun _ => v) out -> out <> None ->
     exists t rest, s = t ++ rest /\ length t = n /\ bool_spelling t v) /\
  (forall t rest v, s = t ++ rest -> bool_spelling t v ->
     bool_outcome has_prefix s out = (Conv (length t) OK, option_map (fun _ => v) out)) /\
  ((forall t rest v, s = t ++ rest -> ~ bool_spelling t v) -> bool_outcome has_prefix s out = (Conv 0 EINVAL, out)).
Proof.
  assert (Acc : forall s out t rest v, s = t ++ rest -> bool_spelling t v ->
     bool_outcome has_prefix s out = (Conv (length t) OK, option_map (fun _ => v) out)).
  { intros s out t rest v -> B. destruct v; cbn [bool_spelling] in B; destruct B as [->|B].
    - reflexivity.
    - assert (L : length t = 4%nat).
      { unfold same_ignoring_case in B. apply (f_equal (@length N)) in B. rewrite !map_length in B. exact B. }
      destruct t as [|c t]; [discriminate L|]. destruct (spelling_head _ _ c t B eq_refl (or_introl eq_refl)) as [H1 H2].
      unfold bool_outcome. cbn [app]. destruct (N.eqb_spec c 49); [contradiction|].
      destruct (N.eqb_spec c 48); [contradiction|].
      replace (has_prefix (c :: t ++ rest) (bytes_of "true")) with true
        by (symmetry; apply has_prefix_iff; now exists (c :: t), rest).
      rewrite L. reflexivity.
    - reflexivity.
    - assert (L : length t = 5%nat).
      { unfold same_ignoring_case in B. apply (f_equal (@length N)) in B. rewrite !map_length in B. exact B. }
      destruct t as [|c t]; [discriminate L|]. destruct (spelling_head _ _ c t B eq_refl (or_intror eq_refl)) as [H1 H2].
      assert (P : has_prefix (c :: t ++ rest) (bytes_of "false") = true)
        by (apply has_prefix_iff; now exists (c :: t), rest).
      unfold bool_outcome. cbn [app]. destruct (N.eqb_spec c 49); [contradiction|].
      destruct (N.eqb_spec c 48); [contradiction|].
      destruct (has_prefix (c :: t ++ rest) (bytes_of "true")) eqn:Et.
      + apply not_both in Et. congruence.
      + rewrite P, L. reflexivity. }
  intros s out. split; [|split].
  - intros n v o E Eo Ho. destruct s as [|c s]; [discriminate|]. unfold bool_outcome in E.
    destruct out as [ob|]; [|contradiction]. cbn [option_map] in *. subst o.
    destruct (N.eqb_spec c 49) as [->|_].
    { injection E as <- <-. exists [49], s. repeat split. now left. }
    destruct (N.eqb_spec c 48) as [->|_].
    { injection E as <- <-. exists [48], s. repeat split. now left. }
    destruct (has_prefix (c :: s) (bytes_of "true")) eqn:Et.
    { injection E as <- <-. apply has_prefix_iff in Et as (t & rest & Es & B). exists t, rest.
      split; [assumption|]. split; [|right; assumption].
      unfold same_ignoring_case in B. apply (f_equal (@length N)) in B. rewrite !map_length in B. exact B. }
    destruct (has_prefix (c :: s) (bytes_of "false")) eqn:Ef; [|discriminate].
    injection E as <- <-. apply has_prefix_iff in Ef as (t & rest & Es & B). exists t, rest.
    split; [assumption|]. split; [|right; assumption].
    unfold same_ignoring_case in B. apply (f_equal (@length N)) in B. rewrite !map_length in B. exact B.
  - intros t rest v. apply Acc.
  - intros H. destruct s as [|c s]; [reflexivity|]. unfold bool_outcome.
    destruct (N.eqb_spec c 49) as [->|_].
    { exfalso. apply (H [49] s true eq_refl). now left. }
    destruct (N.eqb_spec c 48) as [->|_].
    { exfalso. apply (H [48] s false eq_refl). now left. }
    destruct (has_prefix (c :: s) (bytes_of "true")) eqn:Et.
    { exfalso. apply has_prefix_iff in Et as (t & rest & Es & B). apply (H t rest true Es). now right. }
    destruct (has_prefix (c :: s) (bytes_of "false")) eqn:Ef; [|reflexivity].
    exfalso. apply has_prefix_iff in Ef as (t & rest & Es & B). apply (H t rest false Es). now right.
Qed.

(** The default comparison accepts every spelling (and more). *)
Lemma loosely_false_true : forall t rest, same_ignoring_case t (bytes_of "false") ->
  loosely (t ++ rest) (bytes_of "true") = false.
Proof.
  intros t rest B. destruct t as [|c t]; [discriminate B|]. apply (f_equal (hd 0)) in B. cbn [map hd] in B.
  change (lower c = 102) in B. change (bytes_of "true") with [116; 114; 117; 101]. cbn [app loosely].
  rewrite B. reflexivity.
Qed.

Lemma bool_outcome_default_accepts : forall t rest v out, bool_spelling t v ->
  bool_outcome loosely (t ++ rest) out = (Conv (length t) OK, option_map (fun _ => v) out).
Proof.
  intros t rest v out B. destruct v; cbn [bool_spelling] in B; destruct B as [->|B]; try reflexivity.
  - assert (L : length t = 4%nat).
    { unfold same_ignoring_case in B. apply (f_equal (@length N)) in B. rewrite !map_length in B. exact B. }
    destruct t as [|c t]; [discriminate L|]. destruct (spelling_head _ _ c t B eq_refl (or_introl eq_refl)) as [H1 H2].
    unfold bool_outcome. cbn [app]. destruct (N.eqb_spec c 49); [contradiction|].
    destruct (N.eqb_spec c 48); [contradiction|].
    change (c :: t ++ rest) with ((c :: t) ++ rest).
    rewrite loosely_exact.
    + rewrite L. reflexivity.
    + change (length (bytes_of "true")) with 4%nat. rewrite <- L, firstn_app, Nat.sub_diag, firstn_all, firstn_O, app_nil_r.
      exact B.
  - assert (L : length t = 5%nat).
    { unfold same_ignoring_case in B. apply (f_equal (@length N)) in B. rewrite !map_length in B. exact B. }
    pose proof (loosely_false_true t rest B) as NT.
    destruct t as [|c t]; [discriminate L|]. destruct (spelling_head _ _ c t B eq_refl (or_intror eq_refl)) as [H1 H2].
    unfold bool_outcome. cbn [app]. destruct (N.eqb_spec c 49); [contradiction|].
    destruct (N.eqb_spec c 48); [contradiction|].
    change (c :: t ++ rest) with ((c :: t) ++ rest). rewrite NT.
    rewrite loosely_exact.
    + rewrite L. reflexivity.
    + change (length (bytes_of "false")) with 5%nat. rewrite <- L, firstn_app, Nat.sub_diag, firstn_all, firstn_O, app_nil_r.
      exact B.
Qed.

(** * Printing strings, booleans and bytes *)
Lemma copy_into_some : forall src buf, (length src <= length buf)%nat ->
  copy_into buf src = Some (src ++ skipn (length src) buf).
Proof.
  induction src as [|c s IH]; intros buf L; [destruct buf; reflexivity|].
  destruct buf as [|x t]; [cbn in L; lia|]. cbn [copy_into length skipn app].
  rewrite IH by (cbn in L; lia). reflexivity.
Qed.

Lemma print_string_correct : forall buf maxlen src, (maxlen <= length buf)%nat -> (0 < maxlen)%nat -> src <> [] ->
  exists r, tmc_print_string buf maxlen src = Some r /\ report_print src buf maxlen r.
Proof.
  intros buf maxlen src L M Hs. unfold tmc_print_string.
  assert (0 < length src)%nat by (destruct src; [contradiction|cbn; lia]).
  destruct (Nat.ltb_spec maxlen (length src)) as [H1|H1].
  - unfold assert_. destruct (Nat.ltb_spec 0 maxlen); [|lia].
    rewrite copy_into_some by (rewrite firstn_length; lia). eexists. split; [reflexivity|].
    unfold report_print. destruct (Nat.leb_spec (length src) maxlen); [lia|]. cbn [fst snd].
    rewrite firstn_length, Nat.min_l by lia.
    split; [reflexivity|]. split.
    + rewrite app_length, firstn_length, skipn_length. lia.
    + rewrite skipn_eq_app by (rewrite firstn_length; lia). reflexivity.
  - unfold assert_. destruct (Nat.ltb_spec 0 (length src)); [|lia].
    rewrite firstn_all, copy_into_some by lia. eexists. split; [reflexivity|].
    unfold report_print. destruct (Nat.leb_spec (length src) maxlen); [reflexivity|lia].
Qed.

Lemma hex_bytes_loop_correct : forall lc bytes buf, Forall is_byte bytes -> (2 * length bytes <= length buf)%nat ->
  hex_bytes_loop lc buf bytes = Some
    (flat_map (fun v => [digit_char lc (v / 16); digit_char lc (v mod 16)]) bytes ++ skipn (2 * length bytes) buf).
Proof.
  induction bytes as [|v bytes IH]; intros buf F L; [destruct buf; reflexivity|].
  apply Forall_cons_iff in F as [Hv F]. unfold is_byte in Hv.
  destruct buf as [|x [|y t]]; [cbn in L; lia|cbn in L; lia|]. cbn [hex_bytes_loop].
  rewrite shiftr4, !land15.
  assert (M : v mod 16 < 16) by (apply N.mod_lt; lia).
  assert (D : v / 16 < 16) by (apply N.div_lt_upper_bound; lia).
  rewrite (N.mod_small (v / 16)) by assumption.
  rewrite !number_table_digit by lia. rewrite IH by (assumption || (cbn in L; lia)).
  replace (2 * length (v :: bytes))%nat with (S (S (2 * length bytes))) by (cbn [length]; lia). reflexivity.
Qed.

Lemma print_hex_bytes_correct : forall lc bytes buf maxlen, Forall is_byte bytes ->
  N.of_nat (length bytes) < 2 ^ 63 -> (maxlen <= length buf)%nat ->
  print_hex_bytes buf maxlen bytes lc = Some
    (printed (flat_map (fun v => [digit_char lc (v / 16); digit_char lc (v mod 16)]) bytes) buf maxlen).
Proof.
  intros lc bytes buf maxlen F Hl L. unfold print_hex_bytes, printed.
  change (2 ^ 63) with 9223372036854775808 in Hl.
  assert (E : w64 (N.of_nat (length bytes) * 2) = N.of_nat (length bytes) * 2)
    by (unfold w64; apply N.mod_small; lia).
  assert (Ll : length (flat_map (fun v => [digit_char lc (v / 16); digit_char lc (v mod 16)]) bytes) = (2 * length bytes)%nat).
  { clear. induction bytes as [|v bytes IH]; [reflexivity|]. cbn [flat_map length app]. rewrite IH. lia. }
  cbv zeta. rewrite E, Ll.
  destruct (N.ltb_spec (N.of_nat maxlen) (N.of_nat (length bytes) * 2));
    destruct (Nat.leb_spec (2 * length bytes) maxlen); try lia; [reflexivity|].
  rewrite hex_bytes_loop_correct by (assumption || lia). f_equal. f_equal. f_equal. lia.
Qed.
