(** The reader goes through every document of the grammar: the pieces. *)
From Coq Require Import Arith NArith ZArith List Bool Lia ZifyBool ZifyNat ZifyN.
From Verif Require Import Base CodecModel CodecProofs UniModel UniSpec UniProofs UniTop XmlModel XmlSpec XmlText.
Import ListNotations.
Local Open Scope N_scope.

(** ** Character data of the grammar *)
Lemma seq_bytes : forall v ch, utf8_seq v ch -> (ch = [v] /\ v < 128) \/ Forall (fun c => 128 <= c) ch.
Proof. intros v ch H. destruct H as [v H|v H|v H S|v H]; [left; split; [reflexivity|exact H]|right|right|right]; repeat constructor; lia. Qed.
Lemma not_in_char : forall v ch c, utf8_seq v ch -> c < 128 -> In c ch -> v = c.
Proof. intros v ch c H L K. destruct (seq_bytes v ch H) as [[-> _]|F]; [destruct K as [K|[]]; exact K|]. rewrite Forall_forall in F. specialize (F c K). lia. Qed.
Lemma seq_93 : forall ch, utf8_seq 93 ch -> ch = [93]. Proof. intros ch H. inversion H; subst; try lia. reflexivity. Qed.
Lemma seq_ascii : forall v ch, utf8_seq v ch -> v < 128 -> ch = [v]. Proof. intros v ch H L. inversion H; subst; try lia. reflexivity. Qed.

Lemma reference_xml : forall lim ref v, reference lim ref v -> xml_char v.
Proof. intros lim ref v H. destruct H; try assumption; unfold xml_char; lia. Qed.
Lemma reference_bytes : forall lim ref v, reference lim ref v -> Forall (fun c => c <> 60 /\ c <> 0) ref.
Proof.
  intros lim ref v H. destruct H as [| | | | |ds _ D _ _|ds vs _ D _ _]; try (repeat constructor; discriminate).
  - constructor; [split; discriminate|]. eapply Forall_impl; [|exact D]. intros c K. unfold dec_digit in K. lia.
  - constructor; [split; discriminate|]. constructor; [split; discriminate|]. clear -D. induction D as [|d v ds vs Hd D IH]; constructor; [inversion Hd; lia|exact IH].
Qed.
Lemma char_bytes : forall v ch, utf8_seq v ch -> v <> 60 -> v <> 0 -> Forall (fun c => c <> 60 /\ c <> 0) ch.
Proof. intros v ch H A B. apply Forall_forall. intros c K. split; intros ->; [apply A|apply B]; apply (not_in_char v ch); try exact H; try exact K; lia. Qed.
Lemma chardata_bytes : forall lim raw val, chardata lim raw val -> Forall (fun c => c <> 60 /\ c <> 0) raw.
Proof.
  intros lim raw val H. induction H as [|v ch raw val X N1 N2 S B H IH|ref v ch raw val R S H IH]; [constructor| |].
  - apply Forall_app. split; [|exact IH]. apply (char_bytes v); [exact S|exact N2|unfold xml_char in X; lia].
  - constructor; [split; discriminate|]. apply Forall_app. split; [exact (reference_bytes _ _ _ R)|]. constructor; [split; discriminate|exact IH].
Qed.

Lemma reference_loose : forall inside ref v ch raw val, reference true ref v -> utf8_seq v ch -> loose inside raw val -> loose inside (38 :: ref ++ 59 :: raw) (ch ++ val).
Proof.
  intros inside ref v ch raw val R S H. change (38 :: ref ++ 59 :: raw) with ([38] ++ ref ++ 59 :: raw).
  destruct R as [| | | | |ds N0 D X L|ds vs N0 D X L];
    try (rewrite (seq_ascii _ ch S) by reflexivity; apply O_entity; [exact lenient_38|constructor|exact H]).
  - assert (E : dec_value ds mod 2 ^ 32 = dec_value ds) by (apply N.mod_small; unfold xml_char in X; change (2 ^ 32) with 4294967296; lia).
    change ((35 :: ds) ++ 59 :: raw) with (35 :: ds ++ 59 :: raw). apply O_dec; try assumption; try exact lenient_38; try (rewrite E; assumption). apply L; reflexivity.
  - change ((35 :: 120 :: ds) ++ 59 :: raw) with (35 :: 120 :: ds ++ 59 :: raw). eapply O_hex; try eassumption; try exact lenient_38. apply L; reflexivity.
Qed.
Lemma chardata_loose : forall raw val, chardata true raw val -> loose false raw val.
Proof.
  intros raw val H. induction H as [|v ch raw val X N1 N2 S B H IH|ref v ch raw val R S H IH]; [constructor| |].
  - destruct (N.eq_dec v 93) as [->|N3].
    + rewrite (seq_93 ch S) in *. apply O_bracket; [exact lenient_93| |exact IH]. intros _ [b ->]. apply B. exists b. reflexivity.
    + apply O_char with (v := v); try assumption. apply seq_lenient, S.
  - eapply reference_loose; eassumption.
Qed.
Lemma attr_loose : forall raw val, attr_data true raw val -> loose false raw val.
Proof.
  intros raw val H. induction H as [|v ch raw val X N1 N2 S B H IH|ref v ch raw val R S H IH]; [constructor| |].
  - destruct (N.eq_dec v 93) as [->|N3].
    + rewrite (seq_93 ch S) in *. apply O_bracket; [exact lenient_93| |exact IH]. intros _ [b ->]. apply B; [reflexivity|]. exists b. reflexivity.
    + apply O_char with (v := v); try assumption. apply seq_lenient, S.
  - eapply reference_loose; eassumption.
Qed.
Lemma attr_bytes : forall lim raw val, attr_data lim raw val -> Forall (fun c => c <> 0) raw.
Proof.
  intros lim raw val H. induction H as [|v ch raw val X N1 N2 S B H IH|ref v ch raw val R S H IH]; [constructor| |].
  - apply Forall_app. split; [|exact IH]. eapply Forall_impl; [|apply (char_bytes v ch S N2); unfold xml_char in X; lia]. intros c [_ K]. exact K.
  - constructor; [discriminate|]. apply Forall_app. split; [|constructor; [discriminate|exact IH]]. eapply Forall_impl; [|exact (reference_bytes _ _ _ R)]. intros c [_ K]. exact K.
Qed.
Lemma chars_loose : forall t, chars t -> ~ In 38 t -> loose true t t.
Proof.
  intros t (vs & E & F) H. revert F H. induction E as [|v vs ch us S E IH]; intros F H; [constructor|]. inversion F as [|? ? Fv Fs]; subst.
  assert (H' : ~ In 38 us) by (intros K; apply H, in_or_app; right; exact K). specialize (IH Fs H').
  destruct (N.eq_dec v 38) as [->|N1]; [exfalso; apply H; rewrite (seq_ascii 38 ch S) by reflexivity; left; reflexivity|].
  destruct (N.eq_dec v 60) as [->|N2]; [rewrite (seq_ascii 60 ch S) by reflexivity; apply O_less; [exact lenient_60|reflexivity|exact IH]|].
  destruct (N.eq_dec v 93) as [->|N3]; [rewrite (seq_ascii 93 ch S) by reflexivity; apply O_bracket; [exact lenient_93|discriminate|exact IH]|].
  apply O_char with (v := v); try assumption. apply seq_lenient, S.
Qed.

Lemma unit_fitting : forall cs, unit_chunks cs -> storable (concat cs) -> fitting cs.
Proof.
  intros cs U [L|A]; [left; exact L|right]. induction U as [|c cs [v Hc] U IH]; [constructor|]. cbn [concat] in A. apply Forall_app in A. destruct A as [A1 A2].
  constructor; [|exact (IH A2)]. destruct Hc as [a H|a b H|a b c w H E S|a b c d w H E S]; [reflexivity| | |]; inversion A1; lia.
Qed.

(** ** Flags without whitespace processing *)
Definition quiet (fl : N) : Prop :=
  trim_left_flag fl = false /\ trim_right_flag fl = false /\ reduce_flag fl = false /\ newlines_flag fl = false /\ comment_flag fl = false.
Lemma quiet_clear : forall fl, quiet fl -> clear_trims fl = fl.
Proof.
  intros fl (A & B & C & D & _). apply N.bits_inj. intros n. unfold clear_trims. rewrite N.ldiff_spec. unfold trim_left_flag, trim_right_flag, reduce_flag, newlines_flag in *.
  destruct (N.eq_dec n 0) as [->|]; [rewrite A; reflexivity|]. destruct (N.eq_dec n 1) as [->|]; [rewrite B; reflexivity|].
  destruct (N.eq_dec n 2) as [->|]; [rewrite C; reflexivity|]. destruct (N.eq_dec n 3) as [->|]; [rewrite D; reflexivity|].
  change 15 with (N.ones 4). rewrite N.ones_spec_high by lia. apply andb_true_r.
Qed.
Lemma quiet_trims : forall fl v, quiet fl -> trims fl v = v.
Proof. intros fl v (A & B & _). unfold trims. rewrite A, B. reflexivity. Qed.

(** The reader after its token was processed. *)
Definition same (r r' : reader) : Prop :=
  r_tk r' = r_tk r /\ r_flags r' = r_flags r /\ r_context r' = r_context r /\ r_depth r' = r_depth r /\ r_tag r' = r_tag r /\ r_root r' = r_root r
  /\ t_loc (r_current r') = t_loc (r_current r) /\ t_length (r_current r') = t_length (r_current r).
Definition ev (t : token) : event := (t_type t, t_text t).
Definition all_memory (alloc : nat -> bool) : Prop := forall n, alloc n = true.

Lemma unescape_token : forall alloc r fl val, all_memory alloc -> quiet fl -> r_flags r = fl -> (64 <= buffer_size r)%nat ->
  loose (match t_type (r_current r) with Tcomment => true | _ => false end) (t_text (r_current r)) val -> storable val ->
  exists r', unescape_current_token alloc r = Some (true, r') /\ same r r' /\ ev (r_current r') = (t_type (r_current r), val) /\ (64 <= buffer_size r')%nat.
Proof.
  intros alloc r fl val M Q F B L St. unfold unescape_current_token. rewrite F, (quiet_clear fl Q).
  assert (E : match t_type (r_current r) with Tattr_value => if attribute_flag fl then fl else fl | _ => fl end = fl) by (destruct (t_type (r_current r)), (attribute_flag fl); reflexivity).
  rewrite E. rewrite quiet_trims by exact Q. cbn [fst].
  assert (R : with_current r (text_of (r_current r) (t_text (r_current r), t_after (r_current r))) = r) by (destruct r as [tk [ty tx af lc ln] f c d tg rt bf]; reflexivity). rewrite R.
  destruct (t_text (r_current r)) as [|x0 t0] eqn:Et.
  - inversion L; subst; try (match goal with H : lenient _ ?ch, K : _ = [] |- _ => pose proof (lenient_ne _ _ H) as W; apply (f_equal (@length N)) in K; rewrite ?app_length in K; cbn in K; lia end).
    exists r. split; [reflexivity|]. split; [repeat split; reflexivity|]. split; [unfold ev; rewrite Et; reflexivity|exact B].
  - set (flags := match t_type (r_current r) with Tcomment => N.setbit fl 28 | _ => fl end).
    assert (P : plain_flags flags /\ trims flags (x0 :: t0, t_after (r_current r)) = (x0 :: t0, t_after (r_current r)) /\ comment_flag flags = match t_type (r_current r) with Tcomment => true | _ => false end).
    { destruct Q as (Q1 & Q2 & Q3 & Q4 & Q5). unfold plain_flags, trims. unfold flags, reduce_flag, newlines_flag, trim_left_flag, trim_right_flag, comment_flag in *.
      destruct (t_type (r_current r)); rewrite ?N.setbit_eq, ?N.setbit_neq by lia; rewrite ?Q1, ?Q2, ?Q3, ?Q4, ?Q5; repeat split; reflexivity. }
    destruct P as (P1 & P2 & P3).
    destruct (loose_chunks _ _ _ L flags (t_after (r_current r)) false (S (length (x0 :: t0))) P1 P3 ltac:(lia)) as (cs & U & V & W).
    pose proof (unescape_delivers _ flags (x0 :: t0) (t_after (r_current r)) cs P2 ltac:(discriminate) U) as D.
    destruct (process_value alloc _ cs r D (unit_fitting cs W ltac:(rewrite V; exact St)) B) as (b & Bb & [E'|[_ [A _]]]); [|rewrite M in A; discriminate].
    rewrite E'. exists (with_value r (concat cs) b). split; [reflexivity|]. split; [repeat split; reflexivity|]. split; [rewrite V; reflexivity|exact Bb].
Qed.

(** ** Lexing *)
Lemma scan_stop : forall (stop : N -> bool) p c r ln col, Forall (fun x => x = 10 \/ stop x = false) p -> c <> 10 -> stop c = true ->
  exists ln' col', scan stop (p ++ c :: r) ln col = (p, c :: r, ln', col').
Proof.
  intros stop p c r. induction p as [|x p IH]; intros ln col F C S; cbn [app scan].
  - rewrite (proj2 (N.eqb_neq c 10) C), S. do 2 eexists. reflexivity.
  - inversion F as [|? ? Fx Fp]; subst. destruct (N.eqb_spec x 10) as [->|Hx].
    + destruct (IH (w32 (ln + 1)) 0 Fp C S) as (a & b & ->). do 2 eexists. reflexivity.
    + destruct Fx as [Fx|Fx]; [contradiction|]. rewrite Fx. destruct (IH ln (w32 (col + 1)) Fp C S) as (a & b & ->). do 2 eexists. reflexivity.
Qed.
Lemma scan_end : forall (stop : N -> bool) p ln col, Forall (fun x => x = 10 \/ stop x = false) p -> exists ln' col', scan stop p ln col = (p, [], ln', col').
Proof.
  intros stop p. induction p as [|x p IH]; intros ln col F; cbn [scan]; [do 2 eexists; reflexivity|].
  inversion F as [|? ? Fx Fp]; subst. destruct (N.eqb_spec x 10) as [->|Hx].
  + destruct (IH (w32 (ln + 1)) 0 Fp) as (a & b & ->). do 2 eexists. reflexivity.
  + destruct Fx as [Fx|Fx]; [contradiction|]. rewrite Fx. destruct (IH ln (w32 (col + 1)) Fp) as (a & b & ->). do 2 eexists. reflexivity.
Qed.
Lemma spaces_scan : forall w, spaces w -> Forall (fun x => x = 10 \/ not_space x = false) w.
Proof. intros w H. eapply Forall_impl; [|exact H]. intros c [-> | [-> | [-> | ->]]]; [right|right|left|right]; reflexivity. Qed.
Definition visible (c : N) : Prop := c <> 0 /\ ~ space c.
Lemma skip_spaces : forall w c r l, spaces w -> visible c -> exists l', skip_whitespace (Tk (w ++ c :: r) l) = (true, Tk (c :: r) l').
Proof.
  intros w c r l W [C0 C]. unfold skip_whitespace. cbn [cur at_]. unfold space in C.
  destruct (scan_stop not_space w c r (line l) (column l) (spaces_scan w W)) as (a & b & ->); [intros ->; apply C; tauto| |].
  - unfold not_space, one_of. cbn [existsb]. rewrite (proj2 (N.eqb_neq c 32)), (proj2 (N.eqb_neq c 9)), (proj2 (N.eqb_neq c 13)) by (intros ->; apply C; tauto). reflexivity.
  - cbn [chr hd]. rewrite (proj2 (N.eqb_neq c 0) C0). eexists. reflexivity.
Qed.
Lemma skip_end : forall w l, spaces w -> exists l', skip_whitespace (Tk w l) = (false, Tk [] l').
Proof. intros w l W. unfold skip_whitespace. cbn [cur at_]. destruct (scan_end not_space w (line l) (column l) (spaces_scan w W)) as (a & b & ->). eexists. reflexivity. Qed.

Definition delim (c : N) : Prop := In c [32; 9; 13; 10; 61; 47; 62; 63].
Lemma one_of_in : forall cs c, one_of cs c = true <-> In c cs.
Proof. intros cs c. unfold one_of. rewrite existsb_exists. split; [intros (x & H & E); apply N.eqb_eq in E; subst; exact H|intros H; exists c; split; [exact H|apply N.eqb_refl]]. Qed.
Lemma cspn_stop : forall stop p c r, Forall (fun x => ~ In x stop) p -> In c stop -> cspn stop (p ++ c :: r) = (p, c :: r).
Proof.
  intros stop p c r F C. induction F as [|x p Fx F IH]; cbn [app cspn]; [rewrite (proj2 (one_of_in stop c) C); reflexivity|].
  destruct (one_of stop x) eqn:E; [apply one_of_in in E; contradiction|]. rewrite IH. reflexivity.
Qed.

Lemma within_in : forall rs v, within rs v = true <-> in_ranges rs v.
Proof.
  intros rs v. unfold within, in_ranges. induction rs as [|x rs IH]; cbn [existsb]; [split; [discriminate|intros H; inversion H]|].
  rewrite orb_true_iff, IH, Exists_cons, andb_true_iff, !N.leb_le. reflexivity.
Qed.
Lemma start_ok : forall v, name_start v <-> is_name_start v = true. Proof. intros v. unfold name_start, is_name_start. symmetry. apply within_in. Qed.
Lemma name_ok_char : forall v, name_char v <-> is_name v = true.
Proof.
  intros v. unfold name_char, is_name. rewrite !orb_true_iff, <- start_ok, !within_in. unfold in_ranges. rewrite !Exists_cons, !Exists_nil. tauto.
Qed.
Lemma name_char_xml : forall v, name_char v -> xml_char v /\ ~ delim v.
Proof.
  intros v H. unfold name_char, name_start, in_ranges in H. rewrite !Exists_cons, !Exists_nil in H. cbn [fst snd] in H. unfold xml_char, delim. cbn [In]. lia.
Qed.

Lemma name_loop_ok : forall vs s, encodes utf8_seq vs s -> Forall name_char vs -> forall fuel, (length s < fuel)%nat -> name_loop fuel s = Some true.
Proof.
  intros vs s E. induction E as [|v vs ch us S E IH]; intros F [|fuel] Hf; try (exfalso; lia); cbn [name_loop]; [reflexivity|]. inversion F as [|? ? Fv Fs]; subst.
  unfold utf8_extract. rewrite (extract_seq v ch us S). rewrite (proj1 (name_ok_char v) Fv). pose proof (seq_ne v ch S). rewrite app_length in Hf. apply IH; [exact Fs|lia].
Qed.
Lemma name_bytes : forall n, name n -> n <> [] /\ Forall (fun x => ~ delim x /\ x <> 0) n.
Proof.
  intros n (v & vs & E & Hs & F). split.
  - inversion E as [|? ? ch us S E' K1 K2]; subst. pose proof (seq_ne v ch S). destruct ch; [cbn in *; lia|discriminate].
  - assert (F' : Forall name_char (v :: vs)) by (constructor; [left; exact Hs|exact F]). clear Hs F. revert F'. induction E as [|w ws ch us S E IH]; intros F'; [constructor|]. inversion F' as [|? ? Fw Fs]; subst.
    apply Forall_app. split; [|exact (IH Fs)]. apply Forall_forall. intros c K. destruct (name_char_xml w Fw) as [X D].
    split; [intros Dc|intros ->].
    + assert (w = c) by (apply (not_in_char w ch c S); [unfold delim in Dc; cbn [In] in Dc; lia|exact K]). subst w. exact (D Dc).
    + assert (w = 0) by (apply (not_in_char w ch 0 S); [reflexivity|exact K]). subst w. unfold xml_char in X. lia.
Qed.
Lemma name_ok_true : forall n, name n -> name_ok n = Some true.
Proof.
  intros n (v & vs & E & Hs & F). inversion E as [|? ? ch us S E' K1 K2]; subst. unfold name_ok, utf8_extract. rewrite (extract_seq v ch us S). rewrite (proj1 (start_ok v) Hs). cbn [andb].
  apply (name_loop_ok vs us E' F). rewrite app_length. pose proof (seq_ne v ch S). lia.
Qed.
Lemma parse_name_ok : forall n c r l, name n -> delim c -> exists l', parse_name (Tk (n ++ c :: r) l) = Some (Token Topen n (Some c) l (len32 n), Tk (c :: r) l').
Proof.
  intros n c r l H D. destruct (name_bytes n H) as [N0 F]. unfold parse_name. cbn [cur at_].
  rewrite (cspn_stop _ n c r); [|eapply Forall_impl; [|exact F]; intros x [K _]; exact K|exact D]. rewrite (name_ok_true n H).
  assert (R : reserved n (c :: r) = false).
  { unfold reserved. destruct (Nat.eqb (length n) 3); [|reflexivity]. cbn [nth andb]. destruct (one_of [120; 88] c) eqn:E; [|reflexivity]. apply one_of_in in E. unfold delim in D. cbn [In] in *. lia. }
  rewrite R. destruct n as [|x n]; [contradiction|]. cbn [andb negb]. eexists. reflexivity.
Qed.

(** ** Search *)
Lemma find_str_first : forall f t r, f <> [] -> ~ occurs f (t ++ removelast f) -> find_str f (t ++ f ++ r) = Some (t, f ++ r).
Proof.
  intros f t r N0. induction t as [|c t IH]; intros H.
  - cbn [app]. destruct (f ++ r) as [|x y] eqn:E; [destruct f; [contradiction|discriminate]|]. cbn [find_str]. rewrite <- E. rewrite starts_app. reflexivity.
  - cbn [app find_str]. destruct (starts f (c :: t ++ f ++ r)) eqn:E.
    + exfalso. apply starts_begins in E. destruct E as [b E]. apply H. exists [], (skipn (length f) ((c :: t) ++ removelast f)). cbn [app].
      assert (Lr : length (removelast f) = (length f - 1)%nat) by (destruct (exists_last N0) as (f' & x & ->); rewrite removelast_last, app_length; cbn; lia).
      assert (Q : firstn (length f) ((c :: t) ++ removelast f) = f).
      { transitivity (firstn (length f) ((c :: t) ++ f ++ r)).
        - rewrite (app_removelast_last 0 N0) at 4. rewrite <- (app_assoc (removelast f)). rewrite (app_assoc (c :: t)). rewrite firstn_app with (l1 := (c :: t) ++ removelast f).
          assert (Z : (length f - length ((c :: t) ++ removelast f) = 0)%nat) by (rewrite app_length, Lr; cbn [length]; lia). rewrite Z. cbn [firstn]. rewrite app_nil_r. reflexivity.
        - change ((c :: t) ++ f ++ r) with (c :: t ++ f ++ r). rewrite E. rewrite firstn_app, firstn_all, Nat.sub_diag. cbn [firstn]. apply app_nil_r. }
      change (c :: t ++ removelast f) with ((c :: t) ++ removelast f). rewrite <- (firstn_skipn (length f) ((c :: t) ++ removelast f)) at 1. rewrite Q. reflexivity.
    + rewrite IH; [reflexivity|]. intros (a & b & Eo). apply H. exists (c :: a), b. cbn [app]. rewrite Eo. reflexivity.
Qed.
Lemma parse_until_ok : forall t f r l ty, f <> [] -> ~ occurs f (t ++ removelast f) ->
  exists l', parse_until (Tk (t ++ f ++ r) l) ty f = (Token ty t (Some (chr (f ++ r))) l (len32 t), Tk r l').
Proof.
  intros t f r l ty N0 H. unfold parse_until. cbn [cur at_]. rewrite find_str_first by assumption. destruct (count_lines (t ++ f) (line l) 0) as [a b].
  rewrite skipn_app, skipn_all, Nat.sub_diag. cbn [skipn app]. eexists. reflexivity.
Qed.

Lemma valid_loop_ok : forall vs s, encodes utf8_seq vs s -> Forall xml_char vs -> ~ occurs [93; 93; 62] s -> forall fuel, (length s < fuel)%nat -> valid_loop fuel s = Some true.
Proof.
  intros vs s E. induction E as [|v vs ch us S E IH]; intros F O [|fuel] Hf; try (exfalso; lia); cbn [valid_loop]; [reflexivity|]. inversion F as [|? ? Fv Fs]; subst.
  unfold utf8_extract. rewrite (extract_seq v ch us S). pose proof (seq_ne v ch S). rewrite app_length in Hf.
  assert (Q : valid_loop fuel us = Some true) by (apply IH; [exact Fs| |lia]; intros (a & b & ->); apply O; exists (ch ++ a), b; rewrite !app_assoc; reflexivity).
  destruct (N.eqb_spec v 0) as [->|_]; [unfold xml_char in Fv; lia|]. destruct (N.eqb_spec v 93) as [->|_].
  - destruct (ends_cdata us) eqn:Ec; [|exact Q]. exfalso. apply starts_begins in Ec. destruct Ec as [b ->]. apply O. exists [], b. rewrite (seq_93 ch S). reflexivity.
  - rewrite (proj2 (valid_xml v) Fv). exact Q.
Qed.
Lemma valid_ok : forall s, chars s -> ~ occurs [93; 93; 62] s -> is_valid_xml_string s = Some true.
Proof. intros s (vs & E & F) O. apply (valid_loop_ok vs); try assumption. lia. Qed.
