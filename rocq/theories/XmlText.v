(** Lemmas about unescaping: the output as a list of chunks, and what ends up in the buffer. *)
From Coq Require Import Arith NArith ZArith List Bool Lia ZifyBool ZifyNat ZifyN.
From Verif Require Import Base CodecModel CodecProofs UniModel UniSpec UniProofs UniTop XmlModel XmlSpec.
Import ListNotations.
Local Open Scope N_scope.

(** ** Output *)
Definition emit' (bs : list N) (o : outp) : outp :=
  if (length bs <=? u_room o)%nat
  then Outp (splice (u_buf o) (u_pos o) bs) (u_pos o + length bs) (u_room o - length bs) (u_size o + length bs)
  else Outp (u_buf o) (u_pos o) (u_room o) (u_size o + length bs).
Definition emits (cs : list (list N)) (o : outp) : outp := fold_left (fun o c => emit' c o) cs o.
Definition okout (o : outp) : Prop := (u_pos o + u_room o = length (u_buf o))%nat.
Definition enc (v : N) : list N := match tmu_utf8_encode v [0; 0; 0; 0] 0 4 with Some (n, b) => firstn n b | None => [] end.

Lemma enc_seq : forall v, scalar v -> utf8_seq v (enc v).
Proof.
  intros v H. destruct (utf8_encode_spec v [0; 0; 0; 0] 0 4 H ltac:(cbn; lia)) as (ch & Hc & E). unfold enc. rewrite E.
  pose proof (seq_ne v ch Hc). destruct (Nat.ltb_spec 4 (length ch)); [lia|]. unfold splice. cbn [firstn app]. rewrite firstn_app, firstn_all, Nat.sub_diag. cbn [firstn]. rewrite app_nil_r. exact Hc.
Qed.
Lemma encode_enc : forall v buf pos room, scalar v -> (pos + room <= length buf)%nat ->
  tmu_utf8_encode v buf pos room = Some (length (enc v), if (room <? length (enc v))%nat then buf else splice buf pos (enc v)).
Proof.
  intros v buf pos room H L. destruct (utf8_encode_spec v buf pos room H L) as (ch & Hc & E).
  rewrite (seq_fun v (enc v) ch (enc_seq v H) Hc). exact E.
Qed.

Lemma emit_ok : forall bs o, okout o -> emit bs o = Some (emit' bs o) /\ okout (emit' bs o).
Proof.
  intros bs o H. unfold okout in H. unfold emit, emit', okout. destruct (Nat.leb_spec (length bs) (u_room o)) as [L|L]; [|split; [reflexivity|exact H]].
  rewrite write_list_splice by lia. split; [reflexivity|]. cbn [u_pos u_room u_buf]. rewrite splice_length by lia. lia.
Qed.
Lemma emit'_enc : forall v o, scalar v -> okout o ->
  (' (n, b) <- utf8_encode v (u_buf o) (u_pos o) (u_room o) ;;
   Some (if (n <=? u_room o)%nat then Outp b (u_pos o + n) (u_room o - n) (u_size o + n) else Outp b (u_pos o) (u_room o) (u_size o + n)))
  = Some (emit' (enc v) o).
Proof.
  intros v o H O. unfold okout in O. unfold utf8_encode. rewrite encode_enc by (assumption || lia). unfold emit'.
  destruct (Nat.ltb_spec (u_room o) (length (enc v))), (Nat.leb_spec (length (enc v)) (u_room o)); try lia; reflexivity.
Qed.
Lemma emits_ok : forall cs o, okout o -> okout (emits cs o).
Proof. induction cs as [|c cs IH]; intros o H; [exact H|]. apply IH, (emit_ok c o H). Qed.
Lemma emits_len : forall cs o, okout o -> length (u_buf (emits cs o)) = length (u_buf o).
Proof.
  induction cs as [|c cs IH]; intros o H; [reflexivity|]. cbn [emits fold_left]. fold (emits cs (emit' c o)). rewrite IH by (apply (emit_ok c o H)).
  unfold okout in H. unfold emit'. destruct (Nat.leb_spec (length c) (u_room o)); [|reflexivity]. cbn [u_buf]. apply splice_length. lia.
Qed.
Lemma emits_size : forall cs o, u_size (emits cs o) = (u_size o + length (concat cs))%nat.
Proof.
  induction cs as [|c cs IH]; intros o; [cbn; lia|]. cbn [emits fold_left]. fold (emits cs (emit' c o)). rewrite IH. cbn [concat]. rewrite app_length.
  unfold emit'. destruct (length c <=? u_room o)%nat; cbn [u_size]; lia.
Qed.
Lemma emits_fit : forall cs o, okout o -> (length (concat cs) <= u_room o)%nat ->
  emits cs o = Outp (splice (u_buf o) (u_pos o) (concat cs)) (u_pos o + length (concat cs)) (u_room o - length (concat cs)) (u_size o + length (concat cs)).
Proof.
  induction cs as [|c cs IH]; intros o H L.
  - cbn. rewrite splice_nil. destruct o as [b p rm sz]. cbn. rewrite !Nat.add_0_r, Nat.sub_0_r. reflexivity.
  - cbn [emits fold_left]. fold (emits cs (emit' c o)). cbn [concat] in *. rewrite app_length in *. pose proof (emit_ok c o H) as [_ O]. unfold okout in H.
    assert (Hc : (length c <= u_room o)%nat) by lia.
    rewrite IH; [|exact O|unfold emit'; rewrite (proj2 (Nat.leb_le _ _) Hc); cbn [u_room]; lia].
    unfold emit'. rewrite (proj2 (Nat.leb_le _ _) Hc). cbn [u_buf u_pos u_room u_size]. rewrite splice_splice by lia. f_equal; lia.
Qed.
Lemma emits_room : forall cs o, Forall (fun c => length c = 1%nat) cs -> u_room (emits cs o) = (u_room o - length (concat cs))%nat.
Proof.
  induction cs as [|c cs IH]; intros o H; [cbn; lia|]. inversion H as [|? ? Hc Hs]; subst. cbn [emits fold_left]. fold (emits cs (emit' c o)). rewrite IH by exact Hs.
  cbn [concat]. rewrite app_length. unfold emit'. destruct (Nat.leb_spec (length c) (u_room o)); cbn [u_room]; lia.
Qed.
Lemma terminate_ok : forall o, okout o ->
  terminate o = Some (if (1 <=? u_room o)%nat then Outp (splice (u_buf o) (u_pos o) [0]) (S (u_pos o)) (u_room o - 1) (u_size o)
                      else Outp (u_buf o) (u_pos o) (u_room o) (S (u_size o))).
Proof.
  intros o H. unfold okout in H. unfold terminate. destruct (Nat.leb_spec 1 (u_room o)) as [L|L]; [|reflexivity].
  rewrite write_list_splice by (cbn [length]; lia). reflexivity.
Qed.

(** ** The chunks that are output *)
Fixpoint cchunks (fuel : nat) (flags : N) (pre s : list N) (after : option N) (last_ws : bool) : option (bool * list (list N) * list N) :=
  match fuel with
  | O => None
  | S fuel =>
      ' (ok, cp, s') <- utf8_extract s ;;
      let one (c : list N) (pre s : list N) (ws : bool) := ' (ok, cs, rest) <- cchunks fuel flags pre s after ws ;; Some (ok, c :: cs, rest) in
      if (ok : bool) then
        let used := pre ++ firstn (length s - length s') s in
        if cp =? 0 then Some (false, [], s')
        else if cp =? 93 then (if ends_cdata s' then Some (false, [], s') else one [93] [] s' last_ws)
        else if is_valid_xml_codepoint cp then
          ' (a, last_ws) <- whitespace_action flags cp s' after last_ws ;;
          match a with
          | Drop => cchunks fuel flags [] s' after last_ws
          | Space => one [32] [] s' last_ws
          | Continue => cchunks fuel flags used s' after last_ws
          | Copy => one used [] s' last_ws
          end
        else Some (false, [], s')
      else Some (true, [], s')
  end.
Fixpoint uchunks (fuel : nat) (flags : N) (pre s : list N) (after : option N) (last_ws : bool) : option (bool * list (list N) * list N) :=
  match fuel with
  | O => None
  | S fuel =>
      ' (ok, cp, s') <- utf8_extract s ;;
      let one (c : list N) (pre s : list N) (ws : bool) := ' (ok, cs, rest) <- uchunks fuel flags pre s after ws ;; Some (ok, c :: cs, rest) in
      if (ok : bool) then
        let used := pre ++ firstn (length s - length s') s in
        if cp =? 0 then Some (false, [], s')
        else if cp =? 38 then
          match s' with
          | [] => Some (false, [], s')
          | 35 :: s2 =>
              match numeric s2 with
              | None => Some (false, [], s')
              | Some (cp, r) =>
                  if is_valid_xml_codepoint cp then
                    ' (a, last_ws) <- whitespace_action flags cp r after last_ws ;;
                    match a with
                    | Drop => uchunks fuel flags [] r after last_ws
                    | Space => one [32] [] r last_ws
                    | Continue => uchunks fuel flags (pre ++ firstn (length s - length r) s) r after last_ws
                    | Copy => one (enc cp) [] r last_ws
                    end
                  else Some (false, [], s')
              end
          | _ =>
              match entity s' with
              | Some (c, r) => one [c] [] r last_ws
              | None => match find_str [59] s' with None => Some (false, [], s') | Some _ => one [38] [] s' last_ws end
              end
          end
        else if cp =? 60 then (if comment_flag flags then one [60] [] s' last_ws else Some (false, [], s'))
        else if cp =? 93 then
          if negb (comment_flag flags) && ends_cdata s' then Some (false, [], s') else one [93] [] s' last_ws
        else if is_valid_xml_codepoint cp then
          ' (a, last_ws) <- whitespace_action flags cp s' after last_ws ;;
          match a with
          | Drop => uchunks fuel flags [] s' after last_ws
          | Space => one [32] [] s' last_ws
          | Continue => uchunks fuel flags used s' after last_ws
          | Copy => one used [] s' last_ws
          end
        else Some (false, [], s')
      else Some (true, [], s')
  end.

Lemma xml_scalar : forall v, is_valid_xml_codepoint v = true -> scalar v.
Proof. intros v H. unfold is_valid_xml_codepoint in H. unfold scalar. lia. Qed.

Definition with_out (x : option (bool * list (list N) * list N)) (o : outp) : option (bool * outp * list N) :=
  match x with None => None | Some (ok, cs, rest) => Some (ok, emits cs o, rest) end.

Ltac one_chunk IH := match goal with
  | |- context [emit ?bs ?o] => let E := fresh in let O := fresh in destruct (emit_ok bs o ltac:(assumption)) as [E O]; rewrite E; cbv iota beta; rewrite IH by exact O
  end; unfold with_out; match goal with |- context [match ?x with Some _ => _ | None => _ end] => destruct x as [[[? ?] ?]|]; reflexivity end.

Lemma cdata_chunks : forall fuel flags pre s after ws o, okout o -> cdata_loop fuel flags pre s after ws o = with_out (cchunks fuel flags pre s after ws) o.
Proof.
  induction fuel as [|fuel IH]; intros flags pre s after ws o H; [reflexivity|]. cbn [cdata_loop cchunks].
  destruct (utf8_extract s) as [[[ok cp] s']|]; [|reflexivity]. destruct ok; [|reflexivity].
  destruct (cp =? 0); [reflexivity|]. destruct (cp =? 93).
  { destruct (ends_cdata s'); [reflexivity|]. one_chunk IH. }
  destruct (is_valid_xml_codepoint cp); [|reflexivity]. destruct (whitespace_action flags cp s' after ws) as [[a ws']|]; [|reflexivity].
  destruct a; [apply IH; exact H|one_chunk IH|apply IH; exact H|one_chunk IH].
Qed.

Lemma unescape_chunks : forall fuel flags pre s after ws o, okout o -> unescape_loop fuel flags pre s after ws o = with_out (uchunks fuel flags pre s after ws) o.
Proof.
  induction fuel as [|fuel IH]; intros flags pre s after ws o H; [reflexivity|]. cbn [unescape_loop uchunks].
  destruct (utf8_extract s) as [[[ok cp] s']|]; [|reflexivity]. destruct ok; [|reflexivity].
  destruct (cp =? 0); [reflexivity|]. destruct (cp =? 38).
  { destruct s' as [|c s2]; [reflexivity|].
    assert (G : match entity (c :: s2) with
      | Some (c0, r) => o0 <- emit [c0] o;; unescape_loop fuel flags [] r after ws o0
      | None => match find_str [59] (c :: s2) with None => Some (false, o, c :: s2) | Some _ => o0 <- emit [38] o;; unescape_loop fuel flags [] (c :: s2) after ws o0 end end
      = with_out (match entity (c :: s2) with
              | Some (c0, r) => ' (ok, cs, rest) <- uchunks fuel flags [] r after ws ;; Some (ok, [c0] :: cs, rest)
              | None => match find_str [59] (c :: s2) with None => Some (false, [], c :: s2) | Some _ => ' (ok, cs, rest) <- uchunks fuel flags [] (c :: s2) after ws ;; Some (ok, [38] :: cs, rest) end
              end) o).
    { destruct (entity (c :: s2)) as [[c0 r]|]; [one_chunk IH|]. destruct (find_str [59] (c :: s2)); [|reflexivity]. one_chunk IH. }
    destruct (N.eq_dec c 35) as [->|Hc]; [|destruct c as [|p]; [exact G|]; repeat (destruct p as [p|p|]; try exact G; try (exfalso; apply Hc; reflexivity))].
    destruct (numeric s2) as [[v r]|]; [|reflexivity]. destruct (is_valid_xml_codepoint v) eqn:V; [|reflexivity].
    destruct (whitespace_action flags v r after ws) as [[a ws']|]; [|reflexivity]. destruct a; [apply IH; exact H|one_chunk IH|apply IH; exact H|].
    pose proof (emit'_enc v o (xml_scalar v V) H) as E. destruct (utf8_encode v (u_buf o) (u_pos o) (u_room o)) as [[n b]|]; [|discriminate E].
    assert (E' : (if (n <=? u_room o)%nat then Outp b (u_pos o + n) (u_room o - n) (u_size o + n) else Outp b (u_pos o) (u_room o) (u_size o + n)) = emit' (enc v) o) by congruence.
    cbv iota beta. rewrite E'. rewrite IH by (apply (emit_ok (enc v) o H)). unfold with_out. destruct (uchunks fuel flags [] r after ws') as [[[? ?] ?]|]; reflexivity. }
  destruct (cp =? 60). { destruct (comment_flag flags); [one_chunk IH|reflexivity]. }
  destruct (cp =? 93). { destruct (negb (comment_flag flags) && ends_cdata s'); [reflexivity|one_chunk IH]. }
  destruct (is_valid_xml_codepoint cp); [|reflexivity]. destruct (whitespace_action flags cp s' after ws) as [[a ws']|]; [|reflexivity].
  destruct a; [apply IH; exact H|one_chunk IH|apply IH; exact H|one_chunk IH].
Qed.

(** ** What the two functions deliver *)
Definition delivers (f : list N -> option (bool * nat * list N)) (cs : list (list N)) : Prop :=
  (forall buf, (length (concat cs) < length buf)%nat -> f buf = Some (true, length (concat cs), splice buf 0 (concat cs ++ [0])))
  /\ (forall buf, (length buf <= length (concat cs))%nat -> exists n b, f buf = Some (true, n, b) /\ length b = length buf
        /\ n = (length (concat cs) + (if u_room (emits cs (Outp buf 0 (length buf) 0)) =? 0 then 1 else 0))%nat).
Definition rejects (f : list N -> option (bool * nat * list N)) : Prop :=
  forall buf, exists n b, f buf = Some (false, n, b) /\ length b = length buf.

Lemma finish_delivers : forall (cs : list (list N)) (rest : list N) f, rest = [] ->
  (forall buf, f buf = (o <- terminate (emits cs (Outp buf 0 (length buf) 0)) ;; Some (match rest with [] => true | _ => false end, u_size o, u_buf o))) ->
  delivers f cs.
Proof.
  intros cs rest f -> F. split; intros buf L; rewrite F; pose (o := Outp buf 0 (length buf) 0); assert (O : okout o) by (unfold okout, o; cbn; lia); fold o; rewrite terminate_ok by (apply emits_ok, O).
  - rewrite (emits_fit cs o O) by (cbn; lia). cbn [u_room u_buf u_pos u_size o]. cbn [Nat.add].
    destruct (Nat.leb_spec 1 (length buf - length (concat cs))); [|lia]. cbn [u_size u_buf].
    replace (length (concat cs)) with (0 + length (concat cs))%nat at 2 by lia. rewrite splice_splice by (cbn [length]; lia). reflexivity.
  - pose proof (emits_size cs o) as Es. pose proof (emits_len cs o O) as El. pose proof (emits_ok cs o O) as Eo. unfold okout in Eo. cbn [u_size u_buf o Nat.add] in Es, El.
    destruct (Nat.leb_spec 1 (u_room (emits cs o))) as [R|R]; destruct (Nat.eqb_spec (u_room (emits cs o)) 0) as [Z|Z]; try lia; cbn [u_size u_buf]; eexists _, _; (split; [reflexivity|]).
    + split; [rewrite splice_length by (cbn [length]; lia); exact El|]. rewrite Es. lia.
    + split; [exact El|]. rewrite Es. lia.
Qed.

Lemma finish_rejects : forall ok (cs : list (list N)) (rest : list N) f, ok = false \/ rest <> [] ->
  (forall buf, f buf = if (ok : bool) then (o <- terminate (emits cs (Outp buf 0 (length buf) 0)) ;; Some (match rest with [] => true | _ => false end, u_size o, u_buf o))
                       else Some (false, 0%nat, u_buf (emits cs (Outp buf 0 (length buf) 0)))) ->
  rejects f.
Proof.
  intros ok cs rest f H F buf. rewrite F. pose (o := Outp buf 0 (length buf) 0). assert (O : okout o) by (unfold okout, o; cbn; lia). fold o.
  pose proof (emits_len cs o O) as El. pose proof (emits_ok cs o O) as Eo. unfold okout in Eo. cbn [u_buf o] in El.
  destruct ok; [|eexists _, _; split; [reflexivity|exact El]]. destruct H as [H|H]; [discriminate H|]. rewrite terminate_ok by (apply emits_ok, O).
  destruct rest; [contradiction|]. destruct (Nat.leb_spec 1 (u_room (emits cs o))); cbn [u_size u_buf]; eexists _, _; (split; [reflexivity|]); [rewrite splice_length by (cbn [length]; lia)|]; exact El.
Qed.

Lemma unescape_delivers : forall v flags t a cs, trims flags v = (t, a) -> t <> [] ->
  uchunks (S (length t)) flags [] t a false = Some (true, cs, []) -> delivers (unescape_string v flags) cs.
Proof.
  intros v flags t a cs E H U. apply (finish_delivers cs []); [reflexivity|]. intros buf. unfold unescape_string. rewrite E. cbn [fst snd].
  rewrite unescape_chunks by (unfold okout; cbn; lia). rewrite U. destruct t; [contradiction|]. reflexivity.
Qed.
Lemma unescape_rejects : forall v flags t a ok cs rest, trims flags v = (t, a) -> t <> [] ->
  uchunks (S (length t)) flags [] t a false = Some (ok, cs, rest) -> ok = false \/ rest <> [] -> rejects (unescape_string v flags).
Proof.
  intros v flags t a ok cs rest E H U K. apply (finish_rejects ok cs rest); [exact K|]. intros buf. unfold unescape_string. rewrite E. cbn [fst snd].
  rewrite unescape_chunks by (unfold okout; cbn; lia). rewrite U. destruct t; [contradiction|]. reflexivity.
Qed.
Lemma reduce_delivers : forall flags v cs, cchunks (S (length (fst v))) flags [] (fst v) (snd v) false = Some (true, cs, []) -> delivers (reduce_cdata flags v) cs.
Proof.
  intros flags v cs U. apply (finish_delivers cs []); [reflexivity|]. intros buf. unfold reduce_cdata.
  rewrite cdata_chunks by (unfold okout; cbn; lia). rewrite U. reflexivity.
Qed.
Lemma reduce_rejects : forall flags v ok cs rest, cchunks (S (length (fst v))) flags [] (fst v) (snd v) false = Some (ok, cs, rest) -> ok = false \/ rest <> [] -> rejects (reduce_cdata flags v).
Proof.
  intros flags v ok cs rest U K. apply (finish_rejects ok cs rest); [exact K|]. intros buf. unfold reduce_cdata.
  rewrite cdata_chunks by (unfold okout; cbn; lia). rewrite U. reflexivity.
Qed.

(** ** Storing a value *)
Definition fitting (cs : list (list N)) : Prop := (length (concat cs) < 64)%nat \/ Forall (fun c => length c = 1%nat) cs.
Definition with_value (r : reader) (val : list N) (b : option nat) : reader :=
  Reader (r_tk r) (text_of (r_current r) (val, Some 0)) (r_flags r) (r_context r) (r_depth r) (r_tag r) (r_root r) b.
Definition with_failure (r : reader) (b : option nat) : reader :=
  Reader (r_tk r) (with_type (r_current r) Terror) (r_flags r) (r_context r) (r_depth r) (r_tag r) (r_root r) b.
Definition bsize (b : option nat) : nat := match b with Some n => n | None => 64%nat end.

Lemma value_of_buffer : forall buf val, (length val < length buf)%nat ->
  firstn (length val) (splice buf 0 (val ++ [0])) = val /\ nth_error (splice buf 0 (val ++ [0])) (length val) = Some 0.
Proof.
  intros buf val H. unfold splice. cbn [firstn app]. rewrite <- app_assoc. split.
  - rewrite firstn_app, firstn_all, Nat.sub_diag. cbn [firstn]. apply app_nil_r.
  - rewrite nth_error_app2, Nat.sub_diag by lia. reflexivity.
Qed.

Lemma process_value : forall alloc f cs r, delivers f cs -> fitting cs -> (64 <= buffer_size r)%nat ->
  exists b, (64 <= bsize b)%nat /\ (process_twice alloc f r = Some (true, with_value r (concat cs) b)
    \/ process_twice alloc f r = Some (false, with_failure r b) /\ alloc (S (length (concat cs))) = false /\ (buffer_size r <= length (concat cs))%nat).
Proof.
  intros alloc f cs r [D1 D2] F B. unfold process_twice.
  destruct (Nat.ltb_spec (length (concat cs)) (buffer_size r)) as [L|L].
  - rewrite (D1 (repeat 0 (buffer_size r))) by (rewrite repeat_length; exact L). destruct (Nat.leb_spec (buffer_size r) (length (concat cs))); [lia|].
    destruct (value_of_buffer (repeat 0 (buffer_size r)) (concat cs)) as [-> ->]; [rewrite repeat_length; exact L|].
    exists (r_buffer r). split; [exact B|]. left. reflexivity.
  - destruct F as [F|F]; [lia|]. destruct (D2 (repeat 0 (buffer_size r))) as (n & b & E & Lb & En); [rewrite repeat_length; exact L|]. rewrite E.
    rewrite emits_room in En by exact F. cbn [u_room] in En. rewrite repeat_length in En. replace (buffer_size r - length (concat cs))%nat with 0%nat in En by lia. cbn [Nat.eqb] in En.
    assert (En' : n = S (length (concat cs))) by lia. clear En. subst n. destruct (Nat.leb_spec (buffer_size r) (S (length (concat cs)))); [|lia].
    unfold assert_. destruct (Nat.ltb_spec (buffer_size r) (S (length (concat cs)))); [|lia].
    destruct (alloc (S (length (concat cs)))) eqn:A.
    + rewrite (D1 (repeat 0 (S (length (concat cs))))) by (rewrite repeat_length; lia). destruct (Nat.ltb_spec (length (concat cs)) (S (length (concat cs)))); [|lia].
      destruct (value_of_buffer (repeat 0 (S (length (concat cs)))) (concat cs)) as [-> ->]; [rewrite repeat_length; lia|].
      exists (Some (S (length (concat cs)))). split; [unfold bsize; lia|]. left. reflexivity.
    + exists (r_buffer r). split; [exact B|]. right. split; [reflexivity|]. split; [reflexivity|exact L].
Qed.
Lemma process_rejected : forall alloc f r, rejects f -> process_twice alloc f r = Some (false, with_failure r (r_buffer r)).
Proof. intros alloc f r R. unfold process_twice. destruct (R (repeat 0 (buffer_size r))) as (n & b & E & _). rewrite E. reflexivity. Qed.

(** ** Character data *)
Lemma starts_begins : forall f s, starts f s = true <-> begins f s.
Proof.
  induction f as [|a f IH]; intros s; [split; [exists s; reflexivity|reflexivity]|]. destruct s as [|b s]; cbn [starts].
  - split; [discriminate|intros [x E]; discriminate].
  - rewrite andb_true_iff, N.eqb_eq, IH. split.
    + intros [-> [x ->]]. exists x. reflexivity.
    + intros [x E]. cbn [app] in E. injection E as -> ->. split; [reflexivity|exists x; reflexivity].
Qed.
Lemma starts_app : forall f s, starts f (f ++ s) = true. Proof. intros f s. apply starts_begins. exists s. reflexivity. Qed.
Lemma not_starts : forall f s, starts f s = false <-> ~ begins f s.
Proof. intros f s. rewrite <- starts_begins. destruct (starts f s); split; congruence. Qed.

Lemma find_found : forall c p r, ~ In c p -> find_str [c] (p ++ c :: r) = Some (p, c :: r).
Proof.
  intros c p r. induction p as [|x p IH]; intros H; cbn [app find_str starts].
  - rewrite N.eqb_refl. reflexivity.
  - destruct (N.eqb_spec c x) as [->|Hn]; [exfalso; apply H; left; reflexivity|]. cbn [andb]. rewrite IH; [reflexivity|]. intros K. apply H. right. exact K.
Qed.
Lemma find_inv : forall c s p r, find_str [c] s = Some (p, r) -> ~ In c p /\ exists r', r = c :: r' /\ s = p ++ c :: r'.
Proof.
  intros c s. induction s as [|x s IH]; intros p r H; cbn [find_str starts] in H; [discriminate|].
  destruct (N.eqb_spec c x) as [->|Hn]; cbn [andb] in H.
  - assert (p = [] /\ r = x :: s) as [-> ->] by (split; congruence). split; [exact (fun K => K)|]. exists s. split; reflexivity.
  - destruct (find_str [c] s) as [[p' r']|]; [|discriminate]. assert (p = x :: p' /\ r = r') as [-> ->] by (split; congruence).
    destruct (IH p' r' eq_refl) as (A & r'' & -> & ->). split; [intros [K|K]; [congruence|exact (A K)]|]. exists r''. split; reflexivity.
Qed.
Lemma find_none : forall c s, find_str [c] s = None <-> ~ In c s.
Proof.
  intros c s. induction s as [|x s IH]; cbn [find_str starts]; [split; [intros _ K; exact K|reflexivity]|].
  destruct (N.eqb_spec c x) as [->|Hn]; cbn [andb]; [split; [discriminate|intros K; exfalso; apply K; left; reflexivity]|].
  destruct (find_str [c] s) as [[p r]|]; split; [discriminate| |intros _ [K|K]; [congruence|exact (proj1 IH eq_refl K)]|reflexivity].
  intros K. exfalso. assert (Some (p, r) = None) by (apply IH; intros Y; apply K; right; exact Y). discriminate.
Qed.

Lemma valid_xml : forall v, is_valid_xml_codepoint v = true <-> xml_char v.
Proof. intros v. unfold is_valid_xml_codepoint, xml_char. lia. Qed.

Lemma extract_char : forall v ch rest, lenient v ch -> utf8_extract (ch ++ rest) = Some (true, v, rest) /\ firstn (length (ch ++ rest) - length rest) (ch ++ rest) = ch.
Proof.
  intros v ch rest H. split; [apply extract_lenient; exact H|]. rewrite app_length. replace (length ch + length rest - length rest)%nat with (length ch) by lia.
  rewrite firstn_app, firstn_all, Nat.sub_diag. cbn [firstn]. apply app_nil_r.
Qed.
Lemma extract_inv : forall s ok v s', Forall (fun c => c < 256) s -> utf8_extract s = Some (ok, v, s') ->
  if ok then exists ch, lenient v ch /\ s = ch ++ s' else s' = s.
Proof.
  intros s ok v s' F E. destruct (extract8_cases s F) as [(w & ch & rest & L & Es)|[_ (cp & Es)]].
  - subst s. unfold utf8_extract in E. rewrite (extract_lenient w ch rest L) in E. assert (ok = true /\ v = w /\ s' = rest) as (-> & -> & ->) by (repeat split; congruence). exists ch. split; [exact L|reflexivity].
  - unfold utf8_extract in E. rewrite Es in E. assert (ok = false /\ s' = s) as (-> & ->) by (split; congruence). reflexivity.
Qed.
Lemma extract_total : forall s, Forall (fun c => c < 256) s -> exists ok v s', utf8_extract s = Some (ok, v, s').
Proof.
  intros s F. destruct (extract8_cases s F) as [(w & ch & rest & L & ->)|[_ (cp & Es)]]; unfold utf8_extract; [rewrite (extract_lenient w ch rest L)|rewrite Es]; do 3 eexists; reflexivity.
Qed.

(** *** References *)
Lemma dec_is : forall c, is_dec c = true <-> dec_digit c. Proof. intros c. unfold is_dec, dec_digit. lia. Qed.
Lemma hex_is : forall c, is_hex c = true <-> exists v, hex_digit c v.
Proof.
  intros c. unfold is_hex, is_dec. split.
  - intros H. destruct ((48 <=? c) && (c <=? 57)) eqn:A; [eexists; apply HD_dec; lia|]. destruct ((97 <=? c) && (c <=? 102)) eqn:B; [eexists; apply HD_lower; lia|]. eexists; apply HD_upper; lia.
  - intros [v H]. destruct H; lia.
Qed.
Lemma hex_val : forall c v, hex_digit c v -> digit_value c = v.
Proof.
  intros c v H. destruct H as [c H|c H|c H]; unfold digit_value, is_dec.
  - destruct ((48 <=? c) && (c <=? 57)) eqn:E; [reflexivity|lia].
  - destruct ((48 <=? c) && (c <=? 57)) eqn:E; [lia|]. destruct (97 <=? c) eqn:E'; lia.
  - destruct ((48 <=? c) && (c <=? 57)) eqn:E; [lia|]. destruct (97 <=? c) eqn:E'; lia.
Qed.
Lemma dec_strtoul : forall ds, Forall dec_digit ds -> strtoul 10 ds = dec_value ds mod 2 ^ 32.
Proof.
  intros ds H. unfold strtoul, dec_value, w32. f_equal. generalize 0. induction H as [|c ds Hc H IH]; intros a; cbn [fold_left]; [reflexivity|].
  rewrite IH. f_equal. unfold digit_value. rewrite (proj2 (dec_is c) Hc). lia.
Qed.
Lemma hex_bound : forall ds vs a k, Forall2 hex_digit ds vs -> a < 16 ^ k -> fold_left (fun a d => 16 * a + d) vs a < 16 ^ (k + N.of_nat (length ds)).
Proof.
  intros ds vs a k H. revert a k. induction H as [|d v ds vs Hd H IH]; intros a k L; cbn [fold_left length]; [rewrite N.add_0_r; exact L|].
  replace (k + N.of_nat (S (length ds))) with (N.succ k + N.of_nat (length ds)) by lia. apply IH. rewrite N.pow_succ_r'. assert (v < 16) by (destruct Hd; lia). lia.
Qed.
Lemma hex_strtoul : forall ds vs, Forall2 hex_digit ds vs -> (length ds <= 8)%nat -> strtoul 16 ds = hex_value vs.
Proof.
  intros ds vs H L. unfold strtoul, w32. assert (E : forall a, fold_left (fun a c => a * 16 + digit_value c) ds a = fold_left (fun a d => 16 * a + d) vs a).
  { clear L. induction H as [|d v ds vs Hd H IH]; intros a; cbn [fold_left]; [reflexivity|]. rewrite IH, (hex_val d v Hd). f_equal. lia. }
  rewrite E. apply N.mod_small. pose proof (hex_bound ds vs 0 0 H ltac:(reflexivity)) as B. unfold hex_value.
  assert (16 ^ (0 + N.of_nat (length ds)) <= 16 ^ 8) by (apply N.pow_le_mono_r; lia). change (2 ^ 32) with (16 ^ 8). lia.
Qed.
Lemma forall_hex : forall ds, forallb is_hex ds = true -> exists vs, Forall2 hex_digit ds vs.
Proof.
  induction ds as [|d ds IH]; intros H; [exists []; constructor|]. cbn [forallb] in H. apply andb_prop in H. destruct H as [A B].
  destruct (proj1 (hex_is d) A) as [v Hv]. destruct (IH B) as [vs Hvs]. exists (v :: vs). constructor; assumption.
Qed.
Lemma hex_forall : forall ds vs, Forall2 hex_digit ds vs -> forallb is_hex ds = true.
Proof. intros ds vs H. induction H as [|d v ds vs Hd H IH]; [reflexivity|]. cbn [forallb]. rewrite IH, (proj2 (hex_is d) (ex_intro _ v Hd)). reflexivity. Qed.
Lemma dec_forall : forall ds, Forall dec_digit ds <-> forallb is_dec ds = true.
Proof. intros ds. rewrite forallb_forall, Forall_forall. split; intros H c K; apply dec_is, H, K. Qed.

Lemma numeric_dec : forall ds raw, ds <> [] -> Forall dec_digit ds -> (length ds <= 10)%nat -> numeric (ds ++ 59 :: raw) = Some (dec_value ds mod 2 ^ 32, raw).
Proof.
  intros ds raw N0 H L. unfold numeric. rewrite find_found by (rewrite Forall_forall in H; intros K; specialize (H _ K); unfold dec_digit in H; lia).
  destruct ds as [|x ds]; [contradiction|]. cbn [tl]. inversion H as [|? ? Hx Hd]; subst. destruct (N.eqb_spec x 120) as [->|_]; [unfold dec_digit in Hx; lia|].
  rewrite (proj2 (Nat.leb_le _ _) L). rewrite (proj1 (dec_forall _) H). cbn [andb]. rewrite dec_strtoul by exact H. reflexivity.
Qed.
Lemma numeric_hex : forall ds vs raw, ds <> [] -> Forall2 hex_digit ds vs -> (length ds <= 8)%nat -> numeric (120 :: ds ++ 59 :: raw) = Some (hex_value vs, raw).
Proof.
  intros ds vs raw N0 H L. unfold numeric. change (120 :: ds ++ 59 :: raw) with ((120 :: ds) ++ 59 :: raw). rewrite find_found.
  - cbn [tl]. change (120 =? 120) with true. cbv iota. destruct ds as [|x ds]; [contradiction|]. assert (E1 : Nat.leb 1 (length (x :: ds)) = true) by reflexivity. rewrite E1, (proj2 (Nat.leb_le _ _) L), (hex_forall _ _ H). cbn [andb].
    rewrite (hex_strtoul _ _ H L). reflexivity.
  - intros [K|K]; [discriminate|]. clear -H K. induction H as [|d v ds vs Hd H IH]; [exact K|]. destruct K as [->|K]; [|exact (IH K)]. inversion Hd; lia.
Qed.
Lemma numeric_inv : forall s v r, numeric s = Some (v, r) ->
  (exists ds, ds <> [] /\ Forall dec_digit ds /\ (length ds <= 10)%nat /\ v = dec_value ds mod 2 ^ 32 /\ s = ds ++ 59 :: r)
  \/ (exists ds vs, ds <> [] /\ Forall2 hex_digit ds vs /\ (length ds <= 8)%nat /\ v = hex_value vs /\ s = 120 :: ds ++ 59 :: r).
Proof.
  intros s v r H. unfold numeric in H. destruct (find_str [59] s) as [[num q]|] eqn:F; [|discriminate]. destruct (find_inv 59 s num q F) as (A & r' & -> & ->). cbn [tl] in H.
  destruct num as [|x ds]; [discriminate|]. destruct (N.eqb_spec x 120) as [->|Hx].
  - destruct (Nat.leb 1 (length ds) && Nat.leb (length ds) 8 && forallb is_hex ds) eqn:E; [|discriminate]. rewrite !andb_true_iff, !Nat.leb_le in E. destruct E as [[E1 E2] E3].
    assert (Some (strtoul 16 ds, r') = Some (v, r)) as K by exact H. right. destruct (forall_hex ds E3) as [vs Hvs]. exists ds, vs.
    rewrite (hex_strtoul ds vs Hvs E2) in K. assert (v = hex_value vs /\ r = r') as [-> ->] by (split; congruence). repeat split; try assumption. intros ->. cbn in E1. lia.
  - destruct (Nat.leb (length (x :: ds)) 10 && forallb is_dec (x :: ds)) eqn:E; [|discriminate]. rewrite andb_true_iff, Nat.leb_le in E. destruct E as [E2 E3]. apply dec_forall in E3.
    left. exists (x :: ds). rewrite (dec_strtoul _ E3) in H. assert (v = dec_value (x :: ds) mod 2 ^ 32 /\ r = r') as [-> ->] by (split; congruence). repeat split; try assumption. discriminate.
Qed.

Lemma entity_known : forall n v raw, predefined n v -> entity (n ++ 59 :: raw) = Some (v, raw).
Proof. intros n v raw H. destruct H; reflexivity. Qed.
Lemma entity_inv : forall s v r, entity s = Some (v, r) -> exists n, predefined n v /\ s = n ++ 59 :: r.
Proof.
  intros s v r H. unfold entity in H.
  destruct (starts [108; 116; 59] s) eqn:E1.
  { apply starts_begins in E1. destruct E1 as [x ->]. cbn [app skipn] in H. assert (v = 60 /\ r = x) as [-> ->] by (split; congruence). exists [108; 116]. split; [constructor|reflexivity]. }
  destruct (starts [97; 109; 112; 59] s) eqn:E2.
  { apply starts_begins in E2. destruct E2 as [x ->]. cbn [app skipn] in H. assert (v = 38 /\ r = x) as [-> ->] by (split; congruence). exists [97; 109; 112]. split; [constructor|reflexivity]. }
  destruct (starts [113; 117; 111; 116; 59] s) eqn:E3.
  { apply starts_begins in E3. destruct E3 as [x ->]. cbn [app skipn] in H. assert (v = 34 /\ r = x) as [-> ->] by (split; congruence). exists [113; 117; 111; 116]. split; [constructor|reflexivity]. }
  destruct (starts [97; 112; 111; 115; 59] s) eqn:E4.
  { apply starts_begins in E4. destruct E4 as [x ->]. cbn [app skipn] in H. assert (v = 39 /\ r = x) as [-> ->] by (split; congruence). exists [97; 112; 111; 115]. split; [constructor|reflexivity]. }
  destruct (starts [103; 116; 59] s) eqn:E5; [|discriminate].
  { apply starts_begins in E5. destruct E5 as [x ->]. cbn [app skipn] in H. assert (v = 62 /\ r = x) as [-> ->] by (split; congruence). exists [103; 116]. split; [constructor|reflexivity]. }
Qed.
Lemma entity_unknown : forall s, (forall n v, predefined n v -> ~ begins (n ++ [59]) s) <-> entity s = None.
Proof.
  intros s. split.
  - intros H. destruct (entity s) as [[v r]|] eqn:E; [|reflexivity]. exfalso. destruct (entity_inv s v r E) as (n & P & ->). apply (H n v P). exists r. rewrite <- app_assoc. reflexivity.
  - intros E n v P [x ->]. rewrite <- app_assoc in E. cbn [app] in E. rewrite (entity_known n v x P) in E. discriminate.
Qed.

Definition plain_flags (flags : N) : Prop := reduce_flag flags = false /\ newlines_flag flags = false.
Lemma plain_action : forall flags v s a ws, plain_flags flags -> whitespace_action flags v s a ws = Some (Copy, ws).
Proof. intros flags v s a ws [A B]. unfold whitespace_action. rewrite A, B. reflexivity. Qed.

(** The shape of the case '&' without the patterns on bytes. *)
Definition amp_case {A} (s' : list N) (nil_ : A) (num : list N -> A) (other : A) : A :=
  match s' with [] => nil_ | c :: s2 => if c =? 35 then num s2 else other end.
Lemma amp_case_eq : forall A (s' : list N) (nil_ : A) (num : list N -> A) (other : A),
  match s' with [] => nil_ | 35 :: s2 => num s2 | _ => other end = amp_case s' nil_ num other.
Proof.
  intros A s' nil_ num other. destruct s' as [|c s2]; [reflexivity|]. unfold amp_case. destruct (N.eqb_spec c 35) as [->|H]; [reflexivity|].
  destruct c as [|p]; [reflexivity|]. repeat (destruct p as [p|p|]; try reflexivity; try (exfalso; apply H; reflexivity)).
Qed.

Definition unit_chunks (cs : list (list N)) : Prop := Forall (fun c => exists v, lenient v c) cs.

Lemma lenient_93 : lenient 93 [93]. Proof. constructor. reflexivity. Qed.
Lemma lenient_38 : lenient 38 [38]. Proof. constructor. reflexivity. Qed.
Lemma lenient_60 : lenient 60 [60]. Proof. constructor. reflexivity. Qed.

Lemma xml_lt : forall v, xml_char v -> scalar v. Proof. intros v H. unfold xml_char in H. unfold scalar. lia. Qed.
Lemma enc_eq : forall v b, utf8_seq v b -> enc v = b.
Proof. intros v b H. apply (seq_fun v); [apply enc_seq, (seq_scalar v b H)|exact H]. Qed.

Lemma predefined_char : forall n v, predefined n v -> lenient v [v]. Proof. intros n v H. constructor. destruct H; reflexivity. Qed.

Lemma loose_chunks : forall inside raw val, loose inside raw val -> forall flags after ws fuel, plain_flags flags -> comment_flag flags = inside -> (length raw < fuel)%nat ->
  exists cs, uchunks fuel flags [] raw after ws = Some (true, cs, []) /\ concat cs = val /\ unit_chunks cs.
Proof.
  intros inside raw val H flags after ws fuel P C. revert fuel.
  induction H as [|v ch raw val L X N1 N2 N3 H IH|ch raw val L I H IH|ch raw val L I H IH|ch n v raw val L D H IH|ch ds b raw val L N0 D Len X B H IH|ch ds vs b raw val L N0 D Len X B H IH|ch raw val L N0 D Hin H IH];
    intros [|fuel] Hf; try (exfalso; lia).
  - exists []. split; [reflexivity|]. split; [reflexivity|constructor].
  - destruct (extract_char v ch raw L) as [E F]. cbn [uchunks]. rewrite E. rewrite F. pose proof (lenient_ne v ch L). rewrite app_length in Hf.
    assert (v <> 0) by (unfold xml_char in X; lia).
    rewrite (proj2 (N.eqb_neq v 0)), (proj2 (N.eqb_neq v 38)), (proj2 (N.eqb_neq v 60)), (proj2 (N.eqb_neq v 93)), (proj2 (valid_xml v)) by assumption.
    rewrite plain_action by exact P. destruct (IH fuel ltac:(lia)) as (cs & U & V & W). rewrite U. exists (ch :: cs). split; [reflexivity|]. cbn [concat]. rewrite V. split; [reflexivity|]. constructor; [exists v; exact L|exact W].
  - destruct (extract_char 60 ch raw L) as [E F]. cbn [uchunks]. rewrite E. pose proof (lenient_ne _ ch L). rewrite app_length in Hf. cbn [N.eqb Pos.eqb]. rewrite C, I.
    destruct (IH fuel ltac:(lia)) as (cs & U & V & W). rewrite U. exists ([60] :: cs). split; [reflexivity|]. cbn [concat app]. rewrite V. split; [reflexivity|]. constructor; [exists 60; exact lenient_60|exact W].
  - destruct (extract_char 93 ch raw L) as [E F]. cbn [uchunks]. rewrite E. pose proof (lenient_ne _ ch L). rewrite app_length in Hf. cbn [N.eqb Pos.eqb]. rewrite C.
    assert (Q : negb inside && ends_cdata raw = false) by (destruct inside; [reflexivity|]; cbn [negb andb]; apply not_starts, I; reflexivity). rewrite Q.
    destruct (IH fuel ltac:(lia)) as (cs & U & V & W). rewrite U. exists ([93] :: cs). split; [reflexivity|]. cbn [concat app]. rewrite V. split; [reflexivity|]. constructor; [exists 93; exact lenient_93|exact W].
  - destruct (extract_char 38 ch (n ++ 59 :: raw) L) as [E F]. cbn [uchunks]. rewrite E. pose proof (lenient_ne _ ch L). rewrite !app_length in Hf. cbn [length] in Hf. cbn [N.eqb Pos.eqb]. rewrite amp_case_eq. rewrite (entity_known n v raw D).
    destruct (IH fuel ltac:(lia)) as (cs & U & V & W). rewrite U.
    replace (amp_case (n ++ 59 :: raw) _ _ _) with (Some (true, [v] :: cs, [] : list N)) by (destruct D; reflexivity).
    exists ([v] :: cs). split; [reflexivity|]. cbn [concat app]. rewrite V. split; [reflexivity|]. constructor; [exists v; exact (predefined_char n v D)|exact W].
  - destruct (extract_char 38 ch (35 :: ds ++ 59 :: raw) L) as [E F]. cbn [uchunks]. rewrite E. pose proof (lenient_ne _ ch L). rewrite !app_length in Hf. cbn [length] in Hf. rewrite app_length in Hf. cbn [length] in Hf. cbn [N.eqb Pos.eqb].
    rewrite (numeric_dec ds raw N0 D Len). rewrite (proj2 (valid_xml _) X). rewrite plain_action by exact P.
    destruct (IH fuel ltac:(lia)) as (cs & U & V & W). rewrite U. rewrite (enc_eq _ b B). exists (b :: cs). split; [reflexivity|]. cbn [concat]. rewrite V. split; [reflexivity|]. constructor; [eexists; apply seq_lenient; exact B|exact W].
  - destruct (extract_char 38 ch (35 :: 120 :: ds ++ 59 :: raw) L) as [E F]. cbn [uchunks]. rewrite E. pose proof (lenient_ne _ ch L). rewrite !app_length in Hf. cbn [length] in Hf. rewrite app_length in Hf. cbn [length] in Hf. cbn [N.eqb Pos.eqb].
    rewrite (numeric_hex ds vs raw N0 D Len). rewrite (proj2 (valid_xml _) X). rewrite plain_action by exact P.
    destruct (IH fuel ltac:(lia)) as (cs & U & V & W). rewrite U. rewrite (enc_eq _ b B). exists (b :: cs). split; [reflexivity|]. cbn [concat]. rewrite V. split; [reflexivity|]. constructor; [eexists; apply seq_lenient; exact B|exact W].
  - destruct (extract_char 38 ch raw L) as [E F]. cbn [uchunks]. rewrite E. pose proof (lenient_ne _ ch L). rewrite app_length in Hf. cbn [N.eqb Pos.eqb]. rewrite amp_case_eq. rewrite (proj1 (entity_unknown raw) D).
    destruct (find_str [59] raw) as [x|] eqn:Fs; [|exfalso; exact (proj1 (find_none 59 raw) Fs Hin)].
    destruct (IH fuel ltac:(lia)) as (cs & U & V & W). rewrite U. destruct raw as [|c s2]; [destruct Hin|]. unfold amp_case.
    destruct (N.eqb_spec c 35) as [->|_]; [exfalso; apply N0; exists s2; reflexivity|].
    exists ([38] :: cs). split; [reflexivity|]. cbn [concat app]. rewrite V. split; [reflexivity|]. constructor; [exists 38; exact lenient_38|exact W].
Qed.

Lemma chunks_loose : forall fuel flags raw after ws cs, plain_flags flags -> Forall (fun c => c < 256) raw ->
  uchunks fuel flags [] raw after ws = Some (true, cs, []) -> loose (comment_flag flags) raw (concat cs).
Proof.
  induction fuel as [|fuel IH]; intros flags raw after ws cs P F U; [discriminate|]. cbn [uchunks] in U.
  destruct (utf8_extract raw) as [[[ok v] s']|] eqn:E; [|discriminate]. pose proof (extract_inv raw ok v s' F E) as K. destruct ok.
  2:{ subst s'. assert (raw = [] /\ cs = []) as [-> ->] by (split; congruence). constructor. }
  destruct K as (ch & L & Er). assert (Fs : Forall (fun c => c < 256) s') by (subst raw; apply Forall_app in F; apply F).
  assert (G : forall c r ws', Forall (fun c => c < 256) r -> (' (ok, cs, rest) <- uchunks fuel flags [] r after ws' ;; Some (ok, c :: cs, rest)) = Some (true, cs, []) -> exists val, concat cs = c ++ val /\ loose (comment_flag flags) r val).
  { intros c r ws' Fr Q. destruct (uchunks fuel flags [] r after ws') as [[[ok' cs'] rest]|] eqn:U'; [|discriminate]. assert (ok' = true /\ rest = [] /\ cs = c :: cs') as (-> & -> & ->) by (repeat split; congruence).
    exists (concat cs'). split; [reflexivity|]. exact (IH flags r after ws' cs' P Fr U'). }
  destruct (N.eqb_spec v 0) as [|V0]; [discriminate|]. destruct (N.eqb_spec v 38) as [->|V1].
  { rewrite amp_case_eq in U. unfold amp_case in U. destruct s' as [|c s2]; [discriminate|]. destruct (N.eqb_spec c 35) as [->|C].
    - destruct (numeric s2) as [[w r]|] eqn:Nu; [|discriminate]. destruct (is_valid_xml_codepoint w) eqn:V; [|discriminate]. rewrite plain_action in U by exact P.
      assert (Fr : Forall (fun c => c < 256) r).
      { inversion Fs as [|? ? _ F2]. destruct (numeric_inv s2 w r Nu) as [(ds & _ & _ & _ & _ & ->)|(ds & vs & _ & _ & _ & _ & ->)].
        - apply Forall_app in F2. destruct F2 as [_ F2]. inversion F2; assumption.
        - inversion F2 as [|? ? _ F3]. apply Forall_app in F3. destruct F3 as [_ F3]. inversion F3; assumption. }
      destruct (G _ _ _ Fr U) as (val & -> & Lv). apply valid_xml in V. subst raw. destruct (numeric_inv s2 w r Nu) as [(ds & N0 & D & Len & -> & ->)|(ds & vs & N0 & D & Len & -> & ->)].
      + apply O_dec; try assumption. apply enc_seq, xml_lt, V.
      + eapply O_hex; try eassumption. apply enc_seq, xml_lt, V.
    - destruct (entity (c :: s2)) as [[w r]|] eqn:En.
      + destruct (entity_inv _ _ _ En) as (n & Pn & Es).
        assert (Fr : Forall (fun c => c < 256) r) by (rewrite Es in Fs; apply Forall_app in Fs; destruct Fs as [_ F2]; inversion F2; assumption).
        destruct (G _ _ _ Fr U) as (val & -> & Lv). subst raw. rewrite Es. apply O_entity; assumption.
      + destruct (find_str [59] (c :: s2)) as [x|] eqn:Fd; [|discriminate]. destruct (G _ _ _ Fs U) as (val & -> & Lv). subst raw. apply O_unknown; try assumption.
        * intros [b B]. cbn [app] in B. congruence.
        * apply entity_unknown, En.
        * destruct (in_dec N.eq_dec 59 (c :: s2)) as [I|I]; [exact I|]. apply find_none in I. congruence. }
  destruct (N.eqb_spec v 60) as [->|V2].
  { destruct (comment_flag flags) eqn:C; [|discriminate]. destruct (G _ _ _ Fs U) as (val & -> & Lv). subst raw. apply O_less; [exact L|reflexivity|exact Lv]. }
  destruct (N.eqb_spec v 93) as [->|V3].
  { destruct (negb (comment_flag flags) && ends_cdata s') eqn:Q; [discriminate|]. destruct (G _ _ _ Fs U) as (val & -> & Lv). subst raw. apply O_bracket; [exact L| |exact Lv].
    intros C. rewrite C in Q. cbn [negb andb] in Q. apply not_starts, Q. }
  destruct (is_valid_xml_codepoint v) eqn:V; [|discriminate]. rewrite plain_action in U by exact P. destruct (G _ _ _ Fs U) as (val & -> & Lv). subst raw.
  destruct (extract_char v ch s' L) as [_ ->]. apply O_char with (v := v); try assumption. apply valid_xml, V.
Qed.

Definition peekable (flags : N) (after : option N) : Prop := after <> None \/ plain_flags flags.
Lemma action_total : forall flags v s after ws, peekable flags after -> exists x, whitespace_action flags v s after ws = Some x.
Proof.
  intros flags v s after ws [H|H]; [|rewrite plain_action by exact H; eexists; reflexivity]. unfold whitespace_action.
  destruct (reduce_flag flags); [destruct (v <=? 32), ws, (newlines_flag flags || negb (v =? 13)); eexists; reflexivity|].
  destruct (newlines_flag flags && ((v =? 13) || (v =? 10))); [|eexists; reflexivity].
  destruct s as [|a [|b s]]; destruct (v =? 13); cbn [andb negb]; try (eexists; reflexivity). unfold peek. cbn [nth_error length Nat.eqb].
  destruct after as [x|]; [|contradiction]. eexists. reflexivity.
Qed.
Lemma uchunks_total : forall fuel flags pre raw after ws, peekable flags after -> Forall (fun c => c < 256) raw -> (length raw < fuel)%nat ->
  exists ok cs rest, uchunks fuel flags pre raw after ws = Some (ok, cs, rest).
Proof.
  induction fuel as [|fuel IH]; intros flags pre raw after ws P F Hf; [lia|]. cbn [uchunks].
  destruct (extract_total raw F) as (ok & v & s' & E). rewrite E. pose proof (extract_inv raw ok v s' F E) as K. destruct ok; [|do 3 eexists; reflexivity].
  destruct K as (ch & L & Er). pose proof (lenient_ne v ch L) as Hne. assert (Fs : Forall (fun c => c < 256) s') by (subst raw; apply Forall_app in F; apply F).
  assert (Hs : (length s' < fuel)%nat) by (subst raw; rewrite app_length in Hf; lia).
  assert (G : forall c pre' r ws', Forall (fun c => c < 256) r -> (length r < fuel)%nat -> exists ok cs rest, (' (ok, cs, rest) <- uchunks fuel flags pre' r after ws' ;; Some (ok, c :: cs, rest)) = Some (ok, cs : list (list N), rest)).
  { intros c pre' r ws' Fr Hr. destruct (IH flags pre' r after ws' P Fr Hr) as (o & cs & rest & Q). rewrite Q. do 3 eexists. reflexivity. }
  destruct (v =? 0); [do 3 eexists; reflexivity|]. destruct (v =? 38).
  { rewrite amp_case_eq. unfold amp_case. destruct s' as [|c s2]; [do 3 eexists; reflexivity|]. destruct (c =? 35).
    - destruct (numeric s2) as [[w r]|] eqn:Nu; [|do 3 eexists; reflexivity]. destruct (is_valid_xml_codepoint w) eqn:V; [|do 3 eexists; reflexivity]. match goal with |- context [whitespace_action flags ?x ?y after ?z] => destruct (action_total flags x y after z P) as [[act ws'] ->] end.
      assert (Fr : Forall (fun c => c < 256) r /\ (length r < length s2)%nat).
      { inversion Fs as [|? ? _ F2]. destruct (numeric_inv s2 w r Nu) as [(ds & _ & _ & _ & _ & ->)|(ds & vs & _ & _ & _ & _ & ->)].
        - apply Forall_app in F2. destruct F2 as [_ F2]. inversion F2. split; [assumption|]. rewrite app_length. cbn [length]. lia.
        - inversion F2 as [|? ? _ F3]. apply Forall_app in F3. destruct F3 as [_ F3]. inversion F3. split; [assumption|]. cbn [length]. rewrite app_length. cbn [length]. lia. }
      destruct Fr as [Fr Lr]. cbn [length] in Hs. destruct act; first [apply IH|apply G]; (exact P || exact Fr || lia).
    - destruct (entity (c :: s2)) as [[w r]|] eqn:En.
      + destruct (entity_inv _ _ _ En) as (n & Pn & Es).
        assert (Fr : Forall (fun c => c < 256) r) by (rewrite Es in Fs; apply Forall_app in Fs; destruct Fs as [_ F2]; inversion F2; assumption).
        apply G; [exact Fr|]. apply (f_equal (@length N)) in Es. rewrite app_length in Es. cbn [length] in *. lia.
      + destruct (find_str [59] (c :: s2)); [|do 3 eexists; reflexivity]. apply G; assumption. }
  destruct (v =? 60); [destruct (comment_flag flags); [apply G; assumption|do 3 eexists; reflexivity]|].
  destruct (v =? 93); [destruct (negb (comment_flag flags) && ends_cdata s'); [do 3 eexists; reflexivity|apply G; assumption]|].
  destruct (is_valid_xml_codepoint v); [|do 3 eexists; reflexivity]. match goal with |- context [whitespace_action flags ?x ?y after ?z] => destruct (action_total flags x y after z P) as [[act ws'] ->] end. destruct act; first [apply IH|apply G]; assumption.
Qed.

Lemma cchunks_total : forall fuel flags pre raw after ws, peekable flags after -> Forall (fun c => c < 256) raw -> (length raw < fuel)%nat ->
  exists ok cs rest, cchunks fuel flags pre raw after ws = Some (ok, cs, rest).
Proof.
  induction fuel as [|fuel IH]; intros flags pre raw after ws P F Hf; [lia|]. cbn [cchunks].
  destruct (extract_total raw F) as (ok & v & s' & E). rewrite E. pose proof (extract_inv raw ok v s' F E) as K. destruct ok; [|do 3 eexists; reflexivity].
  destruct K as (ch & L & Er). pose proof (lenient_ne v ch L) as Hne. assert (Fs : Forall (fun c => c < 256) s') by (subst raw; apply Forall_app in F; apply F).
  assert (Hs : (length s' < fuel)%nat) by (subst raw; rewrite app_length in Hf; lia).
  assert (G : forall c pre' r ws', Forall (fun c => c < 256) r -> (length r < fuel)%nat -> exists ok cs rest, (' (ok, cs, rest) <- cchunks fuel flags pre' r after ws' ;; Some (ok, c :: cs, rest)) = Some (ok, cs : list (list N), rest)).
  { intros c pre' r ws' Fr Hr. destruct (IH flags pre' r after ws' P Fr Hr) as (o & cs & rest & Q). rewrite Q. do 3 eexists. reflexivity. }
  destruct (v =? 0); [do 3 eexists; reflexivity|].
  destruct (v =? 93); [destruct (ends_cdata s'); [do 3 eexists; reflexivity|apply G; assumption]|].
  destruct (is_valid_xml_codepoint v); [|do 3 eexists; reflexivity]. destruct (action_total flags v s' after ws P) as [[act ws'] ->]. destruct act; first [apply IH|apply G]; assumption.
Qed.
