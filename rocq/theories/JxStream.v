(** The token stream of the extended reader on texts of the plain dialect. *)
From Coq Require Import Arith NArith List Bool Lia.
From Verif Require Import Base JsonModel JsonSpec JsonLex JsonTok JsonDom JsonBuild JsonStream JxModel JxSame.
Import ListNotations.
Local Open Scope N_scope.

(** Calling jsonNextTokenEx until it reports the end or an error, see [JsonStream.tokens]. *)
Fixpoint tokens_ex (n : nat) (fl : N) (buf : list N) (r : reader) (st : cstack) : option (list event) :=
  match n with
  | O => Some []
  | S n =>
      ' (t, r, st) <- next_token_explicit_ex fl r st;;
      match t with
      | TEof | TError => Some [observe buf t r]
      | _ => es <- tokens_ex n fl buf r st;; Some (observe buf t r :: es)
      end
  end.

Lemma next_token_err fl c r t r' : plain_flags fl -> next_token fl c r = Some (t, r') -> t <> TError ->
  err r' = err r.
Proof.
  intros PF H NE. pose proof (next_token_cases fl c r PF) as C. rewrite H in C.
  destruct t; try congruence; try (destruct C as (_ & ? & ? & ? & ? & _ & _ & _ & _ & C); exact C).
  destruct C as (_ & _ & w & _ & _ & _ & C). exact C.
Qed.

Lemma explicit_mono fl fl' r st t r' st' : extends fl fl' -> err r = JOk ->
  next_token_explicit fl r st = Some (t, r', st') -> t <> TError ->
  next_token_explicit_ex fl' r st = Some (t, r', st') /\ err r' = JOk.
Proof.
  intros X OK H NE. unfold next_token_explicit, next_token_explicit_ex in *.
  destruct (next_token fl (top_context st) r) as [[t1 r1]|] eqn:T; [|discriminate].
  assert (N1 : t1 <> TError) by (intros ->; congruence).
  rewrite (next_token_mono fl fl' X _ _ _ _ OK T N1).
  apply next_token_err in T; [|apply X|exact N1].
  split; [exact H|]. destruct t1; try congruence;
    try (destruct (push_context _ _); congruence);
    destruct (pop_context _ _) as [[|]|]; congruence.
Qed.

Lemma tokens_mono fl fl' buf n : extends fl fl' -> forall r st es, err r = JOk ->
  tokens n fl buf r st = Some es -> Forall (fun e => fst e <> TError) es ->
  tokens_ex n fl' buf r st = Some es.
Proof.
  intros X. induction n as [|n IH]; intros r st es OK H F; [exact H|]. cbn [tokens tokens_ex] in *.
  destruct (next_token_explicit fl r st) as [[[t r1] st1]|] eqn:T; [|discriminate].
  assert (NE : t <> TError).
  { intros ->. injection H as <-. inversion F; subst. cbn in *. congruence. }
  destruct (explicit_mono _ _ _ _ _ _ _ X OK T NE) as [-> OK1].
  destruct t; try exact H; try congruence;
    (destruct (tokens n fl buf r1 st1) as [es1|] eqn:E; [|discriminate]; injection H as <-;
     inversion F; subst; rewrite (IH _ _ _ OK1 E); [reflexivity|assumption]).
Qed.
