(** tm_polygon.h with IEEE binary32; small integers are computed exactly. *)
From Coq Require Import ZArith Reals Lra Lia Bool List.
From Flocq Require Import Core IEEE754.BinarySingleNaN.
From Verif Require Import UtFloatModel PgModel.
Import ListNotations.

(** 0.000001f, 0.00001f, 0.99999f, 0.0001f: tm_polygon.h:475, 530-551 *)
Definition floats : arith :=
  Arith float fzero fone fadd fsub fmul fdiv Bleb Bltb epsilon (fnum 10995116 (-40)) (fnum 16777048 (-24)) (fnum 13743895 (-37)).

(** The float has the value of the integer. *)
Definition represents (x : float) (k : Z) : Prop := is_finite x = true /\ B2R x = IZR k.
Local Open Scope R_scope.
Lemma small_format : forall k, (Z.abs k < 2 ^ 24)%Z -> generic_format radix2 (SpecFloat.fexp prec emax) (IZR k).
Proof.
  intros k H. change (SpecFloat.fexp prec emax) with (FLT_exp (-149) 24). apply generic_format_FLT. exists (Float radix2 k 0); cbn [Fnum Fexp]; [unfold F2R; cbn [Fnum Fexp bpow]; lra|exact H|lia].
Qed.
Lemma small_bound : forall k, (Z.abs k < 2 ^ 24)%Z -> Rabs (IZR k) < bpow radix2 emax.
Proof. intros k H. rewrite <- abs_IZR. apply Rlt_le_trans with (bpow radix2 24); [|apply bpow_le; vm_compute; discriminate]. change (bpow radix2 24) with (IZR (2 ^ 24)). apply IZR_lt, H. Qed.
Lemma sub_exact : forall x y j k, represents x j -> represents y k -> (Z.abs (j - k) < 2 ^ 24)%Z -> represents (fsub x y) (j - k).
Proof.
  intros x y j k [Fx Ex] [Fy Ey] H. pose proof (Bminus_correct prec emax _ _ mode_NE x y Fx Fy) as K. cbn [round_mode] in K. rewrite Ex, Ey, <- minus_IZR in K. rewrite round_generic in K; [|auto with typeclass_instances|apply small_format, H]. rewrite Rlt_bool_true in K by apply small_bound, H. destruct K as (K1 & K2 & _). split; assumption.
Qed.
Lemma add_exact : forall x y j k, represents x j -> represents y k -> (Z.abs (j + k) < 2 ^ 24)%Z -> represents (fadd x y) (j + k).
Proof.
  intros x y j k [Fx Ex] [Fy Ey] H. pose proof (Bplus_correct prec emax _ _ mode_NE x y Fx Fy) as K. cbn [round_mode] in K. rewrite Ex, Ey, <- plus_IZR in K. rewrite round_generic in K; [|auto with typeclass_instances|apply small_format, H]. rewrite Rlt_bool_true in K by apply small_bound, H. destruct K as (K1 & K2 & _). split; assumption.
Qed.
Lemma mul_exact : forall x y j k, represents x j -> represents y k -> (Z.abs (j * k) < 2 ^ 24)%Z -> represents (fmul x y) (j * k).
Proof.
  intros x y j k [Fx Ex] [Fy Ey] H. pose proof (Bmult_correct prec emax _ _ mode_NE x y) as K. cbn [round_mode] in K. rewrite Ex, Ey, <- mult_IZR in K. rewrite round_generic in K; [|auto with typeclass_instances|apply small_format, H]. rewrite Rlt_bool_true in K by apply small_bound, H. destruct K as (K1 & K2 & _). rewrite Fx, Fy in K2. split; assumption.
Qed.
Lemma leb_exact : forall x y j k, represents x j -> represents y k -> Bleb x y = (j <=? k)%Z.
Proof. intros x y j k [Fx Ex] [Fy Ey]. rewrite Bleb_correct by assumption. rewrite Ex, Ey. destruct (Z.leb_spec j k) as [L|L]; [apply Rle_bool_true, IZR_le, L|apply Rle_bool_false, IZR_lt, L]. Qed.
Lemma zero_represents : represents fzero 0.
Proof. split; reflexivity. Qed.
