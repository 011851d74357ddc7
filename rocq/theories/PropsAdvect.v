(** * Segregation advection: sign and accuracy (C68, C69).
    Statements only; the proofs are in ThmAdvect.v. *)
From Coq Require Import ZArith List Bool Arith Lia Reals Lra.
From Verif Require Import State NumR LibR LibList Spec ModelGrid ModelIntegr ModelNT ProofsGrid Concrete ThmSeg ThmNT.
Import ListNotations.
From Verif Require Import ThmAdvect.
Local Open Scope R_scope.

(** The KT scheme does not make a fraction negative as long as no class moves
    further than half a cell in the step. *)
Theorem C68_line : forall cyclic (dt dx c a : R) ss n phi g b k i, 0 <= dt -> 0 < dx -> dt * a <= dx / 2 -> (i < n)%nat ->
  (forall j, (j < n)%nat -> length (phi j) = length ss /\ 0 <= nth k (phi j) 0 /\ Rabs (speed c ss (phi j) (nth k ss 0) (g j) (b j)) <= a) ->
  0 <= nth k (phi i) 0 + kt_line cyclic dt dx c ss n phi g b k i.
Proof. exact p_C68_line. Qed.
Print Assumptions C68_line.

(** Instance: C68_line_example in PropsCasesQ.v. *)

Theorem C68_nonneg : forall (P : params R) G A B dx dy c a0 a1 k, KT0 P G = Ok A -> KT1 P G = Ok B ->
  pdx (pG P) = Some dx -> pdy (pG P) = Some dy -> p_c P = Some c -> 0 < dx -> 0 < dy -> 0 <= p_dt P -> 0 <= a0 -> 0 <= a1 ->
  p_dt P * a0 <= dx / 4 -> p_dt P * a1 <= dy / 4 -> (k < ns (pG P))%nat -> advect_ok P G c a0 vx k -> advect_ok P G c a1 vy k ->
  forall m, (m < nodes (pG P))%nat -> 0 <= nth k (nth m (g_phi G) []) 0 + nth k (nth m A []) 0 + nth k (nth m B []) 0.
Proof. exact p_C68_nonneg. Qed.
Print Assumptions C68_nonneg.

(** In a uniform mixture a class changes by minus [dt] times its fraction times
    the central difference of its speed: classes pile up where they slow down. *)
Theorem C69_uniform_mixture : forall cyclic (dt dx c : R) ss n f g b k i, dx <> 0 -> (1 <= i)%nat -> (i + 1 < n)%nat -> length f = length ss ->
  let v := fun j => speed c ss f (nth k ss 0) (g j) (b j) in
  kt_line cyclic dt dx c ss n (fun _ => f) g b k i = - dt * nth k f 0 * (v (i + 1)%nat - v (i - 1)%nat) / (2 * dx).
Proof. exact p_C69_uniform_mixture. Qed.
Print Assumptions C69_uniform_mixture.

(** Instance: C69_uniform_mixture_example in PropsCasesQ.v. *)

(** A linear profile of the fraction in a locally constant speed is carried
    along exactly. *)
Theorem C69_linear_profile : forall cyclic (dt dx c : R) ss n phi g b k i alpha beta v, dx <> 0 -> (2 <= i)%nat -> (i + 2 < n)%nat ->
  (forall j, (j < n)%nat -> length (phi j) = length ss) ->
  (forall j, (i - 2 <= j <= i + 2)%nat -> nth k (phi j) 0 = alpha + beta * (INR j * dx)) ->
  (forall j, (i - 1 <= j <= i + 1)%nat -> speed c ss (phi j) (nth k ss 0) (g j) (b j) = v) ->
  kt_line cyclic dt dx c ss n phi g b k i = - dt * v * beta.
Proof. exact p_C69_linear_profile. Qed.
Print Assumptions C69_linear_profile.

Example C68_nonneg_example : exists (P : params R) G A B, KT0 P G = Ok A /\ KT1 P G = Ok B /\
  pdx (pG P) = Some 1 /\ pdy (pG P) = Some 1 /\ p_c P = Some 1 /\ 0 < p_dt P /\ p_dt P * 1 <= 1 / 4 /\
  advect_ok P G 1 1 vx 0 /\ advect_ok P G 1 1 vy 0 /\ ~ closed_node P G 5.
Proof. exact x_C68_nonneg. Qed.

(** A profile that is linear and moves with one speed. *)
Example C69_linear_profile_example : exists (ss : list R) phi g i alpha beta v, (2 <= i)%nat /\ (forall j, (j < 6)%nat -> length (phi j) = length ss) /\
  (forall j, (i - 2 <= j <= i + 2)%nat -> nth 0 (phi j) 0 = alpha + beta * (INR j * 1)) /\
  (forall j, (i - 1 <= j <= i + 1)%nat -> speed 1 ss (phi j) (nth 0 ss 0) (g j) false = v) /\
  kt_line false (1/10) 1 1 ss 6 phi g (fun _ => false) 0 i = - (1/10) * v * beta /\ v * beta <> 0.
Proof. exact x_C69_linear_profile. Qed.
