(** * Rounding: what the points get back from the grid: C126.
    Statements only; the proofs are in ThmBack.v. *)
From Coq Require Import ZArith Reals List Bool Arith Lra Lia.
From Flocq Require Import Core.
From RecordUpdate Require Import RecordUpdate.
From Verif Require Import State NumR NumRd Spec SpecRound LibList LibR ModelGrid ModelConstit ModelParticle ModelMPList ModelMain
  ProofsGrid ProofsMap ProofsP2G ProofsRound ProofsRound2 ProofsRound3 Concrete ThmRound.
Import ListNotations.
From Verif Require Import ThmBack.
Local Open Scope R_scope.

(** Moving a point in rounded arithmetic: its place changes by the time step times the mean of the momenta per mass of the
    nodes, weighted by the tents of the true place, and its velocity by the same mean of the forces, up to the stated error. *)
Theorem C126_back : forall rd u P B G Gn p p2 sv p' sv' a V A,
  rounding rd u -> counts rd (nodes (pG P)) -> proper (pG P) -> resolved u (pG P) -> @grid_init R (Num_rd rd) (pG P) B = Ok G ->
  clear u (pG P) (px p) -> weighed rd P G p p2 ->
  length (gm Gn) = nodes (pG P) -> length (gq Gn) = nodes (pG P) -> length (gqd Gn) = nodes (pG P) -> 0 <= p_Mtol P -> 0 <= V -> 0 <= A ->
  (forall k, (k < nodes (pG P))%nat -> p_Mtol P < nth k (gm Gn) 0 ->
     Rabs (comp a (nth k (gq Gn) (mkV3 0 0 0))) <= V * nth k (gm Gn) 0 /\ Rabs (comp a (nth k (gqd Gn) (mkV3 0 0 0))) <= A * nth k (gm Gn) 0) ->
  @move_material_point R (Num_rd rd) P Gn p2 sv = Ok (p', sv') ->
  Rabs (comp a (px p') - (comp a (px p) + p_dt P * fsum (nodes (pG P)) (fun k => hat (pG P) (px p) k * carried P Gn (gq Gn) a k)))
    <= ((1 + u) ^ 4 - 1) * Rabs (comp a (px p)) + astray u (pG P) * (Rabs (p_dt P) * V) /\
  Rabs (comp a (vel_of p' sv') - (comp a (vel_of p2 sv) + p_dt P * fsum (nodes (pG P)) (fun k => hat (pG P) (px p) k * carried P Gn (gqd Gn) a k)))
    <= ((1 + u) ^ 4 - 1) * Rabs (comp a (vel_of p2 sv)) + astray u (pG P) * (Rabs (p_dt P) * A).
Proof. exact p_C126_back. Qed.
Print Assumptions C126_back.

(** Moving such a point never fails. *)
Theorem C126_runs : forall rd u P B G Gn p p2 sv,
  rounding rd u -> counts rd (nodes (pG P)) -> proper (pG P) -> resolved u (pG P) -> @grid_init R (Num_rd rd) (pG P) B = Ok G ->
  clear u (pG P) (px p) -> weighed rd P G p p2 ->
  length (gm Gn) = nodes (pG P) -> length (gq Gn) = nodes (pG P) -> length (gqd Gn) = nodes (pG P) -> length (gV Gn) = nodes (pG P) ->
  exists p' sv', @move_material_point R (Num_rd rd) P Gn p2 sv = Ok (p', sv').
Proof. exact p_C126_runs. Qed.
Print Assumptions C126_runs.

(** A point on a grid of four by three nodes, in binary64; nodes of mass 2, momentum 4 to the right and force 6 downwards.  The error is below 1e-9 of the step. *)
Example C126_back_example : exists G p2 p' sv',
  rounding near64 u64 /\ counts near64 (nodes (pG round_params)) /\ proper (pG round_params) /\ resolved u64 (pG round_params) /\
  @grid_init R (Num_rd near64) (pG round_params) ex_bounds = Ok G /\ clear u64 (pG round_params) (px back_p) /\ weighed near64 round_params G back_p p2 /\
  length (gm (back_grid G)) = nodes (pG round_params) /\ length (gq (back_grid G)) = nodes (pG round_params) /\ length (gqd (back_grid G)) = nodes (pG round_params) /\
  0 <= p_Mtol round_params < 2 /\
  (forall k a, (k < nodes (pG round_params))%nat -> nth k (gm (back_grid G)) 0 = 2 /\
     Rabs (comp a (nth k (gq (back_grid G)) (mkV3 0 0 0))) <= 2 * nth k (gm (back_grid G)) 0 /\ Rabs (comp a (nth k (gqd (back_grid G)) (mkV3 0 0 0))) <= 3 * nth k (gm (back_grid G)) 0) /\
  @move_material_point R (Num_rd near64) round_params (back_grid G) p2 (mkV3 0 0 0) = Ok (p', sv') /\
  carried round_params (back_grid G) (gq (back_grid G)) AX 5 = 2 /\ astray u64 (pG round_params) <= 1 / 1000000000.
Proof. exact x_C126_back. Qed.
