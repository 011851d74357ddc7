(** * Points move with the velocity that they carry: C136.
    Statements only; the proofs are in ThmSilent.v. *)
From Coq Require Import ZArith Reals List Bool Arith Lra Lia.
From RecordUpdate Require Import RecordUpdate.
From Verif Require Import State NumR Spec SpecLaws SpecStep SpecScheme LibList LibR ModelGrid ModelConstit ModelParticle ModelMPList
  ModelIntegr ModelMain ProofsGrid ProofsMap ProofsP2G ProofsWalls ProofsLaws ProofsInOut ProofsHist Concrete
  ThmMapping ThmWalls ThmLaws ThmInOut ThmHist ProofsStep ProofsPoints ThmStep ThmBalance ThmEnergy ThmFall ThmGeo ProofsScheme ThmScheme ThmAngular.
Import ListNotations.
From Verif Require Import ThmSilent.
Local Open Scope R_scope.

(** Points that bring no momentum to any node stay where they are for ever, with the velocities that they have. *)
Theorem C136_silent : forall uf fill n (s : state R) tr, plain s -> (forall P, no_surface (sP s) (uf P)) -> (forall P, ld_g (uf P) = 0) ->
  Forall (fun q => in_dom (pG (sP s)) (q_x q) /\ (p_check (sP s) = true -> vz (q_x q) = 0)) (bodies (sL s)) ->
  silent (pG (sP s)) (bodies (sL s)) -> Forall idle (bodies (sL s)) ->
  exists s' tr', after uf fill n s tr = Ok (s', tr') /\ bodies (sL s') = bodies (sL s).
Proof. exact p_C136_silent. Qed.
Print Assumptions C136_silent.

Theorem C136_row : forall (P : gridp R) i y z c d q1 q2 q3, proper P ->
  q_x q1 = mkV3 (vx (q_x q1)) y z -> q_x q2 = mkV3 (vx (q_x q2)) y z -> q_x q3 = mkV3 (vx (q_x q3)) y z ->
  in_column P i (vx (q_x q1)) -> in_column P i (vx (q_x q2)) -> in_column P i (vx (q_x q3)) ->
  (forall a, q_m q1 * comp a (q_v q1) = c * comp a d * (vx (q_x q3) - vx (q_x q2))) ->
  (forall a, q_m q2 * comp a (q_v q2) = c * comp a d * (vx (q_x q1) - vx (q_x q3))) ->
  (forall a, q_m q3 * comp a (q_v q3) = c * comp a d * (vx (q_x q2) - vx (q_x q1))) ->
  silent P [q1; q2; q3].
Proof. exact p_C136_row. Qed.
Print Assumptions C136_row.

(** So points do not move with the velocities that they carry, in any number of steps, and damping takes nothing from them. *)
Theorem C136_moves_refuted : forall fill, exists s : state R, plain s /\ p_damping (sP s) = true /\ 0 < kinetic (bodies (sL s)) /\
  Forall (fun q => in_dom (pG (sP s)) (q_x q) /\ q_v q <> v0) (bodies (sL s)) /\
  forall n, exists s' tr', after no_loads fill n s [] = Ok (s', tr') /\ bodies (sL s') = bodies (sL s).
Proof. exact p_C136_moves_refuted. Qed.
Print Assumptions C136_moves_refuted.

Example C136_silent_example : exists s : state R, plain s /\ (forall P, no_surface (sP s) (no_loads P)) /\ (forall P, ld_g (no_loads P) = 0) /\
  Forall (fun q => in_dom (pG (sP s)) (q_x q) /\ (p_check (sP s) = true -> vz (q_x q) = 0)) (bodies (sL s)) /\
  silent (pG (sP s)) (bodies (sL s)) /\ Forall idle (bodies (sL s)) /\ kinetic (bodies (sL s)) = 6.
Proof. exact x_C136_silent. Qed.

Example C136_row_example : exists q1 q2 q3, q_m q1 = 1 /\ q_m q2 = 2 /\ q_m q3 = 4 /\
  q_x q1 = mkV3 (vx (q_x q1)) (1/2) 0 /\ q_x q2 = mkV3 (vx (q_x q2)) (1/2) 0 /\ q_x q3 = mkV3 (vx (q_x q3)) (1/2) 0 /\
  in_column (ex_gridp (T := R)) 0 (vx (q_x q1)) /\ in_column (ex_gridp (T := R)) 0 (vx (q_x q2)) /\ in_column (ex_gridp (T := R)) 0 (vx (q_x q3)) /\
  (forall a, q_m q1 * comp a (q_v q1) = 8 * comp a (mkV3 0 1 0) * (vx (q_x q3) - vx (q_x q2))) /\
  (forall a, q_m q2 * comp a (q_v q2) = 8 * comp a (mkV3 0 1 0) * (vx (q_x q1) - vx (q_x q3))) /\
  (forall a, q_m q3 * comp a (q_v q3) = 8 * comp a (mkV3 0 1 0) * (vx (q_x q2) - vx (q_x q1))).
Proof. exact x_C136_row. Qed.
