(** * Uniform motion at cell edges
    Statements only; the proofs are in ThmEdge.v. *)
From Coq Require Import ZArith List Bool Arith Lia Reals Lra QArith.
From Verif Require Import State NumQ ModelGrid ModelConstit ModelParticle ModelMPList ModelMain Concrete.
Import ListNotations.
From Verif Require Import ThmEdge.
Local Open Scope R_scope.

(** Without the condition on the corners uniform motion is not preserved: a
    particle exactly on the line between two cells has zero weight but a non-zero
    gradient at massless nodes, and is strained although everything moves alike. *)
Theorem C55_edge_refuted :
  let p := ex_particle (T := Q) n1 nhalf (mkV3 n1 n0 n0) m0 in
  let P := ex_params (T := Q) ex_bounds in
  exists G p', grid_init ex_gridp ex_bounds = Ok G /\
    (exists s', time_march (fun _ => mkLoads n0 n0 n0 n0) (fun _ l => l)
                 (mkState P G [mkPhase (ex_solid Elastic) 1 v0 [p]]) = Ok s' /\ map ph_pts (sL s') = [[p']]) /\
    pv p = Own (mkV3 n1 n0 n0) /\ pstress p = m0 /\ ~ (xx (pstress p') == 0)%Q.
Proof. exact p_C55_edge_refuted. Qed.
Print Assumptions C55_edge_refuted.
