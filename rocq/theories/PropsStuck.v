(** * Points at one place: C150.
    Statements only; the proofs are in ThmStuck.v. *)
From Coq Require Import ZArith Reals List Bool Arith Lra Lia.
From RecordUpdate Require Import RecordUpdate.
From Verif Require Import State NumR Spec SpecLaws SpecStep SpecScheme SpecView LibList LibR ModelGrid ModelConstit ModelParticle ModelMPList
  ModelIntegr ModelMain ProofsGrid ProofsMap ProofsP2G ProofsWalls ProofsLaws ProofsInOut ProofsHist Concrete
  ThmMapping ThmWalls ThmLaws ThmInOut ThmHist ProofsStep ProofsPoints ThmStep ThmBalance ThmEnergy ThmFall ThmGeo ProofsScheme ProofsView ThmScheme ThmView ThmSpin ThmAngular ThmBeat ThmObserver ThmSilent ThmCells ThmMerge.
Import ListNotations.
From Verif Require Import ThmStuck.
Local Open Scope R_scope.

(** Two points at one place stay at one place for ever, whatever their velocities, stresses
    and materials, and two points in one state stay in one state; for any walls, loads and
    numbers of steps. *)
Theorem C150_stuck : forall uf fill n (s : state R) tr, plain s -> (forall P, no_surface (sP s) (uf P)) ->
  (forall k, (k < n)%nat -> Forall (fun q => in_dom (pG (sP s)) (q_x q) /\ (p_check (sP s) = true -> vz (q_x q) = 0)) (t_run uf k (sP s) (sG s) (bodies (sL s)))) ->
  exists s' tr', after uf fill n s tr = Ok (s', tr') /\ forall i j,
  (met i j (bodies (sL s)) -> met i j (bodies (sL s'))) /\ (twins i j (bodies (sL s)) -> twins i j (bodies (sL s'))).
Proof. exact p_C150_stuck. Qed.
Print Assumptions C150_stuck.

(** Two elastic points at one place with any two velocities are at one place after a step. *)
Theorem C150_part_refuted : forall uf fill v w, v <> w -> exists (s s' : state R) tr, plain s /\
  map q_v (bodies (sL s)) = [v; w] /\ met 0 1 (bodies (sL s)) /\ after uf fill 1 s [] = Ok (s', tr) /\ met 0 1 (bodies (sL s')).
Proof. exact p_C150_part_refuted. Qed.
Print Assumptions C150_part_refuted.

(** The premises hold for two points at one place that move in opposite directions. *)
Example C150_stuck_example : exists s : state R, plain s /\ (forall P, no_surface (sP s) (calm P)) /\
  (forall k, (k < 1)%nat -> Forall (fun q => in_dom (pG (sP s)) (q_x q) /\ (p_check (sP s) = true -> vz (q_x q) = 0)) (t_run calm k (sP s) (sG s) (bodies (sL s)))) /\
  met 0 1 (bodies (sL s)) /\ map q_v (bodies (sL s)) = [mkV3 3 0 0; mkV3 (-1) 0 0].
Proof. exact x_C150_stuck. Qed.
