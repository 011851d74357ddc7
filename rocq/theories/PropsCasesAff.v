(** * Cases that meet the hypotheses: the patch test
    Statements only; the proofs are in ThmCasesAff.v. *)
From Coq Require Import ZArith Reals List Bool Arith Lra Lia.
From Verif Require Import State NumR Spec SpecLaws SpecStep SpecScheme LibList LibR ModelGrid ModelInputs ModelConstit ModelParticle ModelMPList
  ModelIntegr ModelMain ProofsGrid ProofsMap ProofsP2G ProofsWalls ProofsLaws ProofsInOut ProofsHist Concrete
  ThmMapping ThmWalls ThmLaws ThmInOut ThmHist ProofsStep ProofsPoints ThmStep ThmBalance ThmEnergy ThmFall ThmGeo ProofsScheme ThmScheme
  ThmDensity ProofsFill ThmFill ProofsAffine ThmAffine.
Import ListNotations.
From Verif Require Import ThmCasesAff.
Local Open Scope R_scope.

(** A uniform stress, a flow that stretches the material along x. *)
Example C101_patch_example : forall fill, exists (s s' : state R) c rows mat rho V F b first,
  proper (pG (sP s)) /\ grid_init (pG (sP s)) (pB (sP s)) = Ok (sG s) /\ ThmWalls.plain (pB (sP s)) /\ shut (sP s) /\ no_rub (pB (sP s)) /\
  simple_laws (sL s) /\ own_velocities (sL s) /\ no_surface (sP s) (fall_loads (sP s)) /\
  (1 <= c)%nat /\ (1 <= rows <= ny (pG (sP s)) - 1)%nat /\ 0 < rho /\ 0 < V /\ p_Mtol (sP s) < rho * V * (INR c * INR c) /\
  bodies (sL s) = map (drawn mat rho V F b first) (layer (pG (sP s)) c rows (INR (ny (pG (sP s)) - 1 - rows) * cell_h (pG (sP s)))) /\
  time_march fall_loads fill s = Ok s' /\ (exists q, In q (bodies (sL s)) /\ deep (pG (sP s)) rows 2 (q_x q)) /\
  (forall a d, f_sx F a d = 0 /\ f_sy F a d = 0) /\ f_px F = 0 /\ f_py F = 0 /\ f_s F AX AX = 1 /\ f_vx F AX = 1.
Proof. exact x_C101_patch. Qed.
