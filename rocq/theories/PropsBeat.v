(** * Small steps that are not stable: C140.
    Statements only; the proofs are in ThmBeat.v. *)
From Coq Require Import ZArith Reals List Bool Arith Lra Lia.
From RecordUpdate Require Import RecordUpdate.
From Verif Require Import State NumR Spec SpecLaws SpecStep SpecScheme LibList LibR ModelGrid ModelConstit ModelParticle ModelMPList
  ModelIntegr ModelMain ProofsGrid ProofsMap ProofsP2G ProofsWalls ProofsLaws ProofsInOut ProofsHist Concrete
  ThmMapping ThmWalls ThmLaws ThmInOut ThmHist ProofsStep ProofsPoints ThmStep ThmBalance ThmEnergy ThmFall ThmGeo ProofsScheme ThmScheme ThmAngular.
Import ListNotations.
From Verif Require Import ThmBeat.
Local Open Scope R_scope.

(** Two elastic points of one cell that move towards each other: after a step
    their velocity is [1 - dt^2 (K + 4/3 G) / 2] times what it was, and it has
    grown unless [dt^2 (K + 4/3 G) <= 4]; how far the points move in a step has no say. *)
Theorem C140_exact : forall fill h K g v, 0 < h -> 0 < K -> 0 <= g -> v <> 0 -> exists (s s' : state R) tr, plain s /\ p_dt (sP s) = h /\
  map q_v (bodies (sL s)) = [mkV3 v 0 0; mkV3 (- v) 0 0] /\ Forall (fun q => q_mat q = Solid K g /\ q_s q = m0) (bodies (sL s)) /\
  after calm fill 1 s [] = Ok (s', tr) /\ exists f, map q_v (bodies (sL s')) = [mkV3 (f * v) 0 0; mkV3 (- (f * v)) 0 0] /\
  f = 1 - h * h * (K + 4/3 * g) / 2 /\ (Rabs (f * v) <= Rabs v <-> h * h * (K + 4/3 * g) <= 4).
Proof. exact p_C140_exact. Qed.
Print Assumptions C140_exact.

(** However little the points move in a step, and however many times over: there are bodies whose velocities grow that much in one step. *)
Theorem C140_small_steps_refuted : forall fill N eps, 1 < N -> 0 < eps -> exists (s s' : state R) tr, plain s /\
  Forall (fun q => forall a, Rabs (comp a (q_v q)) * p_dt (sP s) <= eps * Rmin (cell_w (pG (sP s))) (cell_h (pG (sP s)))) (bodies (sL s)) /\
  after calm fill 1 s [] = Ok (s', tr) /\ Forall (fun q => q_v q <> v0) (bodies (sL s)) /\
  map q_v (bodies (sL s')) = map (fun q => v3 (fun a => - N * comp a (q_v q))) (bodies (sL s)).
Proof. exact p_C140_small_steps_refuted. Qed.
Print Assumptions C140_small_steps_refuted.
