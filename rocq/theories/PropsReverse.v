(** * Running backwards: C146.
    Statements only; the proofs are in ThmReverse.v. *)
From Coq Require Import ZArith Reals List Bool Arith Lra Lia.
From RecordUpdate Require Import RecordUpdate.
From Verif Require Import State NumR Spec SpecLaws SpecStep SpecScheme SpecView LibList LibR ModelGrid ModelConstit ModelParticle ModelMPList
  ModelIntegr ModelMain ProofsGrid ProofsMap ProofsP2G ProofsWalls ProofsLaws ProofsInOut ProofsHist Concrete
  ThmMapping ThmWalls ThmLaws ThmInOut ThmHist ProofsStep ProofsPoints ThmStep ThmBalance ThmEnergy ThmFall ThmGeo ProofsScheme ProofsView ThmScheme ThmView ThmSpin ThmAngular ThmBeat ThmObserver ThmSilent ThmCells ThmMerge.
Import ListNotations.
From Verif Require Import ThmReverse.
Local Open Scope R_scope.

(** Two points that approach each other, after any number of steps: they keep their
    velocities for ever, and never meet. *)
Theorem C146_never : forall fill h v r, 0 < r < 1/2 -> 0 < h * v -> 4 * (h * v) * r < 1 -> exists s : state R, plain s /\ p_dt (sP s) = h /\
  map spot (bodies (sL s)) = [(1/2 - r, 1/2); (1/2 + r, 1/2)] /\ map q_v (bodies (sL s)) = [mkV3 v 0 0; mkV3 (- v) 0 0] /\
  forall n, exists s' tr u, after calm fill n s [] = Ok (s', tr) /\ 0 < u <= r /\ map spot (bodies (sL s')) = [(1/2 - u, 1/2); (1/2 + u, 1/2)] /\ map q_v (bodies (sL s')) = map q_v (bodies (sL s)).
Proof. exact p_C146_never. Qed.
Print Assumptions C146_never.

(** Turn the points round after any number of steps, and make as many steps: they end
    closer to each other than they were at the start. *)
Theorem C146_back_refuted : forall fill h v r n, 0 < r < 1/2 -> 0 < h * v -> 4 * (h * v) * r < 1 -> (0 < n)%nat -> exists (s s' t t' : state R) tr tr' u, plain s /\ p_dt (sP s) = h /\
  map spot (bodies (sL s)) = [(1/2 - r, 1/2); (1/2 + r, 1/2)] /\ after calm fill n s [] = Ok (s', tr) /\
  plain t /\ sP t = sP s /\ sG t = sG s /\ bodies (sL t) = map turned (bodies (sL s')) /\ after calm fill n t [] = Ok (t', tr') /\
  map spot (bodies (sL t')) = [(1/2 - u, 1/2); (1/2 + u, 1/2)] /\ 0 < u < r.
Proof. exact p_C146_back_refuted. Qed.
Print Assumptions C146_back_refuted.

(** Points a quarter of a cell from the middle, with speed one and a time step of a tenth. *)
Example C146_back_example : 0 < 1/4 < 1/2 /\ 0 < 1/10 * 1 /\ 4 * (1/10 * 1) * (1/4) < 1 /\ closing (1/10) 1 1 (1/4) = 9/40 /\ closing (1/10) (-1) 1 (9/40) = 981/4000.
Proof. exact x_C146_back. Qed.
