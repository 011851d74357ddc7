(** * Bodies that move apart: C141.
    Statements only; the proofs are in ThmPart.v. *)
From Coq Require Import ZArith Reals List Bool Arith Lra Lia.
From RecordUpdate Require Import RecordUpdate.
From Verif Require Import State NumR Spec SpecLaws SpecStep SpecScheme LibList LibR ModelGrid ModelConstit ModelParticle ModelMPList
  ModelIntegr ModelMain ProofsGrid ProofsMap ProofsP2G ProofsWalls ProofsLaws ProofsInOut ProofsHist Concrete
  ThmMapping ThmWalls ThmLaws ThmInOut ThmHist ProofsStep ProofsPoints ThmStep ThmBalance ThmEnergy ThmFall ThmGeo ProofsScheme ThmScheme ThmAngular ThmBeat.
Import ListNotations.
From Verif Require Import ThmPart.
Local Open Scope R_scope.

(** Two elastic bodies without stress that leave each other at speed [w] while they share a
    cell: after a step both are slower, as if they were glued together. *)
Theorem C141_apart_refuted : forall fill h K g K2 g2 w, 0 < w -> 0 < K -> 0 <= g -> 0 < K2 -> 0 <= g2 -> 0 < h -> h * h * ((K + 4/3 * g) + (K2 + 4/3 * g2)) < 4 ->
  exists (s s' : state R) tr w', plain s /\ length (sL s) = 2%nat /\ p_dt (sP s) = h /\ wall_free (bv (sG s)) (bh (sG s)) /\
  map (fun q => (vx (q_x q), q_v q, q_s q)) (bodies (sL s)) = [(1/4, mkV3 (- w) 0 0, m0); (3/4, mkV3 w 0 0, m0)] /\
  map q_mat (bodies (sL s)) = [Solid K g; Solid K2 g2] /\
  after calm fill 1 s [] = Ok (s', tr) /\ map q_v (bodies (sL s')) = [mkV3 (- w') 0 0; mkV3 w' 0 0] /\
  0 < w' < w /\ w' = w * (1 - h * h * ((K + 4/3 * g) + (K2 + 4/3 * g2)) / 4).
Proof. exact p_C141_apart_refuted. Qed.
Print Assumptions C141_apart_refuted.

(** Steps of a tenth, bodies with moduli 3, 2 and 6, 4. *)
Example C141_apart_refuted_example : forall fill, exists (s s' : state R) tr, plain s /\ after calm fill 1 s [] = Ok (s', tr) /\
  map (fun q => vx (q_v q)) (bodies (sL s)) = [-1; 1] /\ map (fun q => vx (q_v q)) (bodies (sL s')) = [- (383/400); 383/400].
Proof. exact x_C141_apart_refuted. Qed.
