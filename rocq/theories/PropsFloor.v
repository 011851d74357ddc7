(** * Points on the floor: C155.
    Statements only; the proofs are in ThmFloor.v. *)
From Coq Require Import ZArith Reals List Bool Arith Lra Lia.
From RecordUpdate Require Import RecordUpdate.
From Verif Require Import State NumR Spec SpecLaws SpecStep SpecScheme SpecView SpecLocal LibList LibR ModelGrid ModelConstit ModelParticle ModelMPList
  ModelIntegr ModelMain ProofsGrid ProofsMap ProofsP2G ProofsWalls ProofsLaws ProofsInOut ProofsHist Concrete
  ThmMapping ThmWalls ThmLaws ThmInOut ThmHist ProofsStep ProofsPoints ThmStep ThmBalance ThmEnergy ThmFall ThmGeo ProofsScheme ThmScheme ProofsLocal ThmLocal ThmApart ThmAlone ThmSpin ThmAngular ThmBeat ThmStride ThmGlide ThmAnyFall.
Import ListNotations.
From Verif Require Import ThmFloor.
Local Open Scope R_scope.

(** Points of any material that all lie on the floor stay on the floor and keep their vertical velocities for ever,
    whatever these velocities, the loads and the stresses are. *)
Theorem C155_floor : forall uf fill n (s : state R) tr s' tr' S0, whole s -> sol0 (sL s) = Ok S0 ->
  (forall k, (k < nx (pG (sP s)) * ny (pG (sP s)))%nat -> row (pG (sP s)) k = 0%nat -> removed AY (roughness (pB (sP s))) (nth k (bv (sG s)) false) (nth k (bh (sG s)) false) = true) ->
  Forall (landed (pG (sP s))) (cloud (sP s) (sL s)) ->
  (forall j, (j < n)%nat -> Forall (fun q => in_dom (pG (sP s)) (z_x q)) (z_run uf (s_rho S0) j (sP s) (sG s) (cloud (sP s) (sL s)))) ->
  after uf fill n s tr = Ok (s', tr') -> map upright (cloud (sP s) (sL s')) = map upright (cloud (sP s) (sL s)).
Proof. exact p_C155_floor. Qed.
Print Assumptions C155_floor.

Example C155_floor_example : forall uf fill c, exists (s s' : state R) tr' S0, whole s /\ sol0 (sL s) = Ok S0 /\
  (forall k, (k < nx (pG (sP s)) * ny (pG (sP s)))%nat -> row (pG (sP s)) k = 0%nat -> removed AY (roughness (pB (sP s))) (nth k (bv (sG s)) false) (nth k (bh (sG s)) false) = true) /\
  Forall (landed (pG (sP s))) (cloud (sP s) (sL s)) /\
  (forall j, (j < 1)%nat -> Forall (fun q => in_dom (pG (sP s)) (z_x q)) (z_run uf (s_rho S0) j (sP s) (sG s) (cloud (sP s) (sL s)))) /\
  after uf fill 1 s [] = Ok (s', tr') /\ map upright (cloud (sP s) (sL s)) = [(0, c)].
Proof. exact x_C155_floor. Qed.

(** A point on the floor does not lose its velocity into the floor, and does not leave the floor with a velocity away
    from it. *)
Theorem C155_lands_refuted : forall uf fill c, c <> 0 -> exists (s s' : state R) tr' S0 q q', whole s /\ sol0 (sL s) = Ok S0 /\ cloud (sP s) (sL s) = [q] /\ in_dom (pG (sP s)) (z_x q) /\
  after uf fill 1 s [] = Ok (s', tr') /\ cloud (sP s) (sL s') = [q'] /\ vy (z_x q) = y_m (pG (sP s)) /\ vy (z_x q') = y_m (pG (sP s)) /\ vy (z_v q) = c /\ vy (z_v q') = c.
Proof. exact p_C155_lands_refuted. Qed.
Print Assumptions C155_lands_refuted.
