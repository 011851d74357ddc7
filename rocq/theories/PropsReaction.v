(** * What the walls take from a body: C156.
    Statements only; the proofs are in ThmReaction.v. *)
From Coq Require Import ZArith Reals List Bool Arith Lra Lia.
From RecordUpdate Require Import RecordUpdate.
From Verif Require Import State NumR Spec SpecLaws SpecStep SpecScheme SpecView SpecLocal LibList LibR ModelGrid ModelConstit ModelParticle ModelMPList
  ModelIntegr ModelMain ProofsGrid ProofsMap ProofsP2G ProofsWalls ProofsLaws ProofsInOut ProofsHist Concrete
  ThmMapping ThmWalls ThmLaws ThmInOut ThmHist ProofsStep ProofsPoints ThmStep ThmBalance ThmEnergy ThmFall ThmGeo ProofsScheme ThmScheme ProofsLocal ThmLocal ThmApart ThmAlone ThmSpin ThmAngular ThmBeat ThmStride ThmGlide ThmAnyFall ThmFloor.
Import ListNotations.
From Verif Require Import ThmReaction.
Local Open Scope R_scope.

(** The momentum of a body of six materials after any number of steps: what its weight and the load on its surface have given
    it, less the force on the nodes that the walls hold, summed over the steps. *)
Theorem C156_walls : forall uf fill a n (s : state R) tr s' tr' S0, whole s -> sol0 (sL s) = Ok S0 -> Forall usual (cloud (sP s) (sL s)) ->
  (forall k, (k < n)%nat -> let B := z_run uf (s_rho S0) k (sP s) (sG s) (cloud (sP s) (sL s)) in
    well_fed (sP s) B /\ Forall (fun q => in_dom (pG (sP s)) (z_x q)) B) ->
  after uf fill n s tr = Ok (s', tr') ->
  let B := cloud (sP s) (sL s) in
  zdrive a (cloud (sP s) (sL s')) = zdrive a B + p_dt (sP s) * ((if p_damping (sP s) then 7/10 else 1) *
    fsum n (fun j => let E := ambient_at uf (s_rho S0) j (sP s) (sG s) in let Bj := z_run uf (s_rho S0) j (sP s) (sG s) B in
      zpull a (a_g E) B + on_surface E Bj a - on_walls E Bj a)).
Proof. exact p_C156_walls. Qed.
Print Assumptions C156_walls.

(** A point of Bingham's fluid and a Von Mises point, with stresses and velocities, in the lowest cell above a floor. *)
Example C156_walls_example : forall uf fill, exists (s s' : state R) tr' S0, whole s /\ sol0 (sL s) = Ok S0 /\ Forall usual (cloud (sP s) (sL s)) /\
  (forall k, (k < 1)%nat -> let B := z_run uf (s_rho S0) k (sP s) (sG s) (cloud (sP s) (sL s)) in
    well_fed (sP s) B /\ Forall (fun q => in_dom (pG (sP s)) (z_x q)) B) /\
  after uf fill 1 s [] = Ok (s', tr') /\ length (cloud (sP s) (sL s)) = 2%nat /\
  a_open (ambient_at uf (s_rho S0) 0 (sP s) (sG s)) AY 0 = 0 /\ hat (pG (sP s)) (mkV3 (1/2) (1/2) 0) 0 = 1/4 /\ Forall (fun q => z_x q = mkV3 (1/2) (1/2) 0) (cloud (sP s) (sL s)).
Proof. exact x_C156_walls. Qed.
