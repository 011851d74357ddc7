(** * The centre of mass of a body of any material: C154.
    Statements only; the proofs are in ThmAnyFall.v. *)
From Coq Require Import ZArith Reals List Bool Arith Lra Lia.
From RecordUpdate Require Import RecordUpdate.
From Verif Require Import State NumR Spec SpecLaws SpecStep SpecScheme SpecView SpecLocal LibList LibR ModelGrid ModelConstit ModelParticle ModelMPList
  ModelIntegr ModelMain ProofsGrid ProofsMap ProofsP2G ProofsWalls ProofsLaws ProofsInOut ProofsHist Concrete
  ThmMapping ThmWalls ThmLaws ThmInOut ThmHist ProofsStep ProofsPoints ThmStep ThmBalance ThmEnergy ThmFall ThmGeo ProofsScheme ThmScheme ProofsLocal ThmLocal ThmApart ThmAlone ThmSpin ThmAngular ThmBeat ThmStride.
Import ListNotations.
From Verif Require Import ThmAnyFall.
Local Open Scope R_scope.

(** A body of points of six materials (all that C102 covers but intruders and heated points), on a grid with any walls
    none of which holds the component [a] of the motion, without load along [a] and without belts: along [a] the body gains the
    momentum that its weight gives it, and its centre of mass follows, whatever the materials do. *)
Theorem C154_any : forall uf fill g th a n (s : state R) tr s' tr' S0, whole s -> sol0 (sL s) = Ok S0 -> conveyor (pB (sP s)) = false ->
  match a with AX => horizontal_force (pB (sP s)) = false | AY => vertical_force (pB (sP s)) = false | AZ => True end ->
  (forall k, removed a (roughness (pB (sP s))) (nth k (bv (sG s)) false) (nth k (bh (sG s)) false) = false) ->
  (forall P, ld_g (uf P) = g /\ ld_theta (uf P) = th) -> Forall usual (cloud (sP s) (sL s)) ->
  (forall k, (k < n)%nat -> let B := z_run uf (s_rho S0) k (sP s) (sG s) (cloud (sP s) (sL s)) in
    well_fed (sP s) B /\ Forall (fun q => in_dom (pG (sP s)) (z_x q)) B) ->
  after uf fill n s tr = Ok (s', tr') ->
  let B := cloud (sP s) (sL s) in let B' := cloud (sP s) (sL s') in
  let W := (if p_damping (sP s) then 7/10 else 1) * zpull a (mkV3 (g * sin th) (g * cos th) 0) B in let h := p_dt (sP s) in
  zdrive a B' = zdrive a B + INR n * h * W /\
  zmoment a B' = zmoment a B + INR n * h * zdrive a B + INR n * (INR n + 1) / 2 * (h * h) * W.
Proof. exact p_C154_any. Qed.
Print Assumptions C154_any.

(** A point of Bingham's fluid and a Von Mises point, with stresses and velocities, in one place. *)
Example C154_any_example : forall fill g, let uf := fun _ : params R => mkLoads g 0 0 0 in exists (s s' : state R) tr' S0, whole s /\ sol0 (sL s) = Ok S0 /\ conveyor (pB (sP s)) = false /\
  vertical_force (pB (sP s)) = false /\ (forall k, removed AY (roughness (pB (sP s))) (nth k (bv (sG s)) false) (nth k (bh (sG s)) false) = false) /\
  (forall P, ld_g (uf P) = g /\ ld_theta (uf P) = 0) /\ Forall usual (cloud (sP s) (sL s)) /\
  (forall k, (k < 1)%nat -> let B := z_run uf (s_rho S0) k (sP s) (sG s) (cloud (sP s) (sL s)) in
    well_fed (sP s) B /\ Forall (fun q => in_dom (pG (sP s)) (z_x q)) B) /\
  after uf fill 1 s [] = Ok (s', tr') /\ zpull AY (mkV3 (g * sin 0) (g * cos 0) 0) (cloud (sP s) (sL s)) = 2 * g /\ length (cloud (sP s) (sL s)) = 2%nat.
Proof. exact x_C154_any. Qed.
