(** * A step is exact for affine fields on a filled grid: C101.
    Statements only; the proofs are in ThmAffine.v. *)
From Coq Require Import ZArith Reals List Bool Arith Lra Lia.
From Verif Require Import State NumR Spec SpecLaws SpecStep SpecScheme LibList LibR ModelGrid ModelInputs ModelConstit ModelParticle ModelMPList
  ModelIntegr ModelMain ProofsGrid ProofsMap ProofsP2G ProofsWalls ProofsLaws ProofsInOut ProofsHist Concrete
  ThmMapping ThmWalls ThmLaws ThmInOut ThmHist ProofsStep ProofsPoints ThmStep ThmBalance ThmEnergy ThmFall ThmGeo ProofsScheme ThmScheme
  ThmDensity ProofsFill ThmFill ProofsAffine.
Import ListNotations.
From Verif Require Import ThmAffine.
Local Open Scope R_scope.

(** A grid filled with points, any number per cell, whose velocity, stress and pressure are affine functions of the
    place.  After a step, the stress of every point one cell or more inside is what the law of the material gives for
    the exact strain of the velocity field; the velocity of every point two cells or more inside has changed by
    [dt (b + div s / rho)] with [s] the new stress, and the point has moved by [dt] times its new velocity.  No error
    of the grid, of the number of points or of the weights remains. *)
Theorem C101_step : forall uf fill (s s' : state R) c rows mat rho V F b first,
  proper (pG (sP s)) -> grid_init (pG (sP s)) (pB (sP s)) = Ok (sG s) -> ThmWalls.plain (pB (sP s)) -> shut (sP s) -> no_rub (pB (sP s)) ->
  simple_laws (sL s) -> own_velocities (sL s) -> no_surface (sP s) (uf (sP s)) ->
  (1 <= c)%nat -> (1 <= rows <= ny (pG (sP s)) - 1)%nat -> 0 < rho -> 0 < V -> p_Mtol (sP s) < rho * V * (INR c * INR c) ->
  bodies (sL s) = map (drawn mat rho V F b first) (layer (pG (sP s)) c rows (INR (ny (pG (sP s)) - 1 - rows) * cell_h (pG (sP s)))) ->
  time_march uf fill s = Ok s' ->
  let g := uf (sP s) in
  let force := if first then mkV3 (ld_g g * sin (ld_theta g)) (ld_g g * cos (ld_theta g)) 0 else b in
  Forall2 (fun q q' =>
    (deep (pG (sP s)) rows 1 (q_x q) -> q_s q' = t_stress (scheme_of (sP s) g (sG s)) q (strain_of F (p_dt (sP s)))) /\
    (deep (pG (sP s)) rows 2 (q_x q) -> forall a,
       comp a (q_v q') = comp a (q_v q) + p_dt (sP s) * ((if p_damping (sP s) then 7/10 else 1) *
         (comp a force + divergence mat F (p_dt (sP s)) a / rho)) /\
       comp a (q_x q') = comp a (q_x q) + p_dt (sP s) * comp a (q_v q'))) (bodies (sL s)) (bodies (sL s')).
Proof. exact p_C101_step. Qed.
Print Assumptions C101_step.

(** The patch test: with a uniform stress and pressure, whatever the strain of the flow, the points inside feel gravity
    and nothing else. *)
Theorem C101_patch : forall uf fill (s s' : state R) c rows mat rho V F b first,
  proper (pG (sP s)) -> grid_init (pG (sP s)) (pB (sP s)) = Ok (sG s) -> ThmWalls.plain (pB (sP s)) -> shut (sP s) -> no_rub (pB (sP s)) ->
  simple_laws (sL s) -> own_velocities (sL s) -> no_surface (sP s) (uf (sP s)) ->
  (1 <= c)%nat -> (1 <= rows <= ny (pG (sP s)) - 1)%nat -> 0 < rho -> 0 < V -> p_Mtol (sP s) < rho * V * (INR c * INR c) ->
  bodies (sL s) = map (drawn mat rho V F b first) (layer (pG (sP s)) c rows (INR (ny (pG (sP s)) - 1 - rows) * cell_h (pG (sP s)))) ->
  (forall a d, f_sx F a d = 0 /\ f_sy F a d = 0) -> f_px F = 0 -> f_py F = 0 ->
  time_march uf fill s = Ok s' ->
  let g := uf (sP s) in
  let force := if first then mkV3 (ld_g g * sin (ld_theta g)) (ld_g g * cos (ld_theta g)) 0 else b in
  Forall2 (fun q q' => deep (pG (sP s)) rows 2 (q_x q) -> forall a,
    comp a (q_v q') = comp a (q_v q) + p_dt (sP s) * ((if p_damping (sP s) then 7/10 else 1) * comp a force)) (bodies (sL s)) (bodies (sL s')).
Proof. exact p_C101_patch. Qed.
Print Assumptions C101_patch.

(** Instance: C101_patch_example in PropsCasesAff.v. *)

Example C101_step_example : forall fill, exists (s s' : state R) c rows mat rho V F b first,
  proper (pG (sP s)) /\ grid_init (pG (sP s)) (pB (sP s)) = Ok (sG s) /\ ThmWalls.plain (pB (sP s)) /\ shut (sP s) /\ no_rub (pB (sP s)) /\
  simple_laws (sL s) /\ own_velocities (sL s) /\ no_surface (sP s) (fall_loads (sP s)) /\
  (1 <= c)%nat /\ (1 <= rows <= ny (pG (sP s)) - 1)%nat /\ 0 < rho /\ 0 < V /\ p_Mtol (sP s) < rho * V * (INR c * INR c) /\
  bodies (sL s) = map (drawn mat rho V F b first) (layer (pG (sP s)) c rows (INR (ny (pG (sP s)) - 1 - rows) * cell_h (pG (sP s)))) /\
  time_march fall_loads fill s = Ok s' /\ (exists q, In q (bodies (sL s)) /\ deep (pG (sP s)) rows 2 (q_x q)) /\
  divergence mat F (p_dt (sP s)) AX = 1 /\ divergence mat F (p_dt (sP s)) AY = - p_dt (sP s) * 2.
Proof. exact x_C101_step. Qed.
