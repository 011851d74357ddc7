(** * Domains filled by the input scripts start with the declared density: C94
    Statements only; the proofs are in ThmFill.v. *)
From Coq Require Import ZArith Reals List Bool Arith Lra Lia.
From Verif Require Import State NumR Spec SpecLaws SpecStep SpecScheme SpecRing LibList LibR ModelGrid ModelInputs ModelConstit ModelParticle ModelMPList
  ModelIntegr ModelMain ProofsGrid ProofsMap ProofsP2G ProofsWalls ProofsLaws ProofsInOut ProofsHist Concrete
  ThmMapping ThmWalls ThmLaws ThmInOut ThmHist ProofsStep ProofsPoints ThmStep ThmBalance ThmEnergy ThmFall ThmGeo ProofsScheme ThmScheme
  ThmDensity ProofsRing ThmRing ProofsFill.
Import ListNotations.
From Verif Require Import ThmFill.
Local Open Scope R_scope.

(** [c] points per cell and direction in every cell, each with the whole area
    divided by the number of points or with the area of a cell divided by [c^2]:
    every node gets exactly the declared density times its volume, on a domain
    with open ends or joined ones.  The points lie inside the domain. *)
Theorem C94_uniform : forall uf fill (P : params R) (G : grid R) c So sv L (s' : state R),
  proper (pG P) -> grid_init (pG P) (pB P) = Ok G -> p_seg P = false -> (1 <= c)%nat ->
  let places_of := layer (pG P) c (ny (pG P) - 1) 0 in
  s_A So = share (pG P) (length places_of) \/ s_A So = cell_share (pG P) c ->
  mplist_init P [(So, sv, places places_of)] = Ok L -> time_march uf fill (mkState P G L) = Ok s' ->
  length places_of = ((ny (pG P) - 1) * c * ((nx (pG P) - 1) * c))%nat /\
  all_live L (fun _ p => inside (pG P) (px p)) /\
  forall k, (k < nodes (pG P))%nat -> nth k (gm (sG s')) 0 = s_rho So * nth k (gV (sG s')) 0.
Proof. exact p_C94_uniform. Qed.
Print Assumptions C94_uniform.

(** A layer of [rows] rows of cells below empty ones (bi_conveyor, francois):
    the declared density below its surface, half of it at the nodes of the
    surface, whose cells are half empty, and no mass above. *)
Theorem C94_layer : forall uf fill (P : params R) (G : grid R) c rows So sv L (s' : state R),
  proper (pG P) -> grid_init (pG P) (pB P) = Ok G -> p_seg P = false -> (1 <= c)%nat -> (1 <= rows < ny (pG P) - 1)%nat ->
  s_A So = cell_share (pG P) c ->
  mplist_init P [(So, sv, places (layer (pG P) c rows (INR (ny (pG P) - 1 - rows) * cell_h (pG P))))] = Ok L -> time_march uf fill (mkState P G L) = Ok s' ->
  forall k, (k < nodes (pG P))%nat -> nth k (gm (sG s')) 0 =
    (if Nat.ltb (row (pG P) k) rows then s_rho So * nth k (gV (sG s')) 0
     else if Nat.eqb (row (pG P) k) rows then s_rho So * nth k (gV (sG s')) 0 / 2 else 0).
Proof. exact p_C94_layer. Qed.
Print Assumptions C94_layer.

(** Instance: C94_layer_example in PropsCasesMore.v. *)

(** The density the points get in that step is the declared one too (closed
    ends, and no node below the mass tolerance). *)
Theorem C94_points : forall uf fill (P : params R) (G : grid R) c So sv L (s' : state R),
  proper (pG P) -> grid_init (pG P) (pB P) = Ok G -> shut P -> (1 <= c)%nat -> 0 < thickness (pG P) -> s_law So <> Rigid ->
  (forall k, (k < nodes (pG P))%nat -> p_Mtol P < s_rho So * nth k (gV G) 0) ->
  let places_of := layer (pG P) c (ny (pG P) - 1) 0 in
  s_A So = share (pG P) (length places_of) \/ s_A So = cell_share (pG P) c ->
  mplist_init P [(So, sv, places places_of)] = Ok L -> time_march uf fill (mkState P G L) = Ok s' ->
  all_live (sL s') (fun _ p => prho p = s_rho So).
Proof. exact p_C94_points. Qed.
Print Assumptions C94_points.

(** inputs/incline.py fills all rows of cells but the topmost and shares the
    area of the whole domain between the points: the material starts too dense,
    by the ratio of all rows to the filled ones. *)
Theorem C95_incline : forall uf fill (P : params R) (G : grid R) c So sv L (s' : state R),
  proper (pG P) -> grid_init (pG P) (pB P) = Ok G -> p_seg P = false -> (1 <= c)%nat -> (3 <= ny (pG P))%nat ->
  let places_of := layer (pG P) c (ny (pG P) - 2) (in_dy (pG P)) in
  s_A So = share (pG P) (length places_of) ->
  mplist_init P [(So, sv, places places_of)] = Ok L -> time_march uf fill (mkState P G L) = Ok s' ->
  forall k, (k < nodes (pG P))%nat -> (row (pG P) k < ny (pG P) - 2)%nat ->
  nth k (gm (sG s')) 0 = s_rho So * ((INR (ny (pG P)) - 1) / (INR (ny (pG P)) - 2)) * nth k (gV (sG s')) 0.
Proof. exact p_C95_incline. Qed.
Print Assumptions C95_incline.

(** inputs/chuteflow.py fills the whole domain and shares half of its area: the
    material starts with half the declared density. *)
Theorem C95_chuteflow : forall uf fill (P : params R) (G : grid R) c So sv L (s' : state R),
  proper (pG P) -> grid_init (pG P) (pB P) = Ok G -> p_seg P = false -> (1 <= c)%nat ->
  let places_of := layer (pG P) c (ny (pG P) - 1) 0 in
  s_A So = half_share (pG P) (length places_of) ->
  mplist_init P [(So, sv, places places_of)] = Ok L -> time_march uf fill (mkState P G L) = Ok s' ->
  forall k, (k < nodes (pG P))%nat -> nth k (gm (sG s')) 0 = s_rho So / 2 * nth k (gV (sG s')) 0.
Proof. exact p_C95_chuteflow. Qed.
Print Assumptions C95_chuteflow.

(** Twelve rows of cells are not needed: two rows of three cells with nine points each. *)
Example C94_uniform_example : exists (G : grid R) L (s' : state R), let P := ex_params ex_box in let l := layer ex_gridp 3 (ny ex_gridp - 1) 0 in
  let So := fill_solid (share ex_gridp (length l)) in
  proper (pG P) /\ grid_init (pG P) (pB P) = Ok G /\ p_seg P = false /\ s_A So = share (pG P) (length l) /\ length l = 54%nat /\
  mplist_init P [(So, v0, places l)] = Ok L /\ time_march (fun _ => mkLoads (-1) 0 0 0) (fun _ l => l) (mkState P G L) = Ok s' /\
  nth 0 (gm (sG s')) 0 = 1/2 /\ nth 5 (gm (sG s')) 0 = 2.
Proof. exact x_C94_uniform. Qed.

Example C94_points_example : exists (G : grid R) L (s' : state R), let P := ex_params ex_box in let l := layer ex_gridp 3 (ny ex_gridp - 1) 0 in
  let So := fill_solid (share ex_gridp (length l)) in
  proper (pG P) /\ grid_init (pG P) (pB P) = Ok G /\ shut P /\ 0 < thickness (pG P) /\ s_law So <> Rigid /\
  (forall k, (k < nodes (pG P))%nat -> p_Mtol P < s_rho So * nth k (gV G) 0) /\
  mplist_init P [(So, v0, places l)] = Ok L /\ time_march (fun _ => mkLoads (-1) 0 0 0) (fun _ l => l) (mkState P G L) = Ok s'.
Proof. exact x_C94_points. Qed.

(** The file's own case is 3 points per cell; one row of cells out of two is
    filled here, so that the density doubles. *)
Theorem C95_refuted : exists uf fill (P : params R) (G : grid R) c So sv L (s' : state R),
  proper (pG P) /\ grid_init (pG P) (pB P) = Ok G /\ p_seg P = false /\ c = 3%nat /\ ny (pG P) = 3%nat /\
  s_A So = share (pG P) (length (layer (pG P) c (ny (pG P) - 2) (in_dy (pG P)))) /\
  mplist_init P [(So, sv, places (layer (pG P) c (ny (pG P) - 2) (in_dy (pG P))))] = Ok L /\ time_march uf fill (mkState P G L) = Ok s' /\
  0 < s_rho So * nth 0 (gV (sG s')) 0 /\ nth 0 (gm (sG s')) 0 = 2 * (s_rho So * nth 0 (gV (sG s')) 0).
Proof. exact p_C95_refuted. Qed.
Print Assumptions C95_refuted.

Example C95_chuteflow_example : exists (G : grid R) L (s' : state R), let P := ex_params ex_box in let l := layer ex_gridp 3 (ny ex_gridp - 1) 0 in
  let So := fill_solid (half_share ex_gridp (length l)) in
  proper (pG P) /\ grid_init (pG P) (pB P) = Ok G /\ p_seg P = false /\ s_A So = half_share (pG P) (length l) /\
  mplist_init P [(So, v0, places l)] = Ok L /\ time_march (fun _ => mkLoads (-1) 0 0 0) (fun _ l => l) (mkState P G L) = Ok s'.
Proof. exact x_C95_chuteflow. Qed.
