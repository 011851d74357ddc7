(** * Moments and work: C60, C61.
    Statements only; the proofs are in ThmEnergy.v. *)
From Coq Require Import ZArith Reals List Bool Arith Lra Lia.
From Verif Require Import State NumR Spec SpecLaws SpecStep LibList LibR ModelGrid ModelConstit ModelParticle ModelMPList
  ModelIntegr ModelMain ProofsGrid ProofsMap ProofsP2G ProofsWalls ProofsLaws ProofsInOut ProofsHist Concrete
  ThmMapping ThmWalls ThmLaws ThmInOut ThmHist ProofsStep ProofsPoints ThmStep ThmBalance.
Import ListNotations.
From Verif Require Import ThmEnergy.
Local Open Scope R_scope.

(** The centre of mass of the nodes is that of the particles. *)
Theorem C60_centre_of_mass : forall P G L L1 L2 G',
  proper (pG P) -> grid_ok (pG P) G -> all_live L (fun _ p => in_dom (pG P) (px p)) ->
  ref_nodes P G L = Ok L1 -> basis_all G L1 = Ok L2 -> p2g_all P L2 (wipe P G) = Ok G' ->
  fsum (nodes (pG P)) (fun k => node_x (pG P) k * nth k (gm G') 0) = psum L (fun _ p => pm p * vx (px p)) /\
  fsum (nodes (pG P)) (fun k => node_y (pG P) k * nth k (gm G') 0) = psum L (fun _ p => pm p * vy (px p)).
Proof. exact p_C60_centre_of_mass. Qed.
Print Assumptions C60_centre_of_mass.

(** With no wall node the angular momentum of the nodes is that of the particles. *)
Theorem C60_angular_momentum : forall P G L L1 L2 G',
  proper (pG P) -> grid_ok (pG P) G -> all_live L (fun _ p => in_dom (pG P) (px p)) ->
  wall_free (bv G) (bh G) ->
  ref_nodes P G L = Ok L1 -> basis_all G L1 = Ok L2 -> p2g_all P L2 (wipe P G) = Ok G' ->
  fsum (nodes (pG P)) (fun k => node_x (pG P) k * vy (nth k (gq G') v0) - node_y (pG P) k * vx (nth k (gq G') v0)) =
  psum L (fun ph p => pm p * (vx (px p) * vy (velocity ph p) - vy (px p) * vx (velocity ph p))).
Proof. exact p_C60_angular_momentum. Qed.
Print Assumptions C60_angular_momentum.

(** Two particles of mass 2 at different places, no wall: the hypotheses hold
    and the first moment is not zero. *)
Example C60_centre_of_mass_example : exists (G : grid R) L1 L2 G',
  proper (pG (ex_params (T := R) ex_bounds)) /\ grid_ok (pG (ex_params ex_bounds)) G /\
  all_live (ex_L Elastic) (fun _ p => in_dom (pG (ex_params ex_bounds)) (px p)) /\
  ref_nodes (ex_params ex_bounds) G (ex_L Elastic) = Ok L1 /\ basis_all G L1 = Ok L2 /\
  p2g_all (ex_params ex_bounds) L2 (wipe (ex_params ex_bounds) G) = Ok G' /\
  psum (ex_L Elastic) (fun _ p => pm p * vx (px p)) = 4.
Proof. exact x_C60_centre_of_mass. Qed.

Example C60_angular_momentum_example : exists (G : grid R) L1 L2 G',
  proper (pG (ex_params (T := R) ex_bounds)) /\ grid_ok (pG (ex_params ex_bounds)) G /\
  all_live (ex_L Elastic) (fun _ p => in_dom (pG (ex_params ex_bounds)) (px p)) /\ wall_free (bv G) (bh G) /\
  ref_nodes (ex_params ex_bounds) G (ex_L Elastic) = Ok L1 /\ basis_all G L1 = Ok L2 /\
  p2g_all (ex_params ex_bounds) L2 (wipe (ex_params ex_bounds) G) = Ok G' /\
  psum (ex_L Elastic) (fun ph p => pm p * (vx (px p) * vy (velocity ph p) - vy (px p) * vx (velocity ph p))) = -4.
Proof. exact x_C60_angular_momentum. Qed.

(** In one step the internal nodal forces do, on the nodal velocities with
    which the points were strained, exactly the work of the new stresses on the
    strain increments. *)
Theorem C61_internal_work : forall uf fill (s s' : state R), proper (pG (sP s)) -> grid_ok (pG (sP s)) (sG s) ->
  all_live (sL s) (fun _ p => in_dom (pG (sP s)) (px p)) -> shut (sP s) -> counted (sL s) ->
  (forall ph p, In ph (sL s) -> In p (ph_pts ph) -> all_sym p) ->
  time_march uf fill s = Ok s' ->
  p_dt (sP s) * fsum (nodes (pG (sP s))) (fun k => sum3 (fun a => old_v (sP s) (sG s') a k * comp a (nth k (gfi (sG s')) v0))) =
  psum (sL s') (fun _ p => pV p * inner (pstress p) (pdstrain p)).
Proof. exact p_C61_internal_work. Qed.
Print Assumptions C61_internal_work.

(** Energy balance of the momentum update, walls included: the kinetic energy
    of the nodes grows by the work of the external forces, less the stress work,
    both scaled by the damping factor, plus a second-order term that is never
    negative.  Damping therefore scales the work and dissipates nothing itself. *)
Theorem C61_energy_balance : forall uf fill (s s' : state R), proper (pG (sP s)) -> grid_ok (pG (sP s)) (sG s) ->
  all_live (sL s) (fun _ p => in_dom (pG (sP s)) (px p)) -> shut (sP s) -> counted (sL s) ->
  (forall ph p, In ph (sL s) -> In p (ph_pts ph) -> all_sym p) -> no_rub (pB (sP s)) -> 0 <= p_Mtol (sP s) ->
  time_march uf fill s = Ok s' ->
  let P := sP s in let G := sG s' in
  let q := fun k a => comp a (nth k (gq G) v0) in let f := fun k a => comp a (nth k (gqd G) v0) in
  fsum (nodes (pG P)) (fun k => kin P G (q k) k - kin P G (fun a => q k a - p_dt P * f k a) k) =
  (if p_damping P then 7/10 else 1) *
    (p_dt P * fsum (nodes (pG P)) (fun k => sum3 (fun a => old_v P G a k * comp a (nth k (gfe G) v0)))
     - psum (sL s') (fun _ p => pV p * inner (pstress p) (pdstrain p))) +
  p_dt P * p_dt P * fsum (nodes (pG P)) (fun k => kin P G (f k) k).
Proof. exact p_C61_energy_balance. Qed.
Print Assumptions C61_energy_balance.

Example C61_internal_work_example : forall uf fill, exists s s' : state R, proper (pG (sP s)) /\ grid_ok (pG (sP s)) (sG s) /\
  all_live (sL s) (fun _ p => in_dom (pG (sP s)) (px p)) /\ shut (sP s) /\ counted (sL s) /\
  (forall ph p, In ph (sL s) -> In p (ph_pts ph) -> all_sym p) /\ no_rub (pB (sP s)) /\ 0 <= p_Mtol (sP s) /\
  time_march uf fill s = Ok s' /\ has_bottom (pB (sP s)) = true /\ xy (pstress (T := R) ex_p1) = 2.
Proof. exact x_C61_internal_work. Qed.

Example C61_energy_balance_example : forall uf fill, exists s s' : state R, proper (pG (sP s)) /\ grid_ok (pG (sP s)) (sG s) /\
  all_live (sL s) (fun _ p => in_dom (pG (sP s)) (px p)) /\ shut (sP s) /\ counted (sL s) /\
  (forall ph p, In ph (sL s) -> In p (ph_pts ph) -> all_sym p) /\ no_rub (pB (sP s)) /\ 0 <= p_Mtol (sP s) /\
  time_march uf fill s = Ok s' /\ has_bottom (pB (sP s)) = true /\ xy (pstress (T := R) ex_p1) = 2.
Proof. exact x_C61_energy_balance. Qed.
