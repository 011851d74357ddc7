(** * Momentum balance of a step, rest and uniform motion
    Statements only; the proofs are in ThmBalance.v. *)
From Coq Require Import ZArith List Bool Arith Lia Reals Lra.
From Verif Require Import State NumR LibR LibList Spec SpecStep SpecLaws ModelGrid ModelConstit ModelParticle ModelMPList
  ModelIntegr ModelMain ProofsGrid ProofsMap ProofsP2G ProofsWalls ProofsLaws ProofsInOut ProofsHist Concrete
  ThmMapping ThmWalls ThmLaws ThmInOut ProofsStep ProofsPoints ThmStep.
Import ListNotations.
From Verif Require Import ThmBalance.
Local Open Scope R_scope.

(** In general the particles receive exactly the rates of the heavy nodes; what
    the other nodes hold is lost. *)
Theorem C08_exact : forall uf fill s s' a, proper (pG (sP s)) -> grid_ok (pG (sP s)) (sG s) ->
  all_live (sL s) (fun _ p => in_dom (pG (sP s)) (px p)) -> shut (sP s) ->
  (forall ph, In ph (sL s) -> s_law (ph_sol ph) <> Rigid /\ s_law (ph_sol ph) <> ElasticTime) ->
  own_velocities (sL s) -> 0 <= p_Mtol (sP s) ->
  time_march uf fill s = Ok s' ->
  momentum a (sL s') = momentum a (sL s) +
    p_dt (sP s) * fsum (nx (pG (sP s)) * ny (pG (sP s)))
      (fun k => if Rlt_dec (p_Mtol (sP s)) (nth k (gm (sG s')) 0) then comp a (nth k (gqd (sG s')) v0) else 0).
Proof. exact p_C08_exact. Qed.
Print Assumptions C08_exact.

(** Instance: C08_exact_example in PropsCasesStep.v. *)

(** With no walls and every corner of every occupied cell heavy: the change of
    momentum is dt times the body forces and surface loads, times 7/10 if damped. *)
Theorem C08_momentum_balance : forall uf fill s s' S0 a, proper (pG (sP s)) -> grid_ok (pG (sP s)) (sG s) ->
  all_live (sL s) (fun _ p => in_dom (pG (sP s)) (px p)) -> shut (sP s) ->
  (forall ph, In ph (sL s) -> s_law (ph_sol ph) <> Rigid /\ s_law (ph_sol ph) <> ElasticTime) ->
  own_velocities (sL s) -> 0 <= p_Mtol (sP s) ->
  wall_free (bv (sG s)) (bh (sG s)) -> no_rub (pB (sP s)) ->
  sol0 (sL s) = Ok S0 -> s_rho S0 <> 0 ->
  time_march uf fill s = Ok s' ->
  all_live (sL s) (fun _ p => forall r, (r < 4)%nat -> heavy (sP s) (sG s') (corner_node (pG (sP s)) (cell_node (pG (sP s)) (px p)) r)) ->
  momentum a (sL s') = momentum a (sL s) + p_dt (sP s) * (if p_damping (sP s) then 7/10 else 1) *
    (psum (sL s') (fun _ p => pm p * comp a (pb p)) + surface_load (sP s) (uf (sP s)) (s_rho S0) (sG s') a).
Proof. exact p_C08_momentum_balance. Qed.
Print Assumptions C08_momentum_balance.

(** Two moving, stressed elastic points under gravity and a vertical surface load. *)
Example C08_momentum_balance_example : forall uf fill, exists s s' S0, proper (pG (sP s)) /\ grid_ok (pG (sP s)) (sG s) /\
  all_live (sL s) (fun _ p => in_dom (pG (sP s)) (px p)) /\ shut (sP s) /\
  (forall ph, In ph (sL s) -> s_law (ph_sol ph) <> Rigid /\ s_law (ph_sol ph) <> ElasticTime) /\
  own_velocities (sL s) /\ 0 <= p_Mtol (sP s) /\ wall_free (bv (sG s)) (bh (sG s)) /\ no_rub (pB (sP s)) /\
  sol0 (sL s) = Ok S0 /\ s_rho S0 <> 0 /\ vertical_force (pB (sP s)) = true /\ time_march uf fill s = Ok s' /\
  all_live (sL s) (fun _ p => forall r, (r < 4)%nat -> heavy (sP s) (sG s') (corner_node (pG (sP s)) (cell_node (pG (sP s)) (px p)) r)).
Proof. exact x_C08_momentum_balance. Qed.

(** Uniform motion: with every corner of every occupied cell heavy, a step
    translates each particle by [dt c] and changes no velocity and no stress. *)
Theorem C55_uniform_motion : forall uf fill s s' c, proper (pG (sP s)) -> grid_ok (pG (sP s)) (sG s) ->
  all_live (sL s) (fun _ p => in_dom (pG (sP s)) (px p)) -> shut (sP s) -> no_rub (pB (sP s)) ->
  0 <= p_Mtol (sP s) -> (forall ph, In ph (sL s) -> s_law (ph_sol ph) = Elastic) ->
  drifting c (sL s) -> unloaded (sP s) (uf (sP s)) -> wall_free (bv (sG s)) (bh (sG s)) ->
  time_march uf fill s = Ok s' ->
  all_live (sL s) (fun _ p => forall r, (r < 4)%nat -> heavy (sP s) (sG s') (corner_node (pG (sP s)) (cell_node (pG (sP s)) (px p)) r)) ->
  Prel (fun _ p p' => px p' = vadd (px p) (vscale (p_dt (sP s)) c) /\ pv p' = Own c /\ pstress p' = m0 /\ pb p' = v0 /\ pm p' = pm p) (sL s) (sL s').
Proof. exact p_C55_uniform_motion. Qed.
Print Assumptions C55_uniform_motion.

(** A body at rest, whatever the walls and however light the nodes, is left alone. *)
Theorem C59_step : forall uf fill s s', proper (pG (sP s)) -> grid_ok (pG (sP s)) (sG s) ->
  all_live (sL s) (fun _ p => in_dom (pG (sP s)) (px p)) -> shut (sP s) -> no_rub (pB (sP s)) ->
  0 <= p_Mtol (sP s) -> (forall ph, In ph (sL s) -> s_law (ph_sol ph) = Elastic) ->
  drifting v0 (sL s) -> unloaded (sP s) (uf (sP s)) ->
  time_march uf fill s = Ok s' ->
  Prel (fun _ p p' => px p' = px p /\ pv p' = Own v0 /\ pstress p' = m0 /\ pb p' = v0 /\ pm p' = pm p) (sL s) (sL s').
Proof. exact p_C59_step. Qed.
Print Assumptions C59_step.

(** Instance: C59_step_example in PropsCasesStep.v. *)

(** However many steps are taken. *)
Theorem C59_history : forall uf fill s, proper (pG (sP s)) -> grid_ok (pG (sP s)) (sG s) ->
  all_live (sL s) (fun _ p => in_dom (pG (sP s)) (px p)) -> shut (sP s) -> no_rub (pB (sP s)) ->
  0 <= p_Mtol (sP s) -> (forall ph, In ph (sL s) -> s_law (ph_sol ph) = Elastic) ->
  drifting v0 (sL s) -> (forall P, unloaded (sP s) (uf P)) ->
  forall s', reach uf fill s s' ->
  Prel (fun _ p p' => px p' = px p /\ pv p' = Own v0 /\ pstress p' = m0 /\ pm p' = pm p) (sL s) (sL s') /\
  grid_ok (pG (sP s)) (sG s').
Proof. exact p_C59_history. Qed.
Print Assumptions C59_history.

Example C55_uniform_motion_example : forall fill c, exists s s', proper (pG (sP s)) /\ grid_ok (pG (sP s)) (sG s) /\
  all_live (sL s) (fun _ p => in_dom (pG (sP s)) (px p)) /\ shut (sP s) /\ no_rub (pB (sP s)) /\ 0 <= p_Mtol (sP s) /\
  (forall ph, In ph (sL s) -> s_law (ph_sol ph) = Elastic) /\ drifting c (sL s) /\ unloaded (sP s) (no_loads (sP s)) /\
  wall_free (bv (sG s)) (bh (sG s)) /\ time_march no_loads fill s = Ok s' /\ (length (concat (map live (sL s))) = 2)%nat /\
  all_live (sL s) (fun _ p => forall r, (r < 4)%nat -> heavy (sP s) (sG s') (corner_node (pG (sP s)) (cell_node (pG (sP s)) (px p)) r)).
Proof. exact x_C55_uniform_motion. Qed.

Example C14_never_aborts_example : forall fill, exists s, boxed s /\ runnable s /\ cfl_held no_loads fill s /\
  (length (concat (map live (sL s))) = 2)%nat.
Proof. exact x_C14_never_aborts. Qed.

Example C59_history_example : forall fill, exists s s', drifting v0 (sL s) /\ closed (pG (sP s)) (sG s) /\ reach no_loads fill s s' /\ s' <> s.
Proof. exact x_C59_history. Qed.
