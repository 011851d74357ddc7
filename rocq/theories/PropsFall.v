(** * Free fall: C62.
    Statements only; the proofs are in ThmFall.v. *)
From Coq Require Import ZArith Reals List Bool Arith Lra Lia.
From Verif Require Import State NumR Spec SpecLaws SpecStep LibList LibR ModelGrid ModelConstit ModelParticle ModelMPList
  ModelIntegr ModelMain ProofsGrid ProofsMap ProofsP2G ProofsWalls ProofsLaws ProofsInOut ProofsHist Concrete
  ThmMapping ThmWalls ThmLaws ThmInOut ThmHist ProofsStep ProofsPoints ThmStep ThmBalance ThmEnergy.
Import ListNotations.
From Verif Require Import ThmFall.
Local Open Scope R_scope.

(** A stress-free elastic body whose points all move with velocity [c]: in one
    step every point gains [dt g] (seven tenths of it with P.damping) and moves
    with the new velocity; no stress develops. *)
Theorem C62_free_fall : forall uf fill (s s' : state R) c, proper (pG (sP s)) -> grid_ok (pG (sP s)) (sG s) ->
  all_live (sL s) (fun _ p => in_dom (pG (sP s)) (px p)) -> shut (sP s) -> no_rub (pB (sP s)) -> 0 <= p_Mtol (sP s) ->
  (exists ph, sL s = [ph] /\ s_law (ph_sol ph) = Elastic) ->
  all_live (sL s) (fun _ p => pv p = Own c /\ pstress p = m0) -> no_surface (sP s) (uf (sP s)) ->
  wall_free (bv (sG s)) (bh (sG s)) -> time_march uf fill s = Ok s' ->
  all_live (sL s) (fun _ p => forall r, (r < 4)%nat -> heavy (sP s) (sG s') (corner_node (pG (sP s)) (cell_node (pG (sP s)) (px p)) r)) ->
  let g := mkV3 (ld_g (uf (sP s)) * sin (ld_theta (uf (sP s)))) (ld_g (uf (sP s)) * cos (ld_theta (uf (sP s)))) 0 in
  let c' := vadd c (vscale (p_dt (sP s)) (vscale (if p_damping (sP s) then 7/10 else 1) g)) in
  Prel (fun _ p p' => px p' = vadd (px p) (vscale (p_dt (sP s)) c') /\ pv p' = Own c' /\ pstress p' = m0 /\ pm p' = pm p) (sL s) (sL s').
Proof. exact p_C62_free_fall. Qed.
Print Assumptions C62_free_fall.

Example C62_free_fall_example : forall fill c d, exists s s' : state R, proper (pG (sP s)) /\ grid_ok (pG (sP s)) (sG s) /\
  all_live (sL s) (fun _ p => in_dom (pG (sP s)) (px p)) /\ shut (sP s) /\ no_rub (pB (sP s)) /\ 0 <= p_Mtol (sP s) /\
  (exists ph, sL s = [ph] /\ s_law (ph_sol ph) = Elastic) /\
  all_live (sL s) (fun _ p => pv p = Own c /\ pstress p = m0) /\ no_surface (sP s) (fall_loads (sP s)) /\
  wall_free (bv (sG s)) (bh (sG s)) /\ time_march fall_loads fill s = Ok s' /\ p_damping (sP s) = d /\ ld_g (fall_loads (sP s)) = -10 /\
  all_live (sL s) (fun _ p => forall r, (r < 4)%nat -> heavy (sP s) (sG s') (corner_node (pG (sP s)) (cell_node (pG (sP s)) (px p)) r)).
Proof. exact x_C62_free_fall. Qed.

(** P.damping is meant to take energy out of the motion.  A body in uniform
    motion, however fast, is not slowed at all by it. *)
Theorem C63_damping_refuted : forall fill c, exists s s' : state R, p_damping (sP s) = true /\
  time_march no_loads fill s = Ok s' /\ (length (concat (map live (sL s))) = 2)%nat /\
  Prel (fun _ p p' => pv p = Own c /\ pv p' = Own c /\ pm p' = pm p /\ 0 < pm p) (sL s) (sL s').
Proof. exact p_C63_damping_refuted. Qed.
Print Assumptions C63_damping_refuted.
