(** * One step and any number of steps: totality, confinement, momentum
    Statements only; the proofs are in ThmStep.v. *)
From Coq Require Import ZArith List Bool Arith Lia Reals Lra.
From Verif Require Import State NumR LibR LibList Spec SpecStep ModelGrid ModelConstit ModelParticle ModelMPList
  ModelIntegr ModelMain ProofsGrid ProofsMap ProofsP2G ProofsWalls ProofsLaws ProofsInOut ProofsHist Concrete
  ThmMapping ThmWalls ThmLaws ThmInOut ProofsStep.
Import ListNotations.
From Verif Require Import ThmStep.
Local Open Scope R_scope.

(** A step from a state whose particles are inside the domain, with the attributes
    that its laws read, raises no exception. *)
Theorem C58_step_total : forall uf fill s, ready s -> exists s', time_march uf fill s = Ok s'.
Proof. exact p_C58_step_total. Qed.
Print Assumptions C58_step_total.

Theorem C58_pass_total : forall uf fill s tr, ready s -> p_dynamic (sP s) = false ->
  p_tf (sP s) <> 0 -> p_savetime (sP s) <> 0 -> exists r, pass uf fill s tr = Ok r.
Proof. exact p_C58_pass_total. Qed.
Print Assumptions C58_pass_total.

(** Instance: C58_pass_total_example in PropsCasesStep.v. *)

(** A box with gravity: the hypotheses are met by a moving, stressed body. *)
Example C58_step_total_example : forall uf fill, exists s s', ready s /\ closed (pG (sP s)) (sG s) /\ time_march uf fill s = Ok s' /\
  pass uf fill s [] <> Err IndexError.
Proof. exact x_C58_step_total. Qed.

(** One step of a closed box that respects the CFL condition keeps every particle
    strictly inside, and the box closed. *)
Theorem C14_step : forall uf fill s s', proper (pG (sP s)) -> grid_ok (pG (sP s)) (sG s) ->
  p_seg (sP s) = false -> cyclic_lr (pB (sP s)) = false -> conveyor (pB (sP s)) = false ->
  outlet_left (pB (sP s)) = false -> outlet_bottom (pB (sP s)) = false ->
  inlet_right (pB (sP s)) = false -> inlet_top (pB (sP s)) = false ->
  (forall ph, In ph (sL s) -> s_law (ph_sol ph) <> Rigid) ->
  closed (pG (sP s)) (sG s) ->
  all_live (sL s) (fun _ p => inside (pG (sP s)) (px p)) ->
  time_march uf fill s = Ok s' -> cfl (p_dt (sP s)) (sP s) (sG s') ->
  all_live (sL s') (fun _ p => inside (pG (sP s)) (px p)) /\
  closed (pG (sP s)) (sG s') /\ grid_ok (pG (sP s)) (sG s').
Proof. exact p_C14_step. Qed.
Print Assumptions C14_step.

(** Instance: C14_step_example in PropsCasesStep.v. *)

(** However many steps are taken, every particle stays strictly inside. *)
Theorem C14_confined : forall uf fill s, boxed s -> cfl_held uf fill s ->
  forall s', reach uf fill s s' -> all_live (sL s') (fun _ p => inside (pG (sP s)) (px p)).
Proof. exact p_C14_confined. Qed.
Print Assumptions C14_confined.

(** Instance: C14_confined_example in PropsCasesStep.v. *)

(** A run in a closed box never raises an exception, whatever its length. *)
Theorem C14_never_aborts : forall uf fill s, boxed s -> runnable s -> cfl_held uf fill s ->
  (forall s' tr, reach uf fill s s' -> exists r, pass uf fill s' tr = Ok r) /\
  (forall fuel e, main_loop uf fill fuel s <> Some (Err e)).
Proof. exact p_C14_never_aborts. Qed.
Print Assumptions C14_never_aborts.

(** Instance: C14_never_aborts_example in PropsBalance.v. *)
