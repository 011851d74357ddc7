(** * A run is a run of the textbook scheme: C84.
    Statements only; the proofs are in ThmScheme.v. *)
From Coq Require Import ZArith Reals List Bool Arith Lra Lia.
From Verif Require Import State NumR Spec SpecLaws SpecStep SpecScheme LibList LibR ModelGrid ModelConstit ModelParticle ModelMPList
  ModelIntegr ModelMain ProofsGrid ProofsMap ProofsP2G ProofsWalls ProofsLaws ProofsInOut ProofsHist Concrete
  ThmMapping ThmWalls ThmLaws ThmInOut ThmHist ProofsStep ProofsPoints ThmStep ThmBalance ThmEnergy ThmFall ThmGeo ProofsScheme.
Import ListNotations.
From Verif Require Import ThmScheme.
Local Open Scope R_scope.

(** One step of the code is one step of the scheme: the points of the new state are exactly what the scheme of
    SpecScheme.v gives for the points of the old one. *)
Theorem C84_step : forall uf fill (s s' : state R), proper (pG (sP s)) -> grid_ok (pG (sP s)) (sG s) ->
  all_live (sL s) (fun _ p => in_dom (pG (sP s)) (px p)) -> shut (sP s) -> no_rub (pB (sP s)) ->
  simple_laws (sL s) -> own_velocities (sL s) -> no_surface (sP s) (uf (sP s)) ->
  time_march uf fill s = Ok s' ->
  bodies (sL s') = t_step (scheme_of (sP s) (uf (sP s)) (sG s)) (bodies (sL s)).
Proof. exact p_C84_step. Qed.
Print Assumptions C84_step.

(** A moving, stressed body in a box, under gravity. *)
Example C84_step_example : forall uf fill, exists s s' : state R, proper (pG (sP s)) /\ grid_ok (pG (sP s)) (sG s) /\
  all_live (sL s) (fun _ p => in_dom (pG (sP s)) (px p)) /\ shut (sP s) /\ no_rub (pB (sP s)) /\
  simple_laws (sL s) /\ own_velocities (sL s) /\ no_surface (sP s) (uf (sP s)) /\
  closed (pG (sP s)) (sG s) /\ (length (bodies (sL s)) = 2)%nat /\ ~ all_live (sL s) (fun _ p => pstress p = m0) /\ time_march uf fill s = Ok s'.
Proof. exact x_C84_step. Qed.

(** A run of [n] steps with a fixed time step never fails as long as the scheme, run on its own, keeps its points in the
    domain; and then its points are those of the scheme after [n] steps. *)
Theorem C84_run : forall uf fill n (s : state R) tr, plain s -> (forall P, no_surface (sP s) (uf P)) ->
  (forall j, (j < n)%nat -> Forall (fun q => in_dom (pG (sP s)) (q_x q) /\ (p_check (sP s) = true -> vz (q_x q) = 0))
                                  (t_run uf j (sP s) (sG s) (bodies (sL s)))) ->
  exists s' tr', after uf fill n s tr = Ok (s', tr') /\ sP s' = clock uf n (sP s) /\
  bodies (sL s') = t_run uf n (sP s) (sG s) (bodies (sL s)).
Proof. exact p_C84_run. Qed.
Print Assumptions C84_run.

(** Two steps of free fall under a tilted gravity. *)
Example C84_run_example : forall fill, exists s : state R, plain s /\ (forall P, no_surface (sP s) (fall_loads P)) /\
  (forall j, (j < 2)%nat -> Forall (fun q => in_dom (pG (sP s)) (q_x q) /\ (p_check (sP s) = true -> vz (q_x q) = 0))
                                  (t_run fall_loads j (sP s) (sG s) (bodies (sL s)))) /\
  (length (bodies (sL s)) = 2)%nat /\ exists r, after fall_loads fill 2 s [] = Ok r.
Proof. exact x_C84_run. Qed.
