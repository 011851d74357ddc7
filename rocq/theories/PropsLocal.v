(** * Runs with any of eight materials, intruders, loads and belts compute the material point scheme: C102.
    Statements only; the proofs are in ThmLocal.v. *)
From Coq Require Import ZArith Reals List Bool Arith Lra Lia.
From Verif Require Import State NumR Spec SpecLaws SpecStep SpecScheme SpecLocal LibList LibR ModelGrid ModelConstit ModelParticle ModelMPList
  ModelIntegr ModelMain ProofsGrid ProofsMap ProofsP2G ProofsWalls ProofsLaws ProofsInOut ProofsHist Concrete
  ThmMapping ThmWalls ThmLaws ThmInOut ThmHist ProofsStep ProofsPoints ThmStep ThmBalance ThmEnergy ThmFall ThmGeo ProofsScheme ThmScheme ProofsLocal.
Import ListNotations.
From Verif Require Import ThmLocal.
Local Open Scope R_scope.

(** One step of the code is one step of the scheme of SpecLocal.v. *)
Theorem C102_step : forall uf fill (s s' : state R) S0, proper (pG (sP s)) -> grid_ok (pG (sP s)) (sG s) ->
  all_live (sL s) (fun _ p => in_dom (pG (sP s)) (px p)) -> sealed (sP s) -> no_rub (pB (sP s)) ->
  covered (sL s) -> own_velocities (sL s) -> 0 < p_dt (sP s) -> 0 <= p_Mtol (sP s) -> sol0 (sL s) = Ok S0 ->
  time_march uf fill s = Ok s' ->
  cloud (sP s) (sL s') = z_step (ambient_of (sP s) (s_rho S0) (uf (sP s)) (sG s)) (cloud (sP s) (sL s)).
Proof. exact p_C102_step. Qed.
Print Assumptions C102_step.

(** Instance: C102_step_example in PropsCasesRun.v. *)

(** A run with a fixed time step, of any of the eight materials, gives the points of the scheme, pass by pass, as long
    as the scheme, run on its own, keeps its points in the domain. *)
Theorem C102_run : forall uf fill n (s : state R) tr s' tr' S0, whole s -> sol0 (sL s) = Ok S0 ->
  (forall j, (j < n)%nat -> Forall (fun q => in_dom (pG (sP s)) (z_x q))
                                  (z_run uf (s_rho S0) j (sP s) (sG s) (cloud (sP s) (sL s)))) ->
  after uf fill n s tr = Ok (s', tr') ->
  sP s' = clock uf n (sP s) /\ cloud (sP s) (sL s') = z_run uf (s_rho S0) n (sP s) (sG s) (cloud (sP s) (sL s)).
Proof. exact p_C102_run. Qed.
Print Assumptions C102_run.

(** Instance: C102_run_example in PropsCasesRun.v. *)

(** All but the grains, whose law reads lists: the passes never fail as long as the points stay in the domain. *)
Theorem C102_total : forall uf fill n (s : state R) tr S0, whole s -> provided s -> sol0 (sL s) = Ok S0 ->
  (forall j, (j < n)%nat -> Forall (fun q => in_dom (pG (sP s)) (z_x q) /\ (p_check (sP s) = true -> vz (z_x q) = 0))
                                  (z_run uf (s_rho S0) j (sP s) (sG s) (cloud (sP s) (sL s)))) ->
  exists s' tr', after uf fill n s tr = Ok (s', tr') /\ cloud (sP s) (sL s') = z_run uf (s_rho S0) n (sP s) (sG s) (cloud (sP s) (sL s)).
Proof. exact p_C102_total. Qed.
Print Assumptions C102_total.

(** Five materials at once in a box with a belt at the bottom, a load on the surface and a falling intruder. *)
Example C102_total_example : forall fill, exists (s : state R) S0, whole s /\ provided s /\ sol0 (sL s) = Ok S0 /\
  (forall j, (j < 1)%nat -> Forall (fun q => in_dom (pG (sP s)) (z_x q) /\ (p_check (sP s) = true -> vz (z_x q) = 0))
                                  (z_run mix_loads (s_rho S0) j (sP s) (sG s) (cloud (sP s) (sL s)))) /\
  conveyor (pB (sP s)) = true /\ vertical_force (pB (sP s)) = true /\ length (cloud (sP s) (sL s)) = 5%nat /\
  exists s' tr', after mix_loads fill 1 s [] = Ok (s', tr') /\ cloud (sP s) (sL s') = z_run mix_loads (s_rho S0) 1 (sP s) (sG s) (cloud (sP s) (sL s)).
Proof. exact x_C102_total. Qed.
