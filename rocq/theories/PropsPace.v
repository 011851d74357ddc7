(** * Runs that choose their own time steps compute the material point scheme: C109.
    Statements only; the proofs are in ThmPace.v. *)
From Coq Require Import ZArith Reals List Bool Arith Lra Lia.
From RecordUpdate Require Import RecordUpdate.
From Verif Require Import State NumR Spec SpecLaws SpecStep SpecScheme SpecLocal SpecPace LibList LibR ModelGrid ModelConstit ModelParticle ModelMPList
  ModelIntegr ModelMain ProofsGrid ProofsMap ProofsP2G ProofsWalls ProofsLaws ProofsInOut ProofsHist Concrete
  ThmMapping ThmWalls ThmLaws ThmInOut ThmHist ProofsStep ProofsPoints ThmStep ThmBalance ThmEnergy ThmFall ThmGeo ProofsScheme ThmScheme ProofsLocal ThmLocal ThmLoop.
Import ListNotations.
From Verif Require Import ThmPace.
Local Open Scope R_scope.

(** One pass: the points make a step of the scheme and the next time step is the one of the specification. *)
Theorem C109_pass : forall uf fill (s : state R) tr s' tr' S0, paced s ->
  all_live (sL s) (fun _ p => in_dom (pG (sP s)) (px p)) -> sol0 (sL s) = Ok S0 -> pass uf fill s tr = Ok (s', tr') ->
  let E := ambient_of (sP s) (s_rho S0) (uf (sP s)) (sG s) in let B := cloud (sP s) (sL s) in
  sP s' = y_clock uf (crits (sL s)) (y_fast E B) (sP s) /\ cloud (sP s) (sL s') = z_step E B.
Proof. exact p_C109_pass. Qed.
Print Assumptions C109_pass.

(** Instance: C109_pass_example in PropsCasesRun.v. *)

(** A run that chooses its own time steps has the time steps and the points of the specification, pass by pass, as long
    as the specification, run on its own, keeps its points in the domain and something moves. *)
Theorem C109_run : forall uf fill n (s : state R) tr s' tr' S0, paced s -> sol0 (sL s) = Ok S0 ->
  (forall j, (j < n)%nat -> let (P, B) := y_run uf (s_rho S0) (crits (sL s)) j (sP s) (sG s) (cloud (sP s) (sL s)) in
     Forall (fun q => in_dom (pG (sP s)) (z_x q)) B /\ 0 < y_fast (ambient_of P (s_rho S0) (uf P) (sG s)) B) ->
  after uf fill n s tr = Ok (s', tr') ->
  (sP s', cloud (sP s) (sL s')) = y_run uf (s_rho S0) (crits (sL s)) n (sP s) (sG s) (cloud (sP s) (sL s)).
Proof. exact p_C109_run. Qed.
Print Assumptions C109_run.

(** Instance: C109_run_example in PropsCasesRun.v. *)

(** The passes never fail, for all but the grains, as long as the points stay in the domain and something moves. *)
Theorem C109_total : forall uf fill n (s : state R) tr S0, paced s -> provided s -> sol0 (sL s) = Ok S0 ->
  (forall j, (j < n)%nat -> let (P, B) := y_run uf (s_rho S0) (crits (sL s)) j (sP s) (sG s) (cloud (sP s) (sL s)) in
     Forall (fun q => in_dom (pG (sP s)) (z_x q) /\ (p_check (sP s) = true -> vz (z_x q) = 0)) B /\
     0 < y_fast (ambient_of P (s_rho S0) (uf P) (sG s)) B) ->
  exists s' tr', after uf fill n s tr = Ok (s', tr') /\
    (sP s', cloud (sP s) (sL s')) = y_run uf (s_rho S0) (crits (sL s)) n (sP s) (sG s) (cloud (sP s) (sL s)).
Proof. exact p_C109_total. Qed.
Print Assumptions C109_total.

(** The intruder makes its first pass with the time step of the script and then takes the time in which it crosses the
    twentieth part of a cell. *)
Example C109_total_example : forall fill, exists (s : state R) S0, paced s /\ provided s /\ sol0 (sL s) = Ok S0 /\
  (forall j, (j < 1)%nat -> let (P, B) := y_run still_loads (s_rho S0) (crits (sL s)) j (sP s) (sG s) (cloud (sP s) (sL s)) in
     Forall (fun q => in_dom (pG (sP s)) (z_x q) /\ (p_check (sP s) = true -> vz (z_x q) = 0)) B /\
     0 < y_fast (ambient_of P (s_rho S0) (still_loads P) (sG s)) B) /\
  p_dt (sP s) = 1 / 10 /\ exists s' tr', after still_loads fill 1 s [] = Ok (s', tr') /\ p_dt (sP s') = 1 / 20.
Proof. exact x_C109_total. Qed.
