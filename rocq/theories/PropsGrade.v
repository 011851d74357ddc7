(** * Segregation leaves the motion alone: C110.
    Statements only; the proofs are in ThmGrade.v. *)
From Coq Require Import ZArith Reals List Bool Arith Lra Lia.
From RecordUpdate Require Import RecordUpdate.
From Verif Require Import State NumR Spec SpecLaws SpecStep SpecScheme SpecLocal LibList LibR ModelGrid ModelConstit ModelParticle ModelMPList
  ModelIntegr ModelMain ProofsGrid ProofsMap ProofsP2G ProofsWalls ProofsLaws ProofsInOut ProofsHist Concrete
  ThmMapping ThmWalls ThmLaws ThmInOut ThmHist ProofsStep ProofsPoints ThmStep ThmBalance ThmEnergy ThmFall ThmGeo ProofsScheme ThmScheme ProofsLocal ThmLocal ThmLoop ThmSift.
Import ListNotations.
From Verif Require Import ThmGrade.
Local Open Scope R_scope.

(** One step, whether grains segregate or not: up to the sizes of the grains of its points it is a step of the scheme. *)
Theorem C110_step : forall uf fill (s s' : state R) S0, proper (pG (sP s)) -> grid_ok (pG (sP s)) (sG s) ->
  all_live (sL s) (fun _ p => in_dom (pG (sP s)) (px p)) -> tight (sP s) -> no_rub (pB (sP s)) ->
  covered (sL s) -> own_velocities (sL s) -> 0 < p_dt (sP s) -> 0 <= p_Mtol (sP s) -> sol0 (sL s) = Ok S0 ->
  time_march uf fill s = Ok s' ->
  Forall2 remixed (z_step (ambient_of (sP s) (s_rho S0) (uf (sP s)) (sG s)) (cloud (sP s) (sL s))) (cloud (sP s) (sL s')).
Proof. exact p_C110_step. Qed.
Print Assumptions C110_step.

(** Instance: C110_step_example in PropsCasesRun.v. *)

(** Materials other than grains: with segregation or without, the points after [n] passes are those of the scheme. *)
Theorem C110_run : forall uf fill n (s : state R) tr s' tr' S0, sifted s -> sol0 (sL s) = Ok S0 ->
  (forall j, (j < n)%nat -> Forall (fun q => in_dom (pG (sP s)) (z_x q))
                                  (z_run uf (s_rho S0) j (sP s) (sG s) (cloud (sP s) (sL s)))) ->
  after uf fill n s tr = Ok (s', tr') ->
  sP s' = clock uf n (sP s) /\ cloud (sP s) (sL s') = z_run uf (s_rho S0) n (sP s) (sG s) (cloud (sP s) (sL s)).
Proof. exact p_C110_run. Qed.
Print Assumptions C110_run.

(** Instance: C110_run_example in PropsCasesRun.v. *)

Theorem C110_same : forall uf fill n b (s : state R) tr tr2 s1 tr1 s2 tr2' S0, sifted s -> sol0 (sL s) = Ok S0 ->
  (forall P, uf (with_seg b P) = uf P) ->
  (forall j, (j < n)%nat -> Forall (fun q => in_dom (pG (sP s)) (z_x q))
                                  (z_run uf (s_rho S0) j (sP s) (sG s) (cloud (sP s) (sL s)))) ->
  after uf fill n s tr = Ok (s1, tr1) -> after uf fill n (s <| sP := with_seg b (sP s) |>) tr2 = Ok (s2, tr2') ->
  cloud (sP s) (sL s2) = cloud (sP s) (sL s1).
Proof. exact p_C110_same. Qed.
Print Assumptions C110_same.

(** Instance: C110_same_example in PropsCasesRun.v. *)

(** And the passes do not fail as long as the points of the scheme stay in the domain. *)
Theorem C110_total : forall uf fill n (s : state R) tr S0, sifted s -> provided s -> sieved (sP s) (sL s) -> sol0 (sL s) = Ok S0 ->
  (forall j, (j < n)%nat -> Forall (fun q => in_dom (pG (sP s)) (z_x q) /\ (p_check (sP s) = true -> vz (z_x q) = 0))
                                  (z_run uf (s_rho S0) j (sP s) (sG s) (cloud (sP s) (sL s)))) ->
  exists s' tr', after uf fill n s tr = Ok (s', tr') /\ cloud (sP s) (sL s') = z_run uf (s_rho S0) n (sP s) (sG s) (cloud (sP s) (sL s)).
Proof. exact p_C110_total. Qed.
Print Assumptions C110_total.

(** Five materials at once, with segregation of two sizes, in a box with a belt, a load on the surface and a falling intruder. *)
Example C110_total_example : forall fill, exists (s : state R) S0, sifted s /\ provided s /\ sieved (sP s) (sL s) /\ p_seg (sP s) = true /\ sol0 (sL s) = Ok S0 /\
  (forall j, (j < 1)%nat -> Forall (fun q => in_dom (pG (sP s)) (z_x q) /\ (p_check (sP s) = true -> vz (z_x q) = 0))
                                  (z_run mix_loads (s_rho S0) j (sP s) (sG s) (cloud (sP s) (sL s)))) /\
  (forall P b, mix_loads (with_seg b P) = mix_loads P) /\ length (cloud (sP s) (sL s)) = 5%nat /\
  exists s' tr', after mix_loads fill 1 s [] = Ok (s', tr') /\ cloud (sP s) (sL s') = z_run mix_loads (s_rho S0) 1 (sP s) (sG s) (cloud (sP s) (sL s)).
Proof. exact x_C110_total. Qed.
