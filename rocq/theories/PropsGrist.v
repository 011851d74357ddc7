(** * Runs of grains do not fail: C113.
    Statements only; the proofs are in ThmGrist.v. *)
From Coq Require Import ZArith Reals List Bool Arith Lra Lia.
From RecordUpdate Require Import RecordUpdate.
From Verif Require Import State NumR Spec SpecLaws SpecStep SpecScheme SpecLocal LibList LibR ModelGrid ModelConstit ModelParticle ModelMPList
  ModelIntegr ModelMain ProofsGrid ProofsMap ProofsP2G ProofsWalls ProofsLaws ProofsInOut ProofsHist Concrete
  ThmMapping ThmWalls ThmLaws ThmInOut ThmHist ProofsStep ProofsPoints ThmStep ThmBalance ThmEnergy ThmFall ThmGeo ProofsScheme ThmScheme ProofsLocal ThmLocal ThmLoop ThmSift ThmGrade.
Import ListNotations.
From Verif Require Import ThmGrist.
Local Open Scope R_scope.

(** All eight materials of the scheme: the passes never fail as long as the points of the scheme stay in the domain, and
    give the points of the scheme. *)
Theorem C113_total : forall uf fill n (s : state R) tr S0, whole s -> furnished s -> sol0 (sL s) = Ok S0 ->
  (forall j, (j < n)%nat -> Forall (fun q => in_dom (pG (sP s)) (z_x q) /\ (p_check (sP s) = true -> vz (z_x q) = 0))
                                  (z_run uf (s_rho S0) j (sP s) (sG s) (cloud (sP s) (sL s)))) ->
  exists s' tr', after uf fill n s tr = Ok (s', tr') /\ cloud (sP s) (sL s') = z_run uf (s_rho S0) n (sP s) (sG s) (cloud (sP s) (sL s)).
Proof. exact p_C113_total. Qed.
Print Assumptions C113_total.

Example C113_total_example : forall fill, exists (s : state R) S0, whole s /\ furnished s /\ sol0 (sL s) = Ok S0 /\
  (forall j, (j < 1)%nat -> Forall (fun q => in_dom (pG (sP s)) (z_x q) /\ (p_check (sP s) = true -> vz (z_x q) = 0))
                                  (z_run mix_loads (s_rho S0) j (sP s) (sG s) (cloud (sP s) (sL s)))) /\
  s_law S0 = Pouliquen /\ length (cloud (sP s) (sL s)) = 3%nat /\
  exists s' tr', after mix_loads fill 1 s [] = Ok (s', tr') /\ cloud (sP s) (sL s') = z_run mix_loads (s_rho S0) 1 (sP s) (sG s) (cloud (sP s) (sL s)).
Proof. exact x_C113_total. Qed.

Example C113_law_example : forall l, In l [Pouliquen; LinearMu; KenSimple] -> exists P (So : solid R) p q G, s_law So = l /\
  reaches P p /\ reaches P q /\ slens (nodes (pG P)) G /\ grainy (pG P) So p /\ ~ grainy (pG P) So q /\
  (exists r, apply_law P So So 0 p G = Ok r) /\ ~ exists r, apply_law P So So 0 q G = Ok r.
Proof. exact x_C113_law. Qed.
