(** * Runs with joined ends and any of eight materials: C107.
    Statements only; the proofs are in ThmHoop.v. *)
From Coq Require Import ZArith Reals List Bool Arith Lra Lia.
From Verif Require Import State NumR Spec SpecLaws SpecStep SpecScheme SpecRing SpecLocal SpecHoop LibList LibR ModelGrid ModelConstit ModelParticle ModelMPList
  ModelIntegr ModelMain ProofsSlice ProofsGrid ProofsMap ProofsP2G ProofsWalls ProofsLaws ProofsInOut ProofsHist Concrete
  ThmMapping ThmWalls ThmLaws ThmInOut ThmHist ProofsStep ProofsPoints ThmStep ThmBalance ThmEnergy ThmFall ThmGeo ProofsScheme ThmScheme
  ProofsRing ThmRing ProofsLocal ThmLocal.
Import ListNotations.
From Verif Require Import ThmHoop.
Local Open Scope R_scope.

(** One step of the code with joined ends is one step of the scheme of SpecHoop.v. *)
Theorem C107_step : forall uf fill (s s' : state R) S0, proper (pG (sP s)) -> grid_ok (pG (sP s)) (sG s) ->
  all_live (sL s) (fun _ p => in_dom (pG (sP s)) (px p)) -> looped (sP s) -> ends_join (pG (sP s)) (sG s) -> no_rub (pB (sP s)) ->
  covered (sL s) -> own_velocities (sL s) -> 0 < p_dt (sP s) -> 0 <= p_Mtol (sP s) -> sol0 (sL s) = Ok S0 ->
  time_march uf fill s = Ok s' ->
  cloud (sP s) (sL s') = o_step (ambient_of (sP s) (s_rho S0) (uf (sP s)) (sG s)) (cloud (sP s) (sL s)).
Proof. exact p_C107_step. Qed.
Print Assumptions C107_step.

(** Instance: C107_step_example in PropsCasesRun.v. *)

(** The ends of a grid with the same walls at both ends and [cyclic_lr], with or without a belt, agree. *)
Theorem C107_ends : forall (P : gridp R) (B : bounds R) (G : grid R), proper P -> grid_init P B = Ok G -> ThmWalls.plain B ->
  has_left B = has_right B -> cyclic_lr B = true -> ends_join P G.
Proof. exact p_C107_ends. Qed.
Print Assumptions C107_ends.

(** Instance: C107_ends_example in PropsCasesRun.v. *)

(** A run with joined ends and a fixed time step, of any of the eight materials, gives the points of the scheme on the
    cylinder, pass by pass, as long as that scheme, run on its own, keeps its points in the domain. *)
Theorem C107_run : forall uf fill n (s : state R) tr s' tr' S0, hoop s -> sol0 (sL s) = Ok S0 ->
  (forall j, (j < n)%nat -> Forall (fun q => in_dom (pG (sP s)) (z_x q))
                                  (o_run uf (s_rho S0) j (sP s) (sG s) (cloud (sP s) (sL s)))) ->
  after uf fill n s tr = Ok (s', tr') ->
  sP s' = clock uf n (sP s) /\ cloud (sP s) (sL s') = o_run uf (s_rho S0) n (sP s) (sG s) (cloud (sP s) (sL s)).
Proof. exact p_C107_run. Qed.
Print Assumptions C107_run.

(** Instance: C107_run_example in PropsCasesRun.v. *)

(** All but the grains, whose law reads lists: the passes never fail as long as the points stay in the domain. *)
Theorem C107_total : forall uf fill n (s : state R) tr S0, hoop s -> provided s -> sol0 (sL s) = Ok S0 ->
  (forall j, (j < n)%nat -> Forall (fun q => in_dom (pG (sP s)) (z_x q) /\ (p_check (sP s) = true -> vz (z_x q) = 0))
                                  (o_run uf (s_rho S0) j (sP s) (sG s) (cloud (sP s) (sL s)))) ->
  exists s' tr', after uf fill n s tr = Ok (s', tr') /\ cloud (sP s) (sL s') = o_run uf (s_rho S0) n (sP s) (sG s) (cloud (sP s) (sL s)).
Proof. exact p_C107_total. Qed.
Print Assumptions C107_total.

(** Four materials on a cylinder with a belt and a load on the surface, and an intruder which leaves through one end
    and comes back at the other. *)
Example C107_total_example : forall fill, exists (s : state R) S0, hoop s /\ provided s /\ sol0 (sL s) = Ok S0 /\
  (forall j, (j < 1)%nat -> Forall (fun q => in_dom (pG (sP s)) (z_x q) /\ (p_check (sP s) = true -> vz (z_x q) = 0))
                                  (o_run mix_loads (s_rho S0) j (sP s) (sG s) (cloud (sP s) (sL s)))) /\
  conveyor (pB (sP s)) = true /\ vertical_force (pB (sP s)) = true /\ length (cloud (sP s) (sL s)) = 5%nat /\
  exists s' tr', after mix_loads fill 1 s [] = Ok (s', tr') /\ cloud (sP s) (sL s') = o_run mix_loads (s_rho S0) 1 (sP s) (sG s) (cloud (sP s) (sL s)) /\
  exists q, In q (cloud (sP s) (sL s')) /\ z_stuff q = Intruder /\ 2 < vx (z_x q).
Proof. exact x_C107_total. Qed.
