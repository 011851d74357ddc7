(** * A run with cyclic boundaries is a run of the scheme on a cylinder: C91.
    Statements only; the proofs are in ThmRing.v. *)
From Coq Require Import ZArith Reals List Bool Arith Lra Lia.
From Verif Require Import State NumR Spec SpecLaws SpecStep SpecScheme SpecRing LibList LibR ModelGrid ModelConstit ModelParticle ModelMPList
  ModelIntegr ModelMain ProofsGrid ProofsMap ProofsP2G ProofsWalls ProofsLaws ProofsInOut ProofsHist Concrete
  ThmMapping ThmWalls ThmLaws ThmInOut ThmHist ProofsStep ProofsPoints ThmStep ThmBalance ThmEnergy ThmFall ThmGeo ProofsScheme ThmScheme
  ProofsRing.
Import ListNotations.
From Verif Require Import ThmRing.
Local Open Scope R_scope.

(** One step of the code with cyclic_lr is one step of the scheme on the cylinder. *)
Theorem C91_step : forall uf fill (s s' : state R), proper (pG (sP s)) -> grid_ok (pG (sP s)) (sG s) ->
  all_live (sL s) (fun _ p => in_dom (pG (sP s)) (px p)) -> ring_only (sP s) -> ends_agree (pG (sP s)) (sG s) -> no_rub (pB (sP s)) ->
  simple_laws (sL s) -> own_velocities (sL s) -> no_surface (sP s) (uf (sP s)) ->
  time_march uf fill s = Ok s' ->
  bodies (sL s') = r_step (scheme_of (sP s) (uf (sP s)) (sG s)) (bodies (sL s)).
Proof. exact p_C91_step. Qed.
Print Assumptions C91_step.

(** Instance: C91_step_example in PropsSpin.v. *)

(** Without walls inside the domain, and with or without walls at both ends, the ends agree. *)
Theorem C91_ends : forall (P : gridp R) (B : bounds R) (G : grid R), proper P -> grid_init P B = Ok G -> ThmWalls.plain B ->
  has_left B = has_right B -> ends_agree P G.
Proof. exact p_C91_ends. Qed.
Print Assumptions C91_ends.

Example C91_ends_example : exists G, grid_init (@ex_gridp R _) ring_bounds = Ok G /\ ThmWalls.plain ring_bounds /\ has_left ring_bounds = has_right ring_bounds /\
  cyclic_lr ring_bounds = true /\ nth 0 (bh G) false = true.
Proof. exact x_C91_ends. Qed.

(** A run of [n] steps with cyclic_lr and a fixed time step never fails as long as the scheme on the cylinder, run on its
    own, keeps its points in the domain; and then its points are those of the scheme after [n] steps. *)
Theorem C91_run : forall uf fill n (s : state R) tr, rplain s -> (forall P, no_surface (sP s) (uf P)) ->
  (forall j, (j < n)%nat -> Forall (fun q => in_dom (pG (sP s)) (q_x q) /\ (p_check (sP s) = true -> vz (q_x q) = 0))
                                  (r_run uf j (sP s) (sG s) (bodies (sL s)))) ->
  exists s' tr', after uf fill n s tr = Ok (s', tr') /\ sP s' = clock uf n (sP s) /\
  bodies (sL s') = r_run uf n (sP s) (sG s) (bodies (sL s)).
Proof. exact p_C91_run. Qed.
Print Assumptions C91_run.

(** Instance: C91_run_example in PropsSpin.v. *)
