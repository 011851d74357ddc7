(** * The angular momentum of a free body: C135.
    Statements only; the proofs are in ThmAngular.v. *)
From Coq Require Import ZArith Reals List Bool Arith Lra Lia.
From RecordUpdate Require Import RecordUpdate.
From Verif Require Import State NumR Spec SpecLaws SpecStep SpecScheme LibList LibR ModelGrid ModelConstit ModelParticle ModelMPList
  ModelIntegr ModelMain ProofsGrid ProofsMap ProofsP2G ProofsWalls ProofsLaws ProofsInOut ProofsHist Concrete
  ThmMapping ThmWalls ThmLaws ThmInOut ThmHist ProofsStep ProofsPoints ThmStep ThmBalance ThmEnergy ThmFall ThmGeo ProofsScheme ThmScheme.
Import ListNotations.
From Verif Require Import ThmAngular.
Local Open Scope R_scope.

(** The exact change of the angular momentum in a step away from walls: the
    nodal forces act with the lever of the mass that the node gets, not with that of the node. *)
Theorem C135_exact : forall uf fill (s s' : state R), proper (pG (sP s)) -> grid_ok (pG (sP s)) (sG s) ->
  all_live (sL s) (fun _ p => in_dom (pG (sP s)) (px p)) -> shut (sP s) -> no_rub (pB (sP s)) ->
  simple_laws (sL s) -> own_velocities (sL s) -> no_surface (sP s) (uf (sP s)) -> wall_free (bv (sG s)) (bh (sG s)) -> 0 <= p_Mtol (sP s) ->
  time_march uf fill s = Ok s' ->
  let E := scheme_of (sP s) (uf (sP s)) (sG s) in let B := bodies (sL s) in let dt := p_dt (sP s) in
  let acc := t_acc E B (map (t_strained E B) B) in let vel := t_vel E B in
  angular (bodies (sL s')) = angular B
    + dt * fsum (nodes (pG (sP s))) (fun k => moment E B AX k * acc AY k - moment E B AY k * acc AX k)
    + dt * dt * (fsum (nodes (pG (sP s))) (fun k => t_mass E B k * (acc AX k * vel AY k - acc AY k * vel AX k))
        + Rsum (map (fun q => q_m q * (seen E q (fun k => vel AX k + dt * acc AX k) * seen E q (acc AY) - seen E q (fun k => vel AY k + dt * acc AY k) * seen E q (acc AX))) B)).
Proof. exact p_C135_exact. Qed.
Print Assumptions C135_exact.

(** Points without forces keep their angular momentum, whatever their velocities. *)
Theorem C135_no_force : forall uf fill (s s' : state R), proper (pG (sP s)) -> grid_ok (pG (sP s)) (sG s) ->
  all_live (sL s) (fun _ p => in_dom (pG (sP s)) (px p)) -> shut (sP s) -> no_rub (pB (sP s)) ->
  simple_laws (sL s) -> own_velocities (sL s) -> no_surface (sP s) (uf (sP s)) -> wall_free (bv (sG s)) (bh (sG s)) -> 0 <= p_Mtol (sP s) ->
  time_march uf fill s = Ok s' ->
  (forall a k, t_force (scheme_of (sP s) (uf (sP s)) (sG s)) (map (t_strained (scheme_of (sP s) (uf (sP s)) (sG s)) (bodies (sL s))) (bodies (sL s))) a k = 0) ->
  angular (bodies (sL s')) = angular (bodies (sL s)).
Proof. exact p_C135_no_force. Qed.
Print Assumptions C135_no_force.

(** A body at rest, without loads, away from walls, with a symmetric stress: one step sets it spinning. *)
Theorem C135_kept_refuted : forall fill, exists (s s' : state R) tr, plain s /\ wall_free (bv (sG s)) (bh (sG s)) /\
  Forall (fun q => in_dom (pG (sP s)) (q_x q)) (bodies (sL s)) /\
  Forall (fun q => q_v q = v0 /\ forall a b, el a b (q_s q) = el b a (q_s q)) (bodies (sL s)) /\
  after calm fill 1 s [] = Ok (s', tr) /\ angular (bodies (sL s)) = 0 /\ 0 < angular (bodies (sL s')).
Proof. exact p_C135_kept_refuted. Qed.
Print Assumptions C135_kept_refuted.

Example C135_exact_example : forall fill, exists s s' : state R, proper (pG (sP s)) /\ grid_ok (pG (sP s)) (sG s) /\
  all_live (sL s) (fun _ p => in_dom (pG (sP s)) (px p)) /\ shut (sP s) /\ no_rub (pB (sP s)) /\
  simple_laws (sL s) /\ own_velocities (sL s) /\ no_surface (sP s) (calm (sP s)) /\ wall_free (bv (sG s)) (bh (sG s)) /\ 0 <= p_Mtol (sP s) /\
  time_march calm fill s = Ok s' /\ angular (bodies (sL s')) <> angular (bodies (sL s)).
Proof. exact x_C135_exact. Qed.

Example C135_no_force_example : forall fill, exists s s' : state R, proper (pG (sP s)) /\ grid_ok (pG (sP s)) (sG s) /\
  all_live (sL s) (fun _ p => in_dom (pG (sP s)) (px p)) /\ shut (sP s) /\ no_rub (pB (sP s)) /\
  simple_laws (sL s) /\ own_velocities (sL s) /\ no_surface (sP s) (calm (sP s)) /\ wall_free (bv (sG s)) (bh (sG s)) /\ 0 <= p_Mtol (sP s) /\
  time_march calm fill s = Ok s' /\
  (forall a k, t_force (scheme_of (sP s) (calm (sP s)) (sG s)) (map (t_strained (scheme_of (sP s) (calm (sP s)) (sG s)) (bodies (sL s))) (bodies (sL s))) a k = 0) /\
  angular (bodies (sL s)) = 5/2.
Proof. exact x_C135_no_force. Qed.
