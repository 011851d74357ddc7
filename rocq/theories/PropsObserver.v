(** * Moving observers: C143.
    Statements only; the proofs are in ThmObserver.v. *)
From Coq Require Import ZArith Reals List Bool Arith Lra Lia.
From RecordUpdate Require Import RecordUpdate.
From Verif Require Import State NumR Spec SpecLaws SpecStep SpecScheme LibList LibR ModelGrid ModelConstit ModelParticle ModelMPList
  ModelIntegr ModelMain ProofsGrid ProofsMap ProofsP2G ProofsWalls ProofsLaws ProofsInOut ProofsHist Concrete
  ThmMapping ThmWalls ThmLaws ThmInOut ThmHist ProofsStep ProofsPoints ThmStep ThmBalance ThmEnergy ThmFall ThmGeo ProofsScheme ThmScheme ThmSpin ThmAngular ThmBeat.
Import ListNotations.
From Verif Require Import ThmObserver.
Local Open Scope R_scope.

(** Away from walls, and if the points touch heavy nodes only: the points with
    a velocity added to all of them move in a step as before, but for that velocity. *)
Theorem C143_step : forall uf fill fill' (V : V3 R) (s t : state R) tr tr', plain s -> plain t -> sP t = sP s -> sG t = sG s ->
  wall_free (bv (sG s)) (bh (sG s)) -> 0 <= p_Mtol (sP s) -> (forall P, no_surface (sP s) (uf P)) ->
  bodies (sL t) = map (seen_from V 0) (bodies (sL s)) -> all_heavy (scheme_of (sP s) (uf (sP s)) (sG s)) (bodies (sL s)) ->
  Forall (fun q => in_dom (pG (sP s)) (q_x q) /\ (p_check (sP s) = true -> vz (q_x q) = 0)) (bodies (sL s)) ->
  exists s' sr t' sr', after uf fill 1 s tr = Ok (s', sr) /\ after uf fill' 1 t tr' = Ok (t', sr') /\
  bodies (sL t') = map (seen_from V (p_dt (sP s))) (bodies (sL s')).
Proof. exact p_C143_step. Qed.
Print Assumptions C143_step.

(** A point without stress at rest stays as it is; for a moving observer it is squeezed. *)
Theorem C143_light_refuted : forall fill v, v <> 0 -> exists (s t s' t' : state R) tr tr', plain s /\ plain t /\ sP t = sP s /\ sG t = sG s /\ wall_free (bv (sG s)) (bh (sG s)) /\
  bodies (sL t) = map (seen_from (mkV3 v 0 0) 0) (bodies (sL s)) /\ after calm fill 1 s [] = Ok (s', tr) /\ after calm fill 1 t [] = Ok (t', tr') /\
  map (fun q => xx (q_s q)) (bodies (sL s')) = [0] /\ map (fun q => xx (q_s q)) (bodies (sL t')) <> [0].
Proof. exact p_C143_light_refuted. Qed.
Print Assumptions C143_light_refuted.

Example C143_step_example : exists (V : V3 R) (s t : state R), plain s /\ plain t /\ sP t = sP s /\ sG t = sG s /\
  wall_free (bv (sG s)) (bh (sG s)) /\ 0 <= p_Mtol (sP s) /\ (forall P, no_surface (sP s) (calm P)) /\
  bodies (sL t) = map (seen_from V 0) (bodies (sL s)) /\ all_heavy (scheme_of (sP s) (calm (sP s)) (sG s)) (bodies (sL s)) /\
  Forall (fun q => in_dom (pG (sP s)) (q_x q) /\ (p_check (sP s) = true -> vz (q_x q) = 0)) (bodies (sL s)) /\ length (bodies (sL s)) = 2%nat /\ V <> v0.
Proof. exact x_C143_step. Qed.
