(** * A body on a smooth floor: C153.
    Statements only; the proofs are in ThmGlide.v. *)
From Coq Require Import ZArith Reals List Bool Arith Lra Lia.
From RecordUpdate Require Import RecordUpdate.
From Verif Require Import State NumR Spec SpecLaws SpecStep SpecScheme SpecView LibList LibR ModelGrid ModelConstit ModelParticle ModelMPList
  ModelIntegr ModelMain ProofsGrid ProofsMap ProofsP2G ProofsWalls ProofsLaws ProofsInOut ProofsHist Concrete
  ThmMapping ThmWalls ThmLaws ThmInOut ThmHist ProofsStep ProofsPoints ThmStep ThmBalance ThmEnergy ThmFall ThmGeo ProofsScheme ProofsView ThmScheme ThmView ThmSpin ThmAngular ThmBeat ThmObserver ThmSilent ThmCells ThmMerge ThmJump ThmNewton ThmDrop ThmStride.
Import ListNotations.
From Verif Require Import ThmGlide.
Local Open Scope R_scope.

(** Any body on a grid with any walls, none of which holds the component [a] of the motion
    (a smooth floor does not hold the motion along it): along [a] the body gains the momentum that
    its weight gives it, and its centre of mass follows, as if there were no walls. *)
Theorem C153_glides : forall uf fill g th a n (s : state R) tr, plain s -> 0 <= p_Mtol (sP s) -> (forall P, no_surface (sP s) (uf P)) ->
  (forall k, removed a (roughness (pB (sP s))) (nth k (bv (sG s)) false) (nth k (bh (sG s)) false) = false) ->
  (forall P, ld_g (uf P) = g /\ ld_theta (uf P) = th) -> unloaded (bodies (sL s)) ->
  (forall k, (k < n)%nat -> let B := t_run uf k (sP s) (sG s) (bodies (sL s)) in all_heavy (scheme_at uf k (sP s) (sG s)) B /\
    Forall (fun q => in_dom (pG (sP s)) (q_x q) /\ (p_check (sP s) = true -> vz (q_x q) = 0)) B) ->
  exists s' tr', after uf fill n s tr = Ok (s', tr') /\
  let W := (if p_damping (sP s) then 7/10 else 1) * pull a (mkV3 (g * sin th) (g * cos th) 0) (bodies (sL s)) in let h := p_dt (sP s) in
  drive a (bodies (sL s')) = drive a (bodies (sL s)) + INR n * h * W /\
  moment a (bodies (sL s')) = moment a (bodies (sL s)) + INR n * h * drive a (bodies (sL s)) + INR n * (INR n + 1) / 2 * (h * h) * W.
Proof. exact p_C153_glides. Qed.
Print Assumptions C153_glides.

(** A point of mass two on a smooth floor. *)
Example C153_glides_example : forall g th, let uf := fun _ : params R => mkLoads g th 0 0 in exists s : state R, plain s /\ 0 <= p_Mtol (sP s) /\ (forall P, no_surface (sP s) (uf P)) /\
  (forall k, removed AX (roughness (pB (sP s))) (nth k (bv (sG s)) false) (nth k (bh (sG s)) false) = false) /\ nth 0 (bh (sG s)) false = true /\
  (forall P, ld_g (uf P) = g /\ ld_theta (uf P) = th) /\ unloaded (bodies (sL s)) /\
  (forall k, (k < 1)%nat -> let B := t_run uf k (sP s) (sG s) (bodies (sL s)) in all_heavy (scheme_at uf k (sP s) (sG s)) B /\
    Forall (fun q => in_dom (pG (sP s)) (q_x q) /\ (p_check (sP s) = true -> vz (q_x q) = 0)) B) /\
  pull AX (mkV3 (g * sin th) (g * cos th) 0) (bodies (sL s)) = 2 * (g * sin th).
Proof. exact x_C153_glides. Qed.
