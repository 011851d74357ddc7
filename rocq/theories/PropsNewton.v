(** * The motion of a free body as a whole: C148.
    Statements only; the proofs are in ThmNewton.v. *)
From Coq Require Import ZArith Reals List Bool Arith Lra Lia.
From RecordUpdate Require Import RecordUpdate.
From Verif Require Import State NumR Spec SpecLaws SpecStep SpecScheme SpecView LibList LibR ModelGrid ModelConstit ModelParticle ModelMPList
  ModelIntegr ModelMain ProofsGrid ProofsMap ProofsP2G ProofsWalls ProofsLaws ProofsInOut ProofsHist Concrete
  ThmMapping ThmWalls ThmLaws ThmInOut ThmHist ProofsStep ProofsPoints ThmStep ThmBalance ThmEnergy ThmFall ThmGeo ProofsScheme ProofsView ThmScheme ThmView ThmSpin ThmAngular ThmBeat ThmObserver ThmSilent ThmCells ThmMerge ThmJump.
Import ListNotations.
From Verif Require Import ThmNewton.
Local Open Scope R_scope.

(** A body without walls and loads, of which all points touch heavy nodes only: for any
    number of steps it keeps its momentum, and its centre of mass moves on a straight line
    with the velocity that belongs to this momentum. *)
Theorem C148_free : forall uf fill n (s : state R) tr, plain s -> wall_free (bv (sG s)) (bh (sG s)) -> 0 <= p_Mtol (sP s) -> (forall P, no_surface (sP s) (uf P)) -> (forall P, ld_g (uf P) = 0) ->
  Forall (fun q => q_b q = v0) (bodies (sL s)) ->
  (forall k, (k < n)%nat -> let B := t_run uf k (sP s) (sG s) (bodies (sL s)) in all_heavy (scheme_at uf k (sP s) (sG s)) B /\
    Forall (fun q => in_dom (pG (sP s)) (q_x q) /\ (p_check (sP s) = true -> vz (q_x q) = 0)) B) ->
  exists s' tr', after uf fill n s tr = Ok (s', tr') /\ forall a, drive a (bodies (sL s')) = drive a (bodies (sL s)) /\
  moment a (bodies (sL s')) = moment a (bodies (sL s)) + INR n * p_dt (sP s) * drive a (bodies (sL s)).
Proof. exact p_C148_free. Qed.
Print Assumptions C148_free.

(** A stressed point at rest, alone, next to a node that gets no mass: it sets itself in
    motion. *)
Theorem C148_self_refuted : forall fill t, t <> 0 -> exists (s s' : state R) tr, plain s /\ wall_free (bv (sG s)) (bh (sG s)) /\ Forall (fun q => in_dom (pG (sP s)) (q_x q) /\ q_v q = v0 /\ q_b q = v0) (bodies (sL s)) /\
  after calm fill 1 s [] = Ok (s', tr) /\ drive AX (bodies (sL s)) = 0 /\ drive AX (bodies (sL s')) = 1/10 * t.
Proof. exact p_C148_self_refuted. Qed.
Print Assumptions C148_self_refuted.

(** Two elastic points of one cell, of which the first catches up with the second. *)
Example C148_free_example : exists s : state R, plain s /\ wall_free (bv (sG s)) (bh (sG s)) /\ 0 <= p_Mtol (sP s) /\ (forall P, no_surface (sP s) (calm P)) /\ (forall P, ld_g (calm P) = 0) /\
  Forall (fun q => q_b q = v0) (bodies (sL s)) /\
  (forall k, (k < 1)%nat -> let B := t_run calm k (sP s) (sG s) (bodies (sL s)) in all_heavy (scheme_at calm k (sP s) (sG s)) B /\
    Forall (fun q => in_dom (pG (sP s)) (q_x q) /\ (p_check (sP s) = true -> vz (q_x q) = 0)) B) /\ drive AX (bodies (sL s)) = 8.
Proof. exact x_C148_free. Qed.
