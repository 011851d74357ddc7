(** * Bodies moved by whole cells, and observers that move by whole cells: C144, C143.
    Statements only; the proofs are in ThmCells.v. *)
From Coq Require Import ZArith Reals List Bool Arith Lra Lia.
From RecordUpdate Require Import RecordUpdate.
From Verif Require Import State NumR Spec SpecLaws SpecStep SpecScheme SpecView LibList LibR ModelGrid ModelConstit ModelParticle ModelMPList
  ModelIntegr ModelMain ProofsGrid ProofsMap ProofsP2G ProofsWalls ProofsLaws ProofsInOut ProofsHist Concrete
  ThmMapping ThmWalls ThmLaws ThmInOut ThmHist ProofsStep ProofsPoints ThmStep ThmBalance ThmEnergy ThmFall ThmGeo ProofsScheme ProofsView ThmScheme ThmView ThmSpin ThmAngular ThmBeat ThmObserver ThmSilent.
Import ListNotations.
From Verif Require Import ThmCells.
Local Open Scope R_scope.

(** Over any number of steps, when the observer moves by a whole number of cells per step. *)
Theorem C143_run : forall uf fill fill' (V : V3 R) i j n (s t : state R) tr tr', plain s -> plain t -> sP t = sP s -> sG t = sG s ->
  wall_free (bv (sG s)) (bh (sG s)) -> 0 <= p_Mtol (sP s) -> (forall P, no_surface (sP s) (uf P)) ->
  p_dt (sP s) * vx V = IZR i * cell_w (pG (sP s)) -> p_dt (sP s) * vy V = IZR j * cell_h (pG (sP s)) -> vz V = 0 ->
  bodies (sL t) = map (seen_from V 0) (bodies (sL s)) ->
  (forall k, (k < n)%nat -> let B := t_run uf k (sP s) (sG s) (bodies (sL s)) in all_heavy (scheme_at uf k (sP s) (sG s)) B /\
    Forall (fun q => in_dom (pG (sP s)) (q_x q) /\ in_dom (pG (sP s)) (add3 (q_x q) (INR k * p_dt (sP s)) V) /\ (p_check (sP s) = true -> vz (q_x q) = 0)) B) ->
  exists s' sr t' sr', after uf fill n s tr = Ok (s', sr) /\ after uf fill' n t tr' = Ok (t', sr') /\
  bodies (sL t') = map (seen_from V (INR n * p_dt (sP s))) (bodies (sL s')).
Proof. exact p_C143_run. Qed.
Print Assumptions C143_run.

(** Bodies moved by a whole number of cells, along the axes, do as before: after any
    number of steps the points differ by just that shift. *)
Theorem C144_cells : forall uf fill fill' i j n (s t : state R) tr tr', plain s -> plain t -> sP t = sP s -> sG t = sG s ->
  wall_free (bv (sG s)) (bh (sG s)) -> (forall P, no_surface (sP s) (uf P)) ->
  bodies (sL t) = map (carried (pG (sP s)) i j) (bodies (sL s)) ->
  (forall k, (k < n)%nat -> Forall (fun q => in_dom (pG (sP s)) (q_x q) /\ in_dom (pG (sP s)) (by_cells (pG (sP s)) i j (q_x q)) /\ (p_check (sP s) = true -> vz (q_x q) = 0))
    (t_run uf k (sP s) (sG s) (bodies (sL s)))) ->
  exists s' sr t' sr', after uf fill n s tr = Ok (s', sr) /\ after uf fill' n t tr' = Ok (t', sr') /\
  bodies (sL t') = map (carried (pG (sP s)) i j) (bodies (sL s')).
Proof. exact p_C144_cells. Qed.
Print Assumptions C144_cells.

(** Two elastic points that approach each other in one cell, set down a part [d] of a cell
    further on: all stresses that they get in a step are [1 / (1 - 4 d^2)] times as large. *)
Theorem C144_between_refuted : forall fill d v, 0 < d < 1/4 -> v <> 0 -> exists (s t s' t' : state R) tr tr', plain s /\ plain t /\ sP t = sP s /\ sG t = sG s /\ wall_free (bv (sG s)) (bh (sG s)) /\
  Forall (fun q => in_dom (pG (sP s)) (q_x q)) (bodies (sL s)) /\ Forall (fun q => in_dom (pG (sP t)) (q_x q)) (bodies (sL t)) /\
  bodies (sL t) = map (slid d) (bodies (sL s)) /\ after calm fill 1 s [] = Ok (s', tr) /\ after calm fill 1 t [] = Ok (t', tr') /\
  map (fun q => xx (q_s q)) (bodies (sL t')) = map (fun q => xx (q_s q) / (1 - 4 * d * d)) (bodies (sL s')) /\
  map (fun q => xx (q_s q)) (bodies (sL t')) <> map (fun q => xx (q_s q)) (bodies (sL s')).
Proof. exact p_C144_between_refuted. Qed.
Print Assumptions C144_between_refuted.

(** Two points that approach each other, and the same two points one cell to the right. *)
Example C144_cells_example : exists i j (s t : state R), plain s /\ plain t /\ sP t = sP s /\ sG t = sG s /\
  wall_free (bv (sG s)) (bh (sG s)) /\ (forall P, no_surface (sP s) (calm P)) /\
  bodies (sL t) = map (carried (pG (sP s)) i j) (bodies (sL s)) /\
  (forall k, (k < 1)%nat -> Forall (fun q => in_dom (pG (sP s)) (q_x q) /\ in_dom (pG (sP s)) (by_cells (pG (sP s)) i j (q_x q)) /\ (p_check (sP s) = true -> vz (q_x q) = 0))
    (t_run calm k (sP s) (sG s) (bodies (sL s)))) /\ (i <> 0)%Z /\ length (bodies (sL s)) = 2%nat.
Proof. exact x_C144_cells. Qed.

(** Two points at rest, and an observer who moves by one cell per step, for two steps. *)
Example C143_run_example : exists (V : V3 R) i j (s t : state R), plain s /\ plain t /\ sP t = sP s /\ sG t = sG s /\
  wall_free (bv (sG s)) (bh (sG s)) /\ 0 <= p_Mtol (sP s) /\ (forall P, no_surface (sP s) (calm P)) /\
  p_dt (sP s) * vx V = IZR i * cell_w (pG (sP s)) /\ p_dt (sP s) * vy V = IZR j * cell_h (pG (sP s)) /\ vz V = 0 /\
  bodies (sL t) = map (seen_from V 0) (bodies (sL s)) /\
  (forall k, (k < 2)%nat -> let B := t_run calm k (sP s) (sG s) (bodies (sL s)) in all_heavy (scheme_at calm k (sP s) (sG s)) B /\
    Forall (fun q => in_dom (pG (sP s)) (q_x q) /\ in_dom (pG (sP s)) (add3 (q_x q) (INR k * p_dt (sP s)) V) /\ (p_check (sP s) = true -> vz (q_x q) = 0)) B) /\
  (i <> 0)%Z /\ length (bodies (sL s)) = 2%nat.
Proof. exact x_C143_run. Qed.
