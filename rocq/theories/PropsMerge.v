(** * Points at different places stay at different places: C145.
    Statements only; the proofs are in ThmMerge.v. *)
From Coq Require Import ZArith Reals List Bool Arith Lra Lia.
From RecordUpdate Require Import RecordUpdate.
From Verif Require Import State NumR Spec SpecLaws SpecStep SpecScheme SpecView LibList LibR ModelGrid ModelConstit ModelParticle ModelMPList
  ModelIntegr ModelMain ProofsGrid ProofsMap ProofsP2G ProofsWalls ProofsLaws ProofsInOut ProofsHist Concrete
  ThmMapping ThmWalls ThmLaws ThmInOut ThmHist ProofsStep ProofsPoints ThmStep ThmBalance ThmEnergy ThmFall ThmGeo ProofsScheme ProofsView ThmScheme ThmView ThmSpin ThmAngular ThmBeat ThmObserver ThmSilent ThmCells.
Import ListNotations.
From Verif Require Import ThmMerge.
Local Open Scope R_scope.

(** As long as no node goes a sixteenth of a cell in a step, points at different places
    stay at different places: for any walls, loads, materials and numbers of steps. *)
Theorem C145_apart : forall uf fill n c (s : state R) tr, plain s -> (forall P, no_surface (sP s) (uf P)) ->
  16 * c < cell_w (pG (sP s)) -> 16 * c < cell_h (pG (sP s)) ->
  (forall k, (k < n)%nat -> let B := t_run uf k (sP s) (sG s) (bodies (sL s)) in goes_by c (scheme_at uf k (sP s) (sG s)) B /\
    Forall (fun q => in_dom (pG (sP s)) (q_x q) /\ (p_check (sP s) = true -> vz (q_x q) = 0)) B) ->
  NoDup (map spot (bodies (sL s))) ->
  exists s' tr', after uf fill n s tr = Ok (s', tr') /\ length (bodies (sL s')) = length (bodies (sL s)) /\ NoDup (map spot (bodies (sL s'))).
Proof. exact p_C145_apart. Qed.
Print Assumptions C145_apart.

(** Two points that approach each other so fast that the nodes of their cell go half a cell
    in the step end at one place, whatever the time step. *)
Theorem C145_meet_refuted : forall fill h, 0 < h -> exists (s s' : state R) tr, plain s /\ p_dt (sP s) = h /\ Forall (fun q => in_dom (pG (sP s)) (q_x q)) (bodies (sL s)) /\ NoDup (map spot (bodies (sL s))) /\
  after calm fill 1 s [] = Ok (s', tr) /\ map spot (bodies (sL s')) = [(1/2, 1/2); (1/2, 1/2)] /\ ~ NoDup (map spot (bodies (sL s'))).
Proof. exact p_C145_meet_refuted. Qed.
Print Assumptions C145_meet_refuted.

(** Two points without stiffness that approach each other, slowly. *)
Example C145_apart_example : exists c (s : state R), plain s /\ (forall P, no_surface (sP s) (calm P)) /\
  16 * c < cell_w (pG (sP s)) /\ 16 * c < cell_h (pG (sP s)) /\
  (forall k, (k < 1)%nat -> let B := t_run calm k (sP s) (sG s) (bodies (sL s)) in goes_by c (scheme_at calm k (sP s) (sG s)) B /\
    Forall (fun q => in_dom (pG (sP s)) (q_x q) /\ (p_check (sP s) = true -> vz (q_x q) = 0)) B) /\
  NoDup (map spot (bodies (sL s))) /\ map q_v (bodies (sL s)) = [mkV3 1 0 0; mkV3 (- 1) 0 0].
Proof. exact x_C145_apart. Qed.
