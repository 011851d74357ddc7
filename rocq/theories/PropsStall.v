(** * Runs with a dynamic time step: C45, C117.
    Statements only; the proofs are in ThmStall.v. *)
From Coq Require Import ZArith List Bool Arith Lia Reals Lra.
From Verif Require Import State NumR LibR LibList Spec SpecStep ModelGrid ModelConstit ModelParticle ModelMPList
  ModelIntegr ModelMain ProofsGrid ProofsMap ProofsP2G ProofsWalls ProofsLaws ProofsSym ProofsInOut ProofsHist Concrete
  ThmMapping ThmWalls ThmLaws ThmInOut ThmLoop ThmHist ProofsStep ThmStep ProofsPoints ThmBalance ThmRun.
Import ListNotations.
From Verif Require Import ThmStall.
Local Open Scope R_scope.

(** The step is not smaller than it has to be: it is what the fastest node needs for a tenth of a cell, or the critical
    time of a phase.  The nodes that are too light to move any point count. *)
Theorem C45_tight : forall (P : params R) G L dx dy,
  pdx (pG P) = Some dx -> pdy (pG P) = Some dy -> 0 < dx -> 0 < dy ->
  length (gq G) = length (gm G) ->
  (exists i, (i < length (gm G))%nat /\ nth i (gm G) 0 <> 0 /\ (vx (nth i (gq G) v0) <> 0 \/ vy (nth i (gq G) v0) <> 0)) ->
  exists dt, dynamic_dt P G L = Ok dt /\
    ((exists i, (i < length (gm G))%nat /\
       (dt * fst (speeds G i) = p_CFL P * (1/10 * Rmin dx dy) \/ dt * snd (speeds G i) = p_CFL P * (1/10 * Rmin dx dy))) \/
     (exists ph c, In ph L /\ s_crit (ph_sol ph) = Some c /\ dt = p_CFL P * c)).
Proof. exact p_C45_tight. Qed.
Print Assumptions C45_tight.

(** A run with a dynamic step ends, in a known number of passes, if no node becomes faster than [V] and no critical time
    falls below [c] as long as it lasts. *)
Theorem C117_bounded : forall uf fill fuel (s : state R) dx dy V c, p_dynamic (sP s) = true -> 0 <= p_dt (sP s) -> 0 < p_CFL (sP s) ->
  pdx (pG (sP s)) = Some dx -> pdy (pG (sP s)) = Some dy -> 0 < dx -> 0 < dy -> 0 < V -> 0 < c ->
  (forall s1 tr s2 tr', going uf fill s s1 -> p_t (sP s1) <= p_tf (sP s1) -> pass uf fill s1 tr = Ok (s2, tr') -> moderate V c s2) ->
  p_tf (sP s) - p_t (sP s) < INR fuel * (p_CFL (sP s) * Rmin (1/10 * Rmin dx dy / V) c) ->
  main_loop uf fill (Datatypes.S fuel) s <> None.
Proof. exact p_C117_bounded. Qed.
Print Assumptions C117_bounded.

(** Instance: C117_bounded_example in PropsStallCase.v. *)

Example C45_tight_example : forall G : grid R,
  let G := G <| gm := [1; 0; 2; 1] |> <| gq := [v0; v0; mkV3 3 0 0; mkV3 1 (-1) 0] |> in
  pdx (pG (ex_params ex_bounds)) = Some 1 /\ pdy (pG (ex_params ex_bounds)) = Some 1 /\ length (gq G) = length (gm G) /\
  exists i, (i < length (gm G))%nat /\ nth i (gm G) 0 <> 0 /\ (vx (nth i (gq G) v0) <> 0 \/ vy (nth i (gq G) v0) <> 0).
Proof. exact x_C45_tight. Qed.
