(** * Runs with segregation never fail: C58.
    Statements only; the proofs are in ThmSift.v. *)
From Coq Require Import ZArith Reals List Bool Arith Lra Lia.
From RecordUpdate Require Import RecordUpdate.
From Verif Require Import State NumR Spec SpecLaws SpecStep LibList LibR ModelGrid ModelConstit ModelParticle ModelMPList
  ModelIntegr ModelMain ProofsGrid ProofsMap ProofsP2G ProofsWalls ProofsLaws ProofsInOut ProofsHist Concrete
  ThmMapping ThmWalls ThmLaws ThmInOut ThmHist ProofsStep ProofsPoints ThmStep.
Import ListNotations.
From Verif Require Import ThmSift.
Local Open Scope R_scope.

Theorem C113_law : forall P (S0 So : solid R) ip p G, reaches P p -> slens (nodes (pG P)) G ->
  In (s_law So) [Pouliquen; LinearMu; KenSimple] ->
  ((exists r, apply_law P S0 So ip p G = Ok r) <-> grainy (pG P) So p).
Proof. exact p_C113_law. Qed.
Print Assumptions C113_law.

(** Instance: C113_law_example in PropsGrist.v. *)

(** A step, with segregation or without, does not fail. *)
Theorem C58_step_sift : forall uf fill (s : state R), ready_sift s -> exists s', time_march uf fill s = Ok s'.
Proof. exact p_C58_step_sift. Qed.
Print Assumptions C58_step_sift.

Theorem C58_pass_sift : forall uf fill (s : state R) tr, ready_sift s -> p_dynamic (sP s) = false ->
  p_tf (sP s) <> 0 -> p_savetime (sP s) <> 0 -> exists r, pass uf fill s tr = Ok r.
Proof. exact p_C58_pass_sift. Qed.
Print Assumptions C58_pass_sift.

(** Two sizes in a moving, stressed body in a box under gravity. *)
Example C58_pass_sift_example : forall uf fill, exists (s : state R), ready_sift s /\ p_seg (sP s) = true /\ p_dynamic (sP s) = false /\
  p_tf (sP s) <> 0 /\ p_savetime (sP s) <> 0 /\ (exists s', time_march uf fill s = Ok s') /\ exists r, pass uf fill s [] = Ok r.
Proof. exact x_C58_pass_sift. Qed.
