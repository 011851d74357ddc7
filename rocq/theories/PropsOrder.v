(** * The order of the points does not matter
    Statements only; the proofs are in ThmOrder.v. *)
From Coq Require Import ZArith List Bool Arith Lia Reals Lra Permutation.
From Verif Require Import State NumR LibR LibList Spec SpecOrder SpecStep Tensor ModelGrid ModelConstit ModelParticle ModelMPList ModelIntegr ModelMain ProofsGrid ProofsInOut ProofsStep ProofsOrder ProofsOrder2 ProofsOrder3 Concrete ThmMapping ThmStep.
Import ListNotations.
From Verif Require Import ThmOrder.
Local Open Scope R_scope.

(** One step. *)
Theorem C53_step : forall uf fill (s t s' : state R), shuffled s t -> time_march uf fill s = Ok s' ->
  exists t', time_march uf fill t = Ok t' /\ shuffled s' t' /\
    exists F new, outcome F new (sL s) (sL s') /\ outcome F new (sL t) (sL t').
Proof. exact p_C53_step. Qed.
Print Assumptions C53_step.

(** The whole run: the same saves and hooks, or an abort, or no end, in both
    orders. *)
Theorem C53_run : forall uf fill n (s t : state R), shuffled s t ->
  match main_loop uf fill n s with
  | Some (Ok (s', tr)) => exists t', main_loop uf fill n t = Some (Ok (t', tr)) /\ shuffled s' t'
  | Some (Err _) => exists e, main_loop uf fill n t = Some (Err e)
  | None => main_loop uf fill n t = None
  end.
Proof. exact p_C53_run. Qed.
Print Assumptions C53_run.

(** Instance: C53_run_example in PropsCasesStep.v. *)

(** Two different orders of two different points. *)
Example C53_step_example : forall uf fill, exists s t s' : state R, shuffled s t /\ sL s <> sL t /\ time_march uf fill s = Ok s'.
Proof. exact x_C53_step. Qed.

(** The energies reported for a state. *)
Theorem C53_energy : forall (P : params R) (La Lb : list (phase R)) r, Forall2 reordered La Lb -> measure_energy P La = Ok r -> measure_energy P Lb = Ok r.
Proof. exact p_C53_energy. Qed.
Print Assumptions C53_energy.

(** Instance: C53_energy_example in PropsCasesStep.v. *)
