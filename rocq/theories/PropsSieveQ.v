(** * Segregation does not keep the total mass of a size class: C111.
    Statements only; the proofs are in ThmSieveQ.v. *)
From Coq Require Import ZArith QArith Qabs List Bool Arith Lia.
From RecordUpdate Require Import RecordUpdate.
From Verif Require Import State NumQ ModelGrid ModelMain Concrete.
Import ListNotations.
From Verif Require Import ThmSieveQ.
Local Open Scope Q_scope.

(** The claim is that segregation keeps the total mass of every size class.  The increments along a line of nodes sum
    to zero, but the nodes weigh differently, and the mass of the first class changes, while no point enters, leaves or
    changes its mass. *)
Theorem C111_mass_refuted : exists (G : grid Q) s1,
  grid_init (T := Q) ex_gridp ex_bounds = Ok G /\
  time_march (fun _ => mkLoads 0 0 0 0) (fun _ l => l) (sieve_state G) = Ok s1 /\
  (forall k, (k < 12)%nat -> p_Mtol (sP (sieve_state G)) < nth k (gm (sG s1)) 0) /\
  map (fun ph => map pm (ph_pts ph)) (sL s1) = map (fun ph => map pm (ph_pts ph)) (sL (sieve_state G)) /\
  class_total 0 (sieve_state G) == 4 /\ ~ class_total 0 s1 == 4.
Proof. exact p_C111_mass_refuted. Qed.
Print Assumptions C111_mass_refuted.
