(** * The kinetic pressure at empty nodes: C85.
    Statements only; the proofs are in ThmPkQ.v. *)
From Coq Require Import ZArith QArith List Bool.
From Verif Require Import State Num NumQ NumX ModelGrid ModelConstit ModelParticle ModelMPList ModelIntegr ModelMain Concrete.
Import ListNotations.
From Verif Require Import ThmPkQ.
Local Open Scope Q_scope.

(** The kinetic pressure is a number at every node: false.  After the first step of a segregating run, the nodes that carry
    no mass hold NaN, while the nodes of the body hold numbers, some of them positive. *)
Theorem C85_number_refuted : exists (G : grid (X Q)) s',
  grid_init (T := X Q) ex_gridp ex_bounds = Ok G /\
  time_march (fun P => p_loads P) (fun _ l => l) (mkState seg_params G (ex_L Elastic)) = Ok s' /\
  nth 2 (gm (sG s')) NaN = Fin 0 /\ nth 2 (g_pk (sG s')) PInf = NaN /\
  (exists a, nth 0 (g_pk (sG s')) NaN = Fin a /\ 0 < a).
Proof. exact p_C85_number_refuted. Qed.
Print Assumptions C85_number_refuted.
