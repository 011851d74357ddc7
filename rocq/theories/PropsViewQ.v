(** * The mirror image of points on a line of nodes: C87.
    Statements only; the proofs are in ThmViewQ.v. *)
From Coq Require Import ZArith QArith List Bool.
From Verif Require Import State Num NumQ NumX ModelGrid ModelConstit ModelParticle ModelMPList ModelIntegr ModelMain Concrete.
Import ListNotations.
From Verif Require Import ThmViewQ.
Local Open Scope Q_scope.

(** A run of the mirror image is the mirror image of the run, for all points of the domain: false for points on a vertical
    line of nodes.  Two states that mirror each other, each with one point at rest without gravity and walls: at x = 1 and at x = 2 of
    [0,3].  After one step both points move towards positive x, with the same velocity. *)
Theorem C87_on_lines_refuted : exists (G : grid (X Q)) s s' a,
  grid_init (T := X Q) ex_gridp ex_bounds = Ok G /\
  time_march (fun _ => mkLoads n0 n0 n0 n0) (fun _ l => l) (mkState (ex_params ex_bounds) G (on_line 1)) = Ok s /\
  time_march (fun _ => mkLoads n0 n0 n0 n0) (fun _ l => l) (mkState (ex_params ex_bounds) G (on_line 2)) = Ok s' /\
  first_vx s = Fin a /\ first_vx s' = Fin a /\ 0 < a.
Proof. exact p_C87_on_lines_refuted. Qed.
Print Assumptions C87_on_lines_refuted.
