(** * Rounding: a negative mass.
    Statements only; the proofs are in ThmRoundF.v. *)
From Coq Require Import ZArith List Bool Floats.SpecFloat.
From RecordUpdate Require Import RecordUpdate.
From Verif Require Import Num State NumF Spec LibList ModelGrid ModelConstit ModelParticle ModelMPList ModelMain Concrete.
Import ListNotations.
From Verif Require Import ThmRoundF.
Local Open Scope Z_scope.

(** The allowance in C114_floor is needed: positive masses can give a node a negative mass.  In binary64, with seven nodes
    from 0 to 2, a point of mass 2 at 1 - 2^-53, the number below the fourth node, is put into the cell to the right of that
    node, and the fifth node gets a negative mass.  In exact arithmetic no node does. *)
Theorem C114_negative : exists (G G' : grid binary64) L1 L2,
  grid_init (pG speck_params) ex_bounds = Ok G /\ nltb n0 speck_x = true /\ nltb speck_x n1 = true /\
  ref_nodes speck_params (wipe speck_params G) speck = Ok L1 /\ basis_all (wipe speck_params G) L1 = Ok L2 /\
  p2g_all speck_params L2 (wipe speck_params G) = Ok G' /\
  forallb (fun ph => forallb (fun p => nltb n0 (pm p)) (ph_pts ph)) speck = true /\
  neqb (nth 3 (gX G) n0) n1 = true /\ nltb (nth 4 (gm G') n0) n0 = true.
Proof. exact p_C114_negative. Qed.
Print Assumptions C114_negative.
