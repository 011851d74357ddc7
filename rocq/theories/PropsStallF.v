(** * A run with a dynamic time step that never ends: C117.
    Statements only; the proofs are in ThmStallF.v. *)
From Coq Require Import List Bool Arith ZArith Lia.
From Coq Require Import Floats.SpecFloat.
From RecordUpdate Require Import RecordUpdate.
From Verif Require Import State NumF NumF0 ModelGrid ModelParticle ModelMPList ModelMain Concrete.
Import ListNotations.
From Verif Require Import ThmStallF.
Local Open Scope nat_scope.

(** A run with a dynamic time step ends: false.  Nodes in reach of a point that lies exactly on a line of nodes get a part of
    its internal force but no mass.  Their velocity is infinite, [nan_to_num] makes it the largest number, and the next time
    step is so small that it changes neither the clock nor the point.  Here it is the floor that keeps the point on the line. *)
Theorem C117_ends_refuted : exists G, grid_init ex_gridp floor_only = Ok G /\
  (forall fuel, main_loop falls keep fuel (slide G) = None) /\
  p_dynamic (sP (slide G)) = true /\ (n0 <? p_tf (sP (slide G)))%num = true.
Proof. exact p_C117_ends_refuted. Qed.
Print Assumptions C117_ends_refuted.
