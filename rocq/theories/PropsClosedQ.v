(** * Segregation at empty nodes: a concrete run
    Statements only; the proofs are in ThmClosedQ.v. *)
From Coq Require Import ZArith List Bool Arith Lia Reals Lra QArith.
From Verif Require Import State NumQ ModelGrid ModelIntegr Concrete ThmSegQ.
Import ListNotations.
From Verif Require Import ThmClosedQ.
Local Open Scope R_scope.

(** One empty column does not keep two bodies apart: the advection puts grains on the node without mass, beside a
    node that is not empty, where the mixture is uniform on either side. *)
Theorem C80_empty_refuted : exists P G A m k, KT0 (T := Q) P G = Ok A /\ (m < nodes (pG P))%nat /\
  (nth m (gm G) 0 == 0)%Q /\ (0 < p_Mtol P)%Q /\ nth m (btot G) true = false /\ (nth k (nth m (g_phi G) []) 1 == 0)%Q /\
  ~ (nth k (nth m A []) 0 == 0)%Q.
Proof. exact p_C80_empty_refuted. Qed.
Print Assumptions C80_empty_refuted.
