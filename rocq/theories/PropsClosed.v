(** * Segregation at walls and empty nodes: C80.
    Statements only; the proofs are in ThmClosed.v. *)
From Coq Require Import ZArith List Bool Arith Lia Reals Lra.
From Verif Require Import State NumR Spec LibList LibR ModelGrid ModelIntegr ModelNT ProofsGrid Concrete ThmMapping ThmSeg ThmNT.
Import ListNotations.
From Verif Require Import ThmClosed.
Local Open Scope R_scope.

(** Along a row, the stretch of nodes from [lo] to [hi - 1] whose two ends lie between pairs of neighbouring closed nodes (or at the ends of the
    row) keeps the total of every size class.  In particular a node that is closed and has closed neighbours, keeps its composition. *)
Theorem C80_rows : forall (P : params R) G A, KT0 P G = Ok A ->
  forall j k lo hi, (j < ny (pG P))%nat -> (k < ns (pG P))%nat -> (lo <= hi <= nx (pG P))%nat ->
  let closed i := closed_node P G (j * nx (pG P) + i) in
  sealed (nx (pG P)) closed lo -> sealed (nx (pG P)) closed hi ->
  fsum (hi - lo) (fun i => nth k (nth (j * nx (pG P) + (lo + i)) A []) 0) = 0.
Proof. exact p_C80_rows. Qed.
Print Assumptions C80_rows.

(** The same along columns. *)
Theorem C80_columns : forall (P : params R) G A, KT1 P G = Ok A ->
  forall i k lo hi, (i < nx (pG P))%nat -> (k < ns (pG P))%nat -> (lo <= hi <= ny (pG P))%nat ->
  let closed j := closed_node P G (j * nx (pG P) + i) in
  sealed (ny (pG P)) closed lo -> sealed (ny (pG P)) closed hi ->
  fsum (hi - lo) (fun j => nth k (nth ((lo + j) * nx (pG P) + i) A []) 0) = 0.
Proof. exact p_C80_columns. Qed.
Print Assumptions C80_columns.

(** Two empty columns in the middle of a row of four split it into two parts. *)
Example C80_rows_example : exists (P : params R) G A, KT0 P G = Ok A /\ (0 < ny (pG P))%nat /\ (0 < ns (pG P))%nat /\ nx (pG P) = 4%nat /\
  sealed 4 (fun i => closed_node P G (0 * 4 + i)) 0 /\ sealed 4 (fun i => closed_node P G (0 * 4 + i)) 2 /\ ~ closed_node P G 0.
Proof. exact x_C80_rows. Qed.

Example C80_columns_example : exists (P : params R) G A, KT1 P G = Ok A /\ (0 < nx (pG P))%nat /\ (0 < ns (pG P))%nat /\ ny (pG P) = 3%nat /\
  sealed 3 (fun j => closed_node P G (j * nx (pG P) + 0)) 0 /\ sealed 3 (fun j => closed_node P G (j * nx (pG P) + 0)) 2 /\ ~ closed_node P G 0.
Proof. exact x_C80_columns. Qed.
