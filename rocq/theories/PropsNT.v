(** * The NT scheme: C65, C66.
    Statements only; the proofs are in ThmNT.v. *)
From Coq Require Import ZArith List Bool Arith Lia Reals Lra.
From Verif Require Import State NumR LibR LibList Spec ModelGrid ModelIntegr ModelNT ProofsGrid Concrete ThmSeg.
Import ListNotations.
From Verif Require Import ThmNT.
Local Open Scope R_scope.

(** Along a line whose end nodes are walls or empty the increments of each
    class sum to zero. *)
Theorem C65_line : forall (dt dx c : R) ss n phi g b k, (1 <= n)%nat -> b 0%nat = true -> b (n - 1)%nat = true ->
  fsum n (nt_line dt dx c ss n phi g b k) = 0.
Proof. exact p_C65_line. Qed.
Print Assumptions C65_line.

(** Instance: C65_line_example in PropsNTQ.v. *)

Theorem C65_rows : forall (P : params R) G A, NT0 P G = Ok A -> (1 <= nx (pG P))%nat ->
  forall j k, (j < ny (pG P))%nat -> (k < ns (pG P))%nat ->
  closed_node P G (j * nx (pG P)) -> closed_node P G (j * nx (pG P) + (nx (pG P) - 1)) ->
  fsum (nx (pG P)) (fun i => nth k (nth (j * nx (pG P) + i) A []) 0) = 0.
Proof. exact p_C65_rows. Qed.
Print Assumptions C65_rows.

(** Instance: C65_rows_example in PropsCasesQ.v. *)

Theorem C65_columns : forall (P : params R) G A, NT1 P G = Ok A -> (1 <= ny (pG P))%nat ->
  forall i k, (i < nx (pG P))%nat -> (k < ns (pG P))%nat ->
  closed_node P G i -> closed_node P G ((ny (pG P) - 1) * nx (pG P) + i) ->
  fsum (ny (pG P)) (fun j => nth k (nth (j * nx (pG P) + i) A []) 0) = 0.
Proof. exact p_C65_columns. Qed.
Print Assumptions C65_columns.

(** Instance: C65_columns_example in PropsCasesQ.v. *)

(** With two sizes, fractions that sum to one and a step that respects
    [dt |c g| / dx < smin / (smax - smin)], the increments of the two classes
    are opposite at every node: the fractions keep summing to one. *)
Theorem C66_two_sizes : forall (dt dx c s1 s2 gm : R) n (f g : nat -> R) b, 0 < s1 -> 0 < s2 -> 0 < dx -> 0 <= dt ->
  (forall i, (i < n)%nat -> 0 <= f i <= 1 /\ Rabs (g i) <= gm) ->
  dt * Rabs c * gm / dx * Rabs (1 / s1 - 1 / s2) < Rmin (1 / s1) (1 / s2) ->
  forall i, (i < n)%nat -> let phi := fun i => [f i; 1 - f i] in
  nt_line dt dx c [s1; s2] n phi g b 0 i + nt_line dt dx c [s1; s2] n phi g b 1 i = 0.
Proof. exact p_C66_two_sizes. Qed.
Print Assumptions C66_two_sizes.

(** Instance: C66_two_sizes_example in PropsNTQ.v. *)

(** The KT scheme changes nothing where there is none, or in a step of no
    duration. *)
Theorem C67_kt : forall cyclic (dt dx c : R) ss n phi g b k i, (i < n)%nat ->
  dt = 0 \/ (forall j, (j < n)%nat -> g j = 0) -> kt_line cyclic dt dx c ss n phi g b k i = 0.
Proof. exact p_C67_kt. Qed.
Print Assumptions C67_kt.

Example C67_kt_example : (1 < 3)%nat /\ forall j, (j < 3)%nat -> (fun _ : nat => 0) j = 0.
Proof. exact x_C67_kt. Qed.

(** The NT scheme smooths the fractions all the same. *)
Theorem C67_nt_refuted : forall dt dx c s1 s2 : R,
  (forall b, nt_line dt dx c [s1; s2] 3 spike (fun _ => 0) b 0 1 = - (1 / 2)) /\
  (forall g b, nt_line 0 dx c [s1; s2] 3 spike g b 0 1 = - (1 / 2)).
Proof. exact p_C67_nt_refuted. Qed.
Print Assumptions C67_nt_refuted.
