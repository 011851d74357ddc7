(** * Grain size segregation: limiters and fluxes
    Statements only; the proofs are in ThmSeg.v. *)
From Coq Require Import ZArith List Bool Arith Lia Reals Lra.
From Verif Require Import State NumR LibR LibList Spec ModelGrid ModelIntegr ProofsGrid Concrete.
Import ListNotations.
From Verif Require Import ThmSeg.
Local Open Scope R_scope.

Theorem C37_minmod : forall a b : R,
  (a * b <= 0 -> minmod a b = 0) /\
  (0 < a * b -> Rabs (minmod a b) = Rmin (Rabs a) (Rabs b) /\ 0 < minmod a b * a) /\
  minmod a b = minmod b a /\ homogeneous minmod.
Proof. exact p_C37_minmod. Qed.
Print Assumptions C37_minmod.

(** Instance: C37_minmod_example in PropsCases.v. *)

Theorem C37_superbee : forall a b : R,
  (a * b <= 0 -> superbee a b = 0) /\
  (0 < a * b -> Rmin (Rabs a) (Rabs b) <= Rabs (superbee a b) <= Rmin (2 * Rmin (Rabs a) (Rabs b)) (Rmax (Rabs a) (Rabs b)) /\
                0 < superbee a b * a) /\
  superbee a b = superbee b a /\ homogeneous superbee.
Proof. exact p_C37_superbee. Qed.
Print Assumptions C37_superbee.

Example C37_superbee_example : minmod (-2) (-3) = -2 /\ superbee (-2) (-3) = -3 /\ superbee 1 3 = 2 /\ superbee 1 (-3) = 0.
Proof. exact x_C37_superbee. Qed.

(** Along every line the increments of a class sum to zero. *)
Theorem C38_line : forall cyclic (dt dx c : R) ss n phi g b k, (1 <= n)%nat ->
  fsum n (kt_line cyclic dt dx c ss n phi g b k) = 0.
Proof. exact p_C38_line. Qed.
Print Assumptions C38_line.

(** Instance: C38_line_example in PropsCasesQ.v. *)

(** On the grid: along every row for the advection in x, along every column for
    the advection in y.  [A] is the table of increments, by node and class. *)
Theorem C38_rows : forall (P : params R) G A, KT0 P G = Ok A -> (1 <= nx (pG P))%nat ->
  forall j k, (j < ny (pG P))%nat -> (k < ns (pG P))%nat ->
  fsum (nx (pG P)) (fun i => nth k (nth (j * nx (pG P) + i) A []) 0) = 0.
Proof. exact p_C38_rows. Qed.
Print Assumptions C38_rows.

(** Instance: C38_rows_example in PropsSegQ.v. *)

Theorem C38_columns : forall (P : params R) G A, KT1 P G = Ok A -> (1 <= ny (pG P))%nat ->
  forall i k, (i < nx (pG P))%nat -> (k < ns (pG P))%nat ->
  fsum (ny (pG P)) (fun j => nth k (nth (j * nx (pG P) + i) A []) 0) = 0.
Proof. exact p_C38_columns. Qed.
Print Assumptions C38_columns.

(** Instance: C38_columns_example in PropsCasesQ.v. *)

Theorem C39_uniform : forall cyclic (dt dx c : R) ss n phi g b f, (1 <= n)%nat ->
  (forall i, (i < n)%nat -> phi i = f) -> length f = length ss -> Forall (fun s => 0 < s) ss ->
  Forall (Rle 0) f -> Rsum f = 1 ->
  forall i, (i < n)%nat -> fsum (length ss) (fun k => kt_line cyclic dt dx c ss n phi g b k i) = 0.
Proof. exact p_C39_uniform. Qed.
Print Assumptions C39_uniform.

(** Instance: C39_uniform_example in PropsInst.v. *)
