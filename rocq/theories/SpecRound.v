(** * What rounding may do to the sums on the grid.

    Numbers are rounded after every operation with relative error at most [u].  Nothing here depends on the model. *)
From Coq Require Import ZArith Reals List.
From Verif Require Import State Spec.
Local Open Scope R_scope.

(** Every number is rounded with relative error at most [u] (2^-53 for binary64 rounded to nearest). *)
Definition rounding (rd : R -> R) (u : R) : Prop :=
  0 <= u <= 1 / 100 /\ forall x, Rabs (rd x - x) <= u * Rabs x.

(** Whole numbers up to [n] are not rounded (2^53 for binary64). *)
Definition counts (rd : R -> R) (n : nat) : Prop := forall z, (0 <= z <= Z.of_nat n)%Z -> rd (IZR z) = IZR z.

(** How far off, in cells, a point may be placed in a row of [n] nodes from [a] to [b]. *)
Definition slip (u a b : R) (n : nat) : R :=
  32 * u * INR n * Rmax (Rabs a) (Rabs b) / ((b - a) / (INR n - 1)).
Definition slip_x (u : R) (P : gridp R) : R := slip u (x_m P) (x_M P) (nx P).
Definition slip_y (u : R) (P : gridp R) : R := slip u (y_m P) (y_M P) (ny P).

(** The grid is not so fine, or so far from the origin, that its cells vanish in the rounding. *)
Definition resolved (u : R) (P : gridp R) : Prop := slip_x u P <= 1 / 32 /\ slip_y u P <= 1 / 32.

(** The point is on the grid, and a rounding away from its right and upper ends. *)
Definition clear (u : R) (P : gridp R) (x : V3 R) : Prop :=
  x_m P <= vx x < x_M P - 2 * slip_x u P * cell_w P /\ y_m P <= vy x < y_M P - 2 * slip_y u P * cell_h P.

(** The points within two cells of a node: how many they are, and sums over them. *)
Definition near_node (P : gridp R) (k : nat) (x : V3 R) : bool :=
  if Rle_dec (Rabs (vx x - node_x P k)) (2 * cell_w P) then
    if Rle_dec (Rabs (vy x - node_y P k)) (2 * cell_h P) then true else false
  else false.
Definition crowd (P : gridp R) (L : list (phase R)) (k : nat) : nat :=
  length (filter (fun p => near_node P k (px p)) (flat_map live L)).
Definition near_sum (P : gridp R) (L : list (phase R)) (k : nat) (w : phase R -> particle R -> R) : R :=
  psum L (fun ph p => if near_node P k (px p) then w ph p else 0).

(** The relative error of a sum of [c] terms, each the result of a few operations ([e] in all). *)
Definition drift (u : R) (c e : nat) : R := (1 + u) ^ (c + e) / (1 - u) - 1.
(** The error of what a node gets, relative to what the points around it have. *)
Definition blur (u : R) (P : gridp R) (c e : nat) : R :=
  drift u c e * ((1 + 2 * slip_x u P) * (1 + 2 * slip_y u P)) + 7 * (slip_x u P + slip_y u P).
