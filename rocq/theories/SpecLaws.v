(** * Specification vocabulary for stresses and strains. *)
From Coq Require Import ZArith Reals List.
From Verif Require Import State NumR Spec.
Local Open Scope R_scope.

(** Deviatoric part and Euclidean (Frobenius) norm of a matrix. *)
Definition tr3 (a : M3 R) : R := xx a + yy a + zz a.
Definition deviator (a : M3 R) : M3 R :=
  mkM3 (xx a - tr3 a / 3) (xy a) (xz a) (yx a) (yy a - tr3 a / 3) (yz a) (zx a) (zy a) (zz a - tr3 a / 3).
Definition inner (a b : M3 R) : R :=
  xx a * xx b + xy a * xy b + xz a * xz b + yx a * yx b + yy a * yy b + yz a * yz b +
  zx a * zx b + zy a * zy b + zz a * zz b.
Definition frob (a : M3 R) : R := sqrt (inner a a).
Definition times (k : R) (a : M3 R) : M3 R :=
  mkM3 (k * xx a) (k * xy a) (k * xz a) (k * yx a) (k * yy a) (k * yz a) (k * zx a) (k * zy a) (k * zz a).
Definition plus3 (a b : M3 R) : M3 R :=
  mkM3 (xx a + xx b) (xy a + xy b) (xz a + xz b) (yx a + yx b) (yy a + yy b) (yz a + yz b)
       (zx a + zx b) (zy a + zy b) (zz a + zz b).
(** [k] on the diagonal. *)
Definition iso (k : R) : M3 R := mkM3 k 0 0 0 k 0 0 0 k.

(** Rotations and reflections; change of basis. *)
Definition orthogonal (Q : M3 R) : Prop := mm (mtr Q) Q = iso 1 /\ mm Q (mtr Q) = iso 1.
Definition turn (Q a : M3 R) : M3 R := mm (mm Q a) (mtr Q).

(** Linear isotropic elasticity with bulk modulus [K] and shear modulus [g]. *)
Definition hooke (K g : R) (e s : M3 R) : Prop :=
  tr3 s = 3 * K * tr3 e /\ deviator s = times (2 * g) (deviator e).

(** The corners of the grid cell that contains [x]. *)
Definition cell_corner (P : gridp R) (x : V3 R) (k : nat) : Prop :=
  vx x - cell_w P < node_x P k <= vx x + cell_w P /\
  vy x - cell_h P < node_y P k <= vy x + cell_h P.

(** An affine velocity field of the plane: velocity at [(X,Y)]. *)
Definition affine (c : V3 R) (A : M3 R) (X Y : R) : V3 R :=
  mkV3 (vx c + xx A * X + xy A * Y) (vy c + yx A * X + yy A * Y) (vz c + zx A * X + zy A * Y).
