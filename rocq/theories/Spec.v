(** * Specification vocabulary: sums, tent functions, node coordinates.

    These definitions do not refer to the functions of the model; they only
    use the data types of State.v. *)
From Coq Require Import ZArith Reals List Arith Lra.
From Verif Require Import State NumR.
Import ListNotations.
Local Open Scope R_scope.

(** Finite sums. *)
Definition Rsum (l : list R) : R := fold_right Rplus 0 l.
Fixpoint fsum (n : nat) (f : nat -> R) : R :=
  match n with O => 0 | S n' => fsum n' f + f n' end.

(** Cartesian components. *)
Inductive axis := AX | AY | AZ.
Definition comp {T} (a : axis) (v : V3 T) : T :=
  match a with AX => vx v | AY => vy v | AZ => vz v end.

(** The tent function of linear finite elements. *)
Definition tent (t : R) : R := Rmax 0 (1 - Rabs t).

(** Column and row of a node, its coordinates; the grid has [nx] columns. *)
Definition col {T} (P : gridp T) (k : nat) : nat := (k mod nx P)%nat.
Definition row {T} (P : gridp T) (k : nat) : nat := (k / nx P)%nat.
Definition cell_w (P : gridp R) : R := (x_M P - x_m P) / (INR (nx P) - 1).
Definition cell_h (P : gridp R) : R := (y_M P - y_m P) / (INR (ny P) - 1).
Definition node_x (P : gridp R) (k : nat) : R := x_m P + INR (col P k) * cell_w P.
Definition node_y (P : gridp R) (k : nat) : R := y_m P + INR (row P k) * cell_h P.

(** Corners of a cell, counter-clockwise from the lower left. *)
Definition corner (dx dy : R) (r : nat) : R * R :=
  match r with
  | 0%nat => (0, 0) | 1%nat => (dx, 0) | 2%nat => (dx, dy) | _ => (0, dy)
  end.

(** A proper grid: at least one cell in each direction, positive extent. *)
Definition proper (P : gridp R) : Prop :=
  (2 <= nx P)%nat /\ (2 <= ny P)%nat /\ x_m P < x_M P /\ y_m P < y_M P.

(** Half-open and open domain. *)
Definition in_dom (P : gridp R) (x : V3 R) : Prop :=
  x_m P <= vx x < x_M P /\ y_m P <= vy x < y_M P.
Definition inside (P : gridp R) (x : V3 R) : Prop :=
  x_m P < vx x < x_M P /\ y_m P < vy x < y_M P.

(** The value of a particle's hat function at a node. *)
Definition hat (P : gridp R) (x : V3 R) (k : nat) : R :=
  tent ((vx x - node_x P k) / cell_w P) * tent ((vy x - node_y P k) / cell_h P).

(** The points of a phase that the loops visit, and sums over all points. *)
Definition live {T} (ph : phase T) : list (particle T) := firstn (ph_n ph) (ph_pts ph).
Definition psum (L : list (phase R)) (c : phase R -> particle R -> R) : R :=
  Rsum (map (fun ph => Rsum (map (c ph) (live ph))) L).
Definition all_live {T} (L : list (phase T)) (Q : phase T -> particle T -> Prop) : Prop :=
  forall ph p, In ph L -> In p (live ph) -> Q ph p.

(** The current velocity of a point of a phase. *)
Definition velocity {T} (ph : phase T) (p : particle T) : V3 T :=
  match pv p with Own v => v | Shared => ph_sv ph end.

(** No wall masks. *)
Definition wall_free (v h : list bool) : Prop :=
  forall k, nth k v false = false /\ nth k h false = false.

(** Does a rough or smooth wall remove the component [a]?  [vk]: the node
    restrains horizontal flow; [hk]: vertical flow. *)
Definition removed (a : axis) (rough vk hk : bool) : bool :=
  match a with AX => orb vk (andb rough hk) | AY => orb hk (andb rough vk) | AZ => false end.

(** Symmetric matrices; squared length. *)
Definition symmetric (s : M3 R) : Prop := xy s = yx s /\ xz s = zx s /\ yz s = zy s.
Definition sq3 (v : V3 R) : R := vx v * vx v + vy v * vy v + vz v * vz v.

(** Net force at a node (times the damping factor of P.damping). *)
Definition net_force (P : params R) (G : grid R) (a : axis) (k : nat) : R :=
  (if p_damping P then 7/10 else 1) * (comp a (nth k (gfe G) v0) - comp a (nth k (gfi G) v0)).

(** Coulomb friction: the tangential force [t] is reduced towards zero by at
    most [mu] times the size of the normal force [n]. *)
Definition coulomb (mu t n : R) : R :=
  if Rle_dec (Rabs t) (mu * Rabs n) then 0
  else if Rlt_dec 0 t then t - mu * Rabs n else t + mu * Rabs n.

(** The grid arrays have one entry per node. *)
Definition sized (P : gridp R) (G : grid R) : Prop :=
  let n := (nx P * ny P)%nat in
  length (bv G) = n /\ length (bh G) = n /\ length (bconv G) = n /\ length (gm G) = n /\
  length (gq G) = n /\ length (gfi G) = n /\ length (gfe G) = n /\ length (gext G) = n.

(** The friction coefficient in force, if any. *)
Definition rubs (B : bounds R) (mu : R) : Prop :=
  roughness B = true /\ wall_mu B = Some mu /\ mu <> 0.
Definition no_rub (B : bounds R) : Prop :=
  roughness B = false \/ wall_mu B = None \/ wall_mu B = Some 0.

(** [l] is [m] with some entries left out. *)
Inductive subseq {A} : list A -> list A -> Prop :=
| sub_nil : subseq [] []
| sub_take a l m : subseq l m -> subseq (a :: l) (a :: m)
| sub_skip a l m : subseq l m -> subseq l (a :: m).
