(** * Specification of one step of the material point method on a cylinder.

    The scheme of SpecScheme.v for a domain whose left and right ends are glued
    together: one column of nodes fewer, tent functions that reach around the
    cylinder, and points that leave on one side come back on the other.  Nothing
    here refers to the functions of the model. *)
From Coq Require Import ZArith Reals List Bool Arith.
From Verif Require Import State NumR Spec SpecLaws SpecScheme.
Import ListNotations.
Local Open Scope R_scope.

(** The circumference. *)
Definition girth (P : gridp R) : R := x_M P - x_m P.
(** A function of the horizontal distance, with its images to the left and to the right. *)
Definition around (W : R) (f : R -> R) (d : R) : R := f (d - W) + f d + f (d + W).
(** The hat function of the node in column [i] and row [j], and its gradient. *)
Definition r_x (P : gridp R) (i : nat) : R := x_m P + INR i * cell_w P.
Definition r_y (P : gridp R) (j : nat) : R := y_m P + INR j * cell_h P.
Definition rhat (P : gridp R) (x : V3 R) (i j : nat) : R :=
  around (girth P) (fun d => tent (d / cell_w P)) (vx x - r_x P i) * tent ((vy x - r_y P j) / cell_h P).
Definition rghat (P : gridp R) (x : V3 R) (a : axis) (i j : nat) : R :=
  match a with
  | AX => around (girth P) (fun d => slope (d / cell_w P) / cell_w P) (vx x - r_x P i) * tent ((vy x - r_y P j) / cell_h P)
  | AY => around (girth P) (fun d => tent (d / cell_w P)) (vx x - r_x P i) * (slope ((vy x - r_y P j) / cell_h P) / cell_h P)
  | AZ => 0
  end.

Section Ring.
  Context (E : scheme).
  (** Sums over the nodes of the cylinder. *)
  Definition rsum (f : nat -> nat -> R) : R :=
    fsum (ny (e_P E)) (fun j => fsum (nx (e_P E) - 1) (fun i => f i j)).
  (** Walls. *)
  Definition r_open (a : axis) (i j : nat) : R := e_open E a (j * nx (e_P E) + i).

  Definition r_mass (B : list mp) (i j : nat) : R := Rsum (map (fun q => q_m q * rhat (e_P E) (q_x q) i j) B).
  Definition r_vel (B : list mp) (a : axis) (i j : nat) : R :=
    if Rlt_dec (e_tol E) (r_mass B i j)
    then r_open a i j * Rsum (map (fun q => q_m q * comp a (q_v q) * rhat (e_P E) (q_x q) i j) B) / r_mass B i j
    else 0.
  Definition r_strain (B : list mp) (q : mp) : M3 R :=
    m3 (fun a b => e_dt E * rsum (fun i j =>
      (r_vel B a i j * rghat (e_P E) (q_x q) b i j + r_vel B b i j * rghat (e_P E) (q_x q) a i j) / 2)).
  Definition r_strained (B : list mp) (q : mp) : mp :=
    mkMp (q_mat q) (q_m q) (q_V q) (q_x q) (q_v q) (t_stress E q (r_strain B q)) (t_pressure q (r_strain B q))
         (if q_first q then e_g E else q_b q) (q_first q).
  Definition r_force (B : list mp) (a : axis) (i j : nat) : R :=
    Rsum (map (fun q => q_m q * comp a (q_b q) * rhat (e_P E) (q_x q) i j
                        - q_V q * over (fun b => el a b (q_s q) * rghat (e_P E) (q_x q) b i j)) B).
  Definition r_acc (B B1 : list mp) (a : axis) (i j : nat) : R :=
    if Rlt_dec (e_tol E) (r_mass B i j) then r_open a i j * (e_damp E * r_force B1 a i j) / r_mass B i j else 0.
  (** A point that left on one side comes back on the other. *)
  Definition back (x : V3 R) : V3 R :=
    if Rlt_dec (vx x) (x_m (e_P E)) then mkV3 (vx x + girth (e_P E)) (vy x) (vz x)
    else if Rlt_dec (x_M (e_P E)) (vx x) then mkV3 (vx x - girth (e_P E)) (vy x) (vz x)
    else x.
  Definition r_moved (B B1 : list mp) (q : mp) : mp :=
    mkMp (q_mat q) (q_m q) (q_V q)
      (back (v3 (fun a => comp a (q_x q) + e_dt E * rsum (fun i j => rhat (e_P E) (q_x q) i j * (r_vel B a i j + e_dt E * r_acc B B1 a i j)))))
      (v3 (fun a => comp a (q_v q) + e_dt E * rsum (fun i j => rhat (e_P E) (q_x q) i j * r_acc B B1 a i j)))
      (q_s q) (q_p q) (q_b q) (q_first q).
  Definition r_step (B : list mp) : list mp :=
    let B1 := map (r_strained B) B in map (r_moved B B1) B1.
End Ring.

(** [n] steps of the scheme on the cylinder. *)
Fixpoint r_run (uf : params R -> loads R) (n : nat) (P : params R) (G : grid R) (B : list mp) : list mp :=
  match n with O => B | Datatypes.S n => r_run uf n (ticked uf P) G (r_step (scheme_of P (uf P) G) B) end.

(** The two ends of the grid are the same wall. *)
Definition ends_agree (P : gridp R) (G : grid R) : Prop := forall j, (j < ny P)%nat ->
  nth (j * nx P) (bv G) false = nth (j * nx P + (nx P - 1)) (bv G) false /\
  nth (j * nx P) (bh G) false = nth (j * nx P + (nx P - 1)) (bh G) false.
