(** * Specification of one step with any of eight materials on a cylinder.

    The materials and surroundings of SpecLocal.v on the nodes of SpecRing.v: the left and right ends of the domain are
    glued together, tent functions reach around, and points that leave on one side come back on the other.  Nothing here
    refers to the functions of the model. *)
From Coq Require Import ZArith Reals List Bool Arith.
From Verif Require Import State NumR Spec SpecLaws SpecScheme SpecRing SpecLocal.
Import ListNotations.
Local Open Scope R_scope.

Section Loop.
  Context (E : ambient).
  (** Sums over the nodes of the cylinder, and what the surroundings have at a node. *)
  Definition o_sum (f : nat -> nat -> R) : R :=
    fsum (ny (a_P E)) (fun j => fsum (nx (a_P E) - 1) (fun i => f i j)).
  Definition o_at {A} (f : nat -> A) (i j : nat) : A := f (j * nx (a_P E) + i)%nat.

  Definition o_mass (B : list point) (i j : nat) : R := Rsum (map (fun q => z_m q * rhat (a_P E) (z_x q) i j) B).
  Definition o_vel (B : list point) (a : axis) (i j : nat) : R :=
    if Rlt_dec (a_tol E) (o_mass B i j)
    then o_at (a_open E a) i j * Rsum (map (fun q => z_m q * comp a (z_v q) * rhat (a_P E) (z_x q) i j) B) / o_mass B i j
    else 0.
  Definition o_strain (B : list point) (q : point) : M3 R :=
    m3 (fun a b => a_dt E * o_sum (fun i j =>
      (o_vel B a i j * rghat (a_P E) (z_x q) b i j + o_vel B b i j * rghat (a_P E) (z_x q) a i j) / 2)).
  Definition o_strained (B : list point) (q : point) : point :=
    let d := o_strain B q in
    mkPoint (z_memory (z_stuff q) d) (z_shed E q) (z_V q) (z_x q) (z_v q) (z_stress E q d)
            (if z_first q then a_g E else z_b q) (z_first q).
  Definition o_force (B : list point) (a : axis) (i j : nat) : R :=
    Rsum (map (fun q => z_m q * comp a (z_b q) * rhat (a_P E) (z_x q) i j
                        - z_V q * over (fun b => el a b (z_s q) * rghat (a_P E) (z_x q) b i j)) B).
  Definition o_acc (B B1 : list point) (a : axis) (i j : nat) : R :=
    if Rlt_dec (a_tol E) (o_mass B i j)
    then o_at (a_open E a) i j * (a_damp E * (o_force B1 a i j + o_at (a_load E a) i j * o_mass B i j)) / o_mass B i j else 0.
  Definition o_end (B B1 : list point) (a : axis) (i j : nat) : R :=
    match a, o_at (a_belt E) i j with
    | AX, Some w => if Rlt_dec (a_tol E) (o_mass B i j) then w else 0
    | _, _ => o_vel B a i j + a_dt E * o_acc B B1 a i j
    end.
  Definition o_rho (B : list point) (i j : nat) : R :=
    if Rlt_dec (a_tol E) (o_mass B i j) then o_mass B i j / o_at (a_vol E) i j else 0.
  Definition o_dense (B : list point) (x : V3 R) (f : stuff) : stuff :=
    let r := o_sum (fun i j => rhat (a_P E) x i j * o_rho B i j) in
    match f with
    | Glass K mu1 mu2 i0 zeta p _ => Glass K mu1 mu2 i0 zeta p r
    | Grains K rho_s cap mu dmu i0 d0 thin p _ => Grains K rho_s cap mu dmu i0 d0 thin p r
    | f => f
    end.
  (** A point that left on one side comes back on the other. *)
  Definition home (x : V3 R) : V3 R :=
    if Rlt_dec (vx x) (x_m (a_P E)) then mkV3 (vx x + girth (a_P E)) (vy x) (vz x)
    else if Rlt_dec (x_M (a_P E)) (vx x) then mkV3 (vx x - girth (a_P E)) (vy x) (vz x)
    else x.
  Definition o_moved (B B1 : list point) (q : point) : point :=
    match z_stuff q with
    | Intruder =>
        mkPoint Intruder (z_m q) (z_V q) (home (v3 (fun a => comp a (z_x q) + a_dt E * comp a (a_w E)))) (a_w E)
                (z_s q) (z_b q) (z_first q)
    | _ =>
        mkPoint (o_dense B (z_x q) (z_stuff q)) (z_m q) (z_V q)
          (home (v3 (fun a => comp a (z_x q) + a_dt E * o_sum (fun i j => rhat (a_P E) (z_x q) i j * o_end B B1 a i j))))
          (v3 (fun a => comp a (z_v q) + a_dt E * o_sum (fun i j => rhat (a_P E) (z_x q) i j * o_acc B B1 a i j)))
          (z_s q) (z_b q) (z_first q)
    end.
  Definition o_step (B : list point) : list point :=
    let B1 := map (o_strained B) B in map (o_moved B B1) B1.
End Loop.

(** [n] steps. *)
Fixpoint o_run (uf : params R -> loads R) (rho : R) (n : nat) (P : params R) (G : grid R) (B : list point) : list point :=
  match n with
  | O => B
  | Datatypes.S n => o_run uf rho n (ticked uf P) G (o_step (ambient_of P rho (uf P) G) B)
  end.

(** The two ends of the grid agree on walls, belts and volumes. *)
Definition ends_join (P : gridp R) (G : grid R) : Prop := forall j, (j < ny P)%nat ->
  nth (j * nx P) (bv G) false = nth (j * nx P + (nx P - 1)) (bv G) false /\
  nth (j * nx P) (bh G) false = nth (j * nx P + (nx P - 1)) (bh G) false /\
  nth (j * nx P) (bconv G) false = nth (j * nx P + (nx P - 1)) (bconv G) false /\
  nth (j * nx P) (gV G) 0 = nth (j * nx P + (nx P - 1)) (gV G) 0.
