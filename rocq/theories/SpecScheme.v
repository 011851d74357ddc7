(** * Specification of one step of the material point method.

    The scheme of the textbooks, written with tent functions and sums over all
    points and all nodes; no cells, no loops over corners, no arrays.  Nothing
    here refers to the functions of the model, except the last definition, which
    counts passes of its main loop. *)
From Coq Require Import ZArith Reals List Bool Arith.
From Verif Require Import State NumR Spec SpecLaws ModelMain.
Import ListNotations.
Local Open Scope R_scope.

(** Materials: a linear elastic solid (bulk and shear modulus) and a compressible
    Newtonian fluid (bulk modulus, shear and bulk viscosity). *)
Inductive matter := Solid (K g : R) | Fluid (K eta zeta : R).

(** A material point. *)
Record mp := mkMp {
  q_mat : matter;          (* material *)
  q_m : R; q_V : R;        (* mass and volume *)
  q_x : V3 R; q_v : V3 R;  (* position and velocity *)
  q_s : M3 R; q_p : R;     (* stress, pressure *)
  q_b : V3 R;              (* force per unit mass that acts on the point *)
  q_first : bool           (* does the point follow the changes of gravity? *)
}.

(** What a step needs to know. *)
Record scheme := mkScheme {
  e_P : gridp R;               (* the nodes *)
  e_dt : R;                    (* the time step *)
  e_tol : R;                   (* nodes that are not heavier than this carry no velocity *)
  e_damp : R;                  (* factor on the nodal forces *)
  e_open : axis -> nat -> R;   (* 0 where a wall stops this component at this node, else 1 *)
  e_g : V3 R                   (* gravity *)
}.

(** The slope of [tent], from the right where it has a kink. *)
Definition slope (t : R) : R :=
  if Rlt_dec t (-1) then 0 else if Rlt_dec t 0 then 1 else if Rlt_dec t 1 then -1 else 0.
(** The gradient of the hat function of a node. *)
Definition ghat (P : gridp R) (x : V3 R) (a : axis) (k : nat) : R :=
  match a with
  | AX => slope ((vx x - node_x P k) / cell_w P) / cell_w P * tent ((vy x - node_y P k) / cell_h P)
  | AY => tent ((vx x - node_x P k) / cell_w P) * (slope ((vy x - node_y P k) / cell_h P) / cell_h P)
  | AZ => 0
  end.

(** Entries of a matrix. *)
Definition m3 (f : axis -> axis -> R) : M3 R :=
  mkM3 (f AX AX) (f AX AY) (f AX AZ) (f AY AX) (f AY AY) (f AY AZ) (f AZ AX) (f AZ AY) (f AZ AZ).
Definition el (a b : axis) (m : M3 R) : R :=
  match a, b with
  | AX, AX => xx m | AX, AY => xy m | AX, AZ => xz m
  | AY, AX => yx m | AY, AY => yy m | AY, AZ => yz m
  | AZ, AX => zx m | AZ, AY => zy m | AZ, AZ => zz m
  end.
Definition v3 (f : axis -> R) : V3 R := mkV3 (f AX) (f AY) (f AZ).
Definition delta (a b : axis) : R :=
  match a, b with AX, AX | AY, AY | AZ, AZ => 1 | _, _ => 0 end.
Definition over (f : axis -> R) : R := f AX + f AY + f AZ.

Section Scheme.
  Context (E : scheme).
  Definition e_nodes : nat := (nx (e_P E) * ny (e_P E))%nat.

  (** Nodal mass and velocity of a set of points. *)
  Definition t_mass (B : list mp) (k : nat) : R :=
    Rsum (map (fun q => q_m q * hat (e_P E) (q_x q) k) B).
  Definition t_vel (B : list mp) (a : axis) (k : nat) : R :=
    if Rlt_dec (e_tol E) (t_mass B k)
    then e_open E a k * Rsum (map (fun q => q_m q * comp a (q_v q) * hat (e_P E) (q_x q) k) B) / t_mass B k
    else 0.

  (** Strain increment of a point. *)
  Definition t_strain (B : list mp) (q : mp) : M3 R :=
    m3 (fun a b => e_dt E * fsum e_nodes (fun k =>
      (t_vel B a k * ghat (e_P E) (q_x q) b k + t_vel B b k * ghat (e_P E) (q_x q) a k) / 2)).

  (** Stress after a strain increment [d]: what the material gives, less [2 (d s + s d)]. *)
  Definition t_material (q : mp) (d : M3 R) : M3 R :=
    let e := tr3 d / 3 in
    match q_mat q with
    | Solid K g => m3 (fun a b => el a b (q_s q) + 3 * K * e * delta a b + 2 * g * (el a b d - e * delta a b))
    | Fluid K eta zeta => m3 (fun a b => (q_p q + K * e) * delta a b + 2 * eta * (el a b d - e * delta a b) / e_dt E
                                         - zeta * e * delta a b / e_dt E)
    end.
  Definition t_stress (q : mp) (d : M3 R) : M3 R :=
    m3 (fun a b => el a b (t_material q d) -
      2 * over (fun c => el a c d * el c b (q_s q) + el a c (q_s q) * el c b d)).
  (** The pressure that a point remembers. *)
  Definition t_pressure (q : mp) (d : M3 R) : R :=
    match q_mat q with Solid _ _ => tr3 (q_s q) / 3 | Fluid K _ _ => q_p q + K * (tr3 d / 3) end.

  Definition t_strained (B : list mp) (q : mp) : mp :=
    mkMp (q_mat q) (q_m q) (q_V q) (q_x q) (q_v q) (t_stress q (t_strain B q)) (t_pressure q (t_strain B q))
         (if q_first q then e_g E else q_b q) (q_first q).

  (** Nodal force of strained points, and the acceleration it gives. *)
  Definition t_force (B : list mp) (a : axis) (k : nat) : R :=
    Rsum (map (fun q => q_m q * comp a (q_b q) * hat (e_P E) (q_x q) k
                        - q_V q * over (fun b => el a b (q_s q) * ghat (e_P E) (q_x q) b k)) B).
  Definition t_acc (B B1 : list mp) (a : axis) (k : nat) : R :=
    if Rlt_dec (e_tol E) (t_mass B k) then e_open E a k * (e_damp E * t_force B1 a k) / t_mass B k else 0.

  Definition t_moved (B B1 : list mp) (q : mp) : mp :=
    mkMp (q_mat q) (q_m q) (q_V q)
      (v3 (fun a => comp a (q_x q) + e_dt E * fsum e_nodes (fun k => hat (e_P E) (q_x q) k * (t_vel B a k + e_dt E * t_acc B B1 a k))))
      (v3 (fun a => comp a (q_v q) + e_dt E * fsum e_nodes (fun k => hat (e_P E) (q_x q) k * t_acc B B1 a k)))
      (q_s q) (q_p q) (q_b q) (q_first q).

  (** One step: strain all points, then move all points. *)
  Definition t_step (B : list mp) : list mp :=
    let B1 := map (t_strained B) B in map (t_moved B B1) B1.
End Scheme.

(** How a simulation is seen by the scheme: its points in order of phase, of all
    phases that are elastic or viscous. *)
Definition orz (o : option R) : R := match o with Some a => a | None => 0 end.
Definition matter_of (S0 : solid R) : matter :=
  match s_law S0 with
  | Viscous => Fluid (orz (s_K S0)) (orz (s_mu_s S0)) (orz (s_mu_v S0))
  | _ => Solid (orz (s_K S0)) (orz (s_G S0))
  end.
Definition mp_of (k : nat) (ph : phase R) (p : particle R) : mp :=
  mkMp (matter_of (ph_sol ph)) (pm p) (pV p) (px p) (velocity ph p) (pstress p) (ppressure p) (pb p) (Nat.eqb k 0).
Fixpoint bodies_from (k : nat) (L : list (phase R)) : list mp :=
  match L with
  | [] => []
  | ph :: L => map (mp_of k ph) (live ph) ++ bodies_from (Datatypes.S k) L
  end.
Definition bodies (L : list (phase R)) : list mp := bodies_from 0 L.

(** Where the walls of a grid stop the flow; [rough] walls stop both components. *)
Definition passes (rough : bool) (G : grid R) (a : axis) (k : nat) : R :=
  if removed a rough (nth k (bv G) false) (nth k (bh G) false) then 0 else 1.
(** The scheme of a simulation with parameters [P], gravity from the loads [l]. *)
Definition scheme_of (P : params R) (l : loads R) (G : grid R) : scheme :=
  mkScheme (pG P) (p_dt P) (p_Mtol P) (if p_damping P then 7/10 else 1) (passes (roughness (pB P)) G)
    (mkV3 (ld_g l * sin (ld_theta l)) (ld_g l * cos (ld_theta l)) 0).

(** ** Runs *)
(** What a step leaves of the parameters when the time step is fixed: the loads of the step, a later time. *)
Definition ticked (uf : params R -> loads R) (P : params R) : params R :=
  P <| p_loads := uf P |> <| p_t := p_t P + p_dt P |> <| p_tstep := (p_tstep P + 1)%Z |>.
(** The parameters after [n] steps. *)
Fixpoint clock (uf : params R -> loads R) (n : nat) (P : params R) : params R :=
  match n with O => P | Datatypes.S n => clock uf n (ticked uf P) end.
(** [n] steps of the scheme. *)
Fixpoint t_run (uf : params R -> loads R) (n : nat) (P : params R) (G : grid R) (B : list mp) : list mp :=
  match n with O => B | Datatypes.S n => t_run uf n (ticked uf P) G (t_step (scheme_of P (uf P) G) B) end.
(** [n] passes of the loop of MPM.py:62-93. *)
Fixpoint after (uf : params R -> loads R) (fill : list bool -> list R -> list R) (n : nat) (s : state R) (tr : list (event R))
  : res (state R * list (event R)) :=
  match n with
  | O => Ok (s, tr)
  | Datatypes.S n => match pass uf fill s tr with Ok (s, tr) => after uf fill n s tr | Err e => Err e end
  end.
