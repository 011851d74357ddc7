(** * Specification of one step of the material point method, for further materials, with loads and belts.

    SpecScheme.v describes the scheme for elastic solids and Newtonian fluids.  Here the material may be any of
    eight, among them an intruder that moves as it is told; the surface may be loaded and nodes may belong to a
    conveyor belt.  Nothing here refers to the functions of the model, except the last section, which says how a
    state of the model is read. *)
From Coq Require Import ZArith Reals List Bool Arith.
From Verif Require Import State NumR Spec SpecLaws ModelMain SpecScheme.
Import ListNotations.
Local Open Scope R_scope.

(** Materials, with what each point of them remembers. *)
Inductive stuff :=
| Intruder                                   (* moves as prescribed *)
| Hooke (K g : R)                            (* bulk and shear modulus *)
| Heated (K g t0 rho : R)                    (* an elastic solid that sheds mass after [t0] until its density is [rho] *)
| Mises (K g k n : R) (s : M3 R) (tr : R)    (* strength [k], exponent [n]; remembers the deviator and the trace *)
| Newton (K eta zeta p : R)                  (* bulk modulus, viscosities; remembers the pressure *)
| Plastic (K rate eta0 eta tau zeta p : R)   (* Bingham: viscosity [eta0] up to the shear [rate], above it [eta + tau/shear] *)
| Glass (K mu1 mu2 i0 zeta p rho : R)        (* ken_kamrin; remembers pressure and density *)
| Grains (K rho_s cap mu dmu i0 d thin p rho : R).  (* pouliquen, of mean size [d], too [thin] to bear pressure *)

Record point := mkPoint {
  z_stuff : stuff;
  z_m : R; z_V : R;
  z_x : V3 R; z_v : V3 R;
  z_s : M3 R;
  z_b : V3 R; z_first : bool }.

(** What a step needs to know. *)
Record ambient := mkAmbient {
  a_P : gridp R;               (* the nodes *)
  a_dt : R; a_t : R;           (* time step and time *)
  a_tol : R;                   (* nodes that are not heavier than this carry no velocity *)
  a_damp : R;                  (* factor on the nodal forces *)
  a_open : axis -> nat -> R;   (* 0 where a wall stops this component at this node, else 1 *)
  a_g : V3 R;                  (* gravity *)
  a_top : R;                   (* the largest gravity of the run *)
  a_load : axis -> nat -> R;   (* load on a node, per unit of its mass *)
  a_belt : nat -> option R;    (* speed of the belt that carries a node *)
  a_w : V3 R;                  (* velocity of the intruder *)
  a_vol : nat -> R             (* volume of a node *)
}.

(** Size of a matrix. *)
Definition ssq (d : M3 R) : R := over (fun a => over (fun b => (el a b d)²)).
Definition dots (s d : M3 R) : R := over (fun a => over (fun b => el a b s * el a b d)).
(** Deviator. *)
Definition devi (d : M3 R) : M3 R := m3 (fun a b => el a b d - tr3 d / 3 * delta a b).

Section Scheme.
  Context (E : ambient).
  Definition a_nodes : nat := (nx (a_P E) * ny (a_P E))%nat.

  Definition z_mass (B : list point) (k : nat) : R :=
    Rsum (map (fun q => z_m q * hat (a_P E) (z_x q) k) B).
  Definition z_vel (B : list point) (a : axis) (k : nat) : R :=
    if Rlt_dec (a_tol E) (z_mass B k)
    then a_open E a k * Rsum (map (fun q => z_m q * comp a (z_v q) * hat (a_P E) (z_x q) k) B) / z_mass B k
    else 0.
  Definition z_strain (B : list point) (q : point) : M3 R :=
    m3 (fun a b => a_dt E * fsum a_nodes (fun k =>
      (z_vel B a k * ghat (a_P E) (z_x q) b k + z_vel B b k * ghat (a_P E) (z_x q) a k) / 2)).

  (** Pressure, deviator and bulk viscosity together. *)
  Definition fluid (p eta zeta : R) (d : M3 R) : M3 R :=
    m3 (fun a b => p * delta a b + eta * el a b (devi d) / a_dt E - zeta * (tr3 d / 3) * delta a b / a_dt E).
  Definition hooke (K g : R) (s d : M3 R) : M3 R :=
    m3 (fun a b => el a b s + K * tr3 d * delta a b + 2 * g * el a b (devi d)).
  (** Viscosities of the fluids whose viscosity varies; all act on the deviator of the strain increment, the rate of
      which they see as [shear]. *)
  Definition eta_plastic (rate eta0 eta tau : R) (d : M3 R) : R :=
    let shear := sqrt (ssq (devi d)) / a_dt E in
    if Rle_dec shear rate then 2 * eta0 else 2 * (eta + tau / shear).
  Definition eta_glass (mu1 mu2 i0 p rho : R) (d : M3 R) : R :=
    let shear := Rmax (sqrt (2 * ssq (devi d)) / a_dt E) (1 / 100000) in
    let i := sqrt 2 * shear / sqrt (Rabs p / rho) in
    let mu := mu1 + (mu2 - mu1) / (i0 / i + 1) in
    2 * Rmin (Rmax (mu * p / (sqrt 2 * shear)) 0) (250 * rho * a_top E * (y_M (a_P E) - y_m (a_P E)) ^ 3).
  Definition eta_grains (rho_s cap mu dmu i0 d0 p : R) (d : M3 R) : R :=
    let shear := 2 * sqrt (ssq (devi d)) / a_dt E in
    let i := shear * d0 * sqrt (rho_s / Rabs p) in
    Rmin (2 * sqrt 2 * (mu + dmu / (i0 / i + 1)) * Rabs p / shear) cap.
  (** Pressure of the grains: no tension, and none where they are too thin. *)
  Definition grains_p (K thin p rho : R) (d : M3 R) : R :=
    let p1 := p + K * (tr3 d / 3) in
    if Rlt_dec 0 p1 then 0 else if Rlt_dec rho thin then 0 else p1.
  Definition mises_s (g k n : R) (s d : M3 R) : M3 R :=
    let f := Rabs (dots s (devi d)) / (2 * k²) * Rpow (sqrt (ssq s) / (sqrt 2 * k)) (n - 2) in
    m3 (fun a b => el a b s + 2 * g * (el a b (devi d) - f * el a b s)).

  (** The stress that the material gives for a strain increment. *)
  Definition z_material (q : point) (d : M3 R) : M3 R :=
    match z_stuff q with
    | Intruder => z_s q
    | Hooke K g | Heated K g _ _ => hooke K g (z_s q) d
    | Mises K g k n s tr => m3 (fun a b => el a b (mises_s g k n s d) + (tr + 3 * K * tr3 d) / 3 * delta a b)
    | Newton K eta zeta p => fluid (p + K * (tr3 d / 3)) (2 * eta) zeta d
    | Plastic K rate eta0 eta tau zeta p => fluid (p + K * (tr3 d / 3)) (eta_plastic rate eta0 eta tau d) zeta d
    | Glass K mu1 mu2 i0 zeta p rho =>
        let p1 := p + K * (tr3 d / 3) in fluid p1 (eta_glass mu1 mu2 i0 p1 rho d) zeta d
    | Grains K rho_s cap mu dmu i0 d0 thin p rho =>
        fluid (grains_p K thin p rho d) (eta_grains rho_s cap mu dmu i0 d0 p d) 0 d
    end.
  (** Then [2 (d s + s d)] is taken off, [s] being the old stress; with Bingham's law it is the new one. *)
  Definition z_base (q : point) (d : M3 R) : M3 R :=
    match z_stuff q with Plastic _ _ _ _ _ _ _ => z_material q d | _ => z_s q end.
  Definition z_stress (q : point) (d : M3 R) : M3 R :=
    m3 (fun a b => el a b (z_material q d) -
      2 * over (fun c => el a c d * el c b (z_base q d) + el a c (z_base q d) * el c b d)).
  (** What the point remembers. *)
  Definition z_memory (f : stuff) (d : M3 R) : stuff :=
    match f with
    | Mises K g k n s tr => Mises K g k n (mises_s g k n s d) (tr + 3 * K * tr3 d)
    | Newton K eta zeta p => Newton K eta zeta (p + K * (tr3 d / 3))
    | Plastic K rate eta0 eta tau zeta p => Plastic K rate eta0 eta tau zeta (p + K * (tr3 d / 3))
    | Glass K mu1 mu2 i0 zeta p rho => Glass K mu1 mu2 i0 zeta (p + K * (tr3 d / 3)) rho
    | Grains K rho_s cap mu dmu i0 d0 thin p rho => Grains K rho_s cap mu dmu i0 d0 thin (grains_p K thin p rho d) rho
    | f => f
    end.
  (** Only heated points, of the phase that comes first, change their mass. *)
  Definition z_shed (q : point) : R :=
    match z_stuff q with
    | Heated _ _ t0 rho =>
        if z_first q then if Rlt_dec t0 (a_t E) then if Rlt_dec (rho * z_V q) (z_m q) then z_m q * (95 / 100) else z_m q else z_m q
        else z_m q
    | _ => z_m q
    end.

  Definition z_strained (B : list point) (q : point) : point :=
    let d := z_strain B q in
    mkPoint (z_memory (z_stuff q) d) (z_shed q) (z_V q) (z_x q) (z_v q) (z_stress q d)
            (if z_first q then a_g E else z_b q) (z_first q).

  (** Nodal force of strained points, the load on the surface, and the acceleration they give. *)
  Definition z_force (B : list point) (a : axis) (k : nat) : R :=
    Rsum (map (fun q => z_m q * comp a (z_b q) * hat (a_P E) (z_x q) k
                        - z_V q * over (fun b => el a b (z_s q) * ghat (a_P E) (z_x q) b k)) B).
  Definition z_acc (B B1 : list point) (a : axis) (k : nat) : R :=
    if Rlt_dec (a_tol E) (z_mass B k)
    then a_open E a k * (a_damp E * (z_force B1 a k + a_load E a k * z_mass B k)) / z_mass B k else 0.
  (** Nodal velocity at the end of the step. *)
  Definition z_end (B B1 : list point) (a : axis) (k : nat) : R :=
    match a, a_belt E k with
    | AX, Some w => if Rlt_dec (a_tol E) (z_mass B k) then w else 0
    | _, _ => z_vel B a k + a_dt E * z_acc B B1 a k
    end.
  (** Density at a node, and the density that a point remembers. *)
  Definition z_rho (B : list point) (k : nat) : R :=
    if Rlt_dec (a_tol E) (z_mass B k) then z_mass B k / a_vol E k else 0.
  Definition z_dense (B : list point) (x : V3 R) (f : stuff) : stuff :=
    let r := fsum a_nodes (fun k => hat (a_P E) x k * z_rho B k) in
    match f with
    | Glass K mu1 mu2 i0 zeta p _ => Glass K mu1 mu2 i0 zeta p r
    | Grains K rho_s cap mu dmu i0 d0 thin p _ => Grains K rho_s cap mu dmu i0 d0 thin p r
    | f => f
    end.

  Definition z_moved (B B1 : list point) (q : point) : point :=
    match z_stuff q with
    | Intruder =>
        mkPoint Intruder (z_m q) (z_V q) (v3 (fun a => comp a (z_x q) + a_dt E * comp a (a_w E))) (a_w E)
                (z_s q) (z_b q) (z_first q)
    | _ =>
        mkPoint (z_dense B (z_x q) (z_stuff q)) (z_m q) (z_V q)
          (v3 (fun a => comp a (z_x q) + a_dt E * fsum a_nodes (fun k => hat (a_P E) (z_x q) k * z_end B B1 a k)))
          (v3 (fun a => comp a (z_v q) + a_dt E * fsum a_nodes (fun k => hat (a_P E) (z_x q) k * z_acc B B1 a k)))
          (z_s q) (z_b q) (z_first q)
    end.

  (** One step: strain all points, then move all points. *)
  Definition z_step (B : list point) : list point :=
    let B1 := map (z_strained B) B in map (z_moved B B1) B1.
End Scheme.

(** ** How a simulation is seen *)
Definition one (o : option (scarr R)) : R := match o with Some (Sc a) => a | _ => 0 end.
Definition many (o : option (scarr R)) : list R := match o with Some (Ar l) => l | _ => [] end.
(** A property of the grains of a point: the mean over its sizes. *)
Definition blend (n : nat) (phi xs : list R) : R := fsum n (fun i => nth i phi 0 * nth i xs 0).

Definition stuff_of (P : params R) (So : solid R) (p : particle R) : stuff :=
  match s_law So with
  | Elastic => Hooke (orz (s_K So)) (orz (s_G So))
  | ElasticTime => Heated (orz (s_E_0 So) / (3 * (1 - 2 * orz (s_nu So)))) (orz (s_E_0 So) / (2 * (1 + orz (s_nu So))))
                          (orz (s_t_0 So)) (orz (s_rho_f So))
  | VonMises => Mises (orz (s_K So)) (orz (s_G So)) (orz (s_k So)) (orz (s_s So)) (pdev p) (psigma_kk p)
  | Viscous => Newton (orz (s_K So)) (orz (s_mu_s So)) (orz (s_mu_v So)) (ppressure p)
  | Bingham => Plastic (orz (s_K So)) (orz (s_gamma_c So)) (one (s_mu_0 So)) (orz (s_mu_s So)) (orz (s_tau_0 So)) (orz (s_mu_v So)) (ppressure p)
  | KenKamrin => Glass (orz (s_K So)) (orz (s_mu_s So)) (orz (s_mu_2 So)) (one (s_I_0 So)) (orz (s_mu_v So)) (ppressure p) (prho p)
  | Pouliquen => Grains (orz (s_K So)) (orz (s_rho_s So)) (orz (s_eta_max So))
      (blend (ns (pG P)) (pphi p) (many (s_mu_0 So))) (blend (ns (pG P)) (pphi p) (many (s_delta_mu So)))
      (blend (ns (pG P)) (pphi p) (many (s_I_0 So))) (blend (ns (pG P)) (pphi p) (gs (pG P)))
      (s_rho So * (8 / 10)) (ppressure p) (prho p)
  | _ => Intruder
  end.
Definition point_of (P : params R) (k : nat) (ph : phase R) (p : particle R) : point :=
  mkPoint (stuff_of P (ph_sol ph) p) (pm p) (pV p) (px p) (velocity ph p) (pstress p) (pb p) (Nat.eqb k 0).
Fixpoint cloud_from (P : params R) (k : nat) (L : list (phase R)) : list point :=
  match L with
  | [] => []
  | ph :: L => map (point_of P k ph) (live ph) ++ cloud_from P (Datatypes.S k) L
  end.
Definition cloud (P : params R) (L : list (phase R)) : list point := cloud_from P 0 L.

(** Laws that the scheme covers.  The points of an intruder and of Bingham's law must not carry a left-over stress
    increment: no law of theirs writes it, and [Particle] starts it at zero. *)
Definition covered (L : list (phase R)) : Prop :=
  forall ph, In ph L ->
    match s_law (ph_sol ph) with
    | Elastic | ElasticTime | VonMises | Viscous | KenKamrin | Pouliquen => True
    | Rigid | Bingham => forall p, In p (live ph) -> pdstress p = m0
    | _ => False
    end.

(** Loads press on the first and the last node of a row or of a column. *)
Definition ends (n i : nat) (q : R) : R :=
  (if Nat.eqb i 0 then q else 0) - (if Nat.eqb i (n - 1) then q else 0).
Definition load_of (P : params R) (rho : R) (l : loads R) (a : axis) (k : nat) : R :=
  match a with
  | AX => if horizontal_force (pB P) then 2 * ends (nx (pG P)) (k mod nx (pG P)) (ld_qh l) / rho / cell_w (pG P) else 0
  | AY => if vertical_force (pB P) then 2 * ends (ny (pG P)) (k / nx (pG P)) (ld_qv l) / rho / cell_h (pG P) else 0
  | AZ => 0
  end.
(** The surroundings of a simulation: parameters [P], density [rho] of the first phase, loads [l], grid [G]. *)
Definition ambient_of (P : params R) (rho : R) (l : loads R) (G : grid R) : ambient :=
  mkAmbient (pG P) (p_dt P) (p_t P) (p_Mtol P) (if p_damping P then 7/10 else 1) (passes (roughness (pB P)) G)
    (mkV3 (ld_g l * sin (ld_theta l)) (ld_g l * cos (ld_theta l)) 0) (p_max_g P) (load_of P rho l)
    (fun k => if conveyor (pB P) then if nth k (bconv G) false then p_v0 P else None else None)
    (match p_intruder_v P with Some w => w | None => v0 end) (fun k => nth k (gV G) 0).

(** [n] steps. *)
Fixpoint z_run (uf : params R -> loads R) (rho : R) (n : nat) (P : params R) (G : grid R) (B : list point) : list point :=
  match n with
  | O => B
  | Datatypes.S n => z_run uf rho n (ticked uf P) G (z_step (ambient_of P rho (uf P) G) B)
  end.
