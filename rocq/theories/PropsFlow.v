(** * The steady flows a run can start with: C89 and C90.
    Statements only; the proofs are in ThmFlow.v. *)
From Coq Require Import ZArith Reals List Bool Arith Lra Lia String.
From Verif Require Import State NumR Spec SpecFlow LibR ModelGrid ModelConstit ModelParticle ProofsGrid Concrete ThmInOut.
Import ListNotations.
From Verif Require Import ThmFlow.
Local Open Scope R_scope.

(** The option [steady] with a viscous material: at every height the viscous shear stress carries the weight of what lies above, up to y_M, in the
    direction of the current body force; the velocity vanishes at height zero. *)
Theorem C89_viscous : forall (P : params R) S0 S mu, p_flow P = FSteady -> s_law S0 = Viscous -> s_mu_s S = Some mu -> mu <> 0 ->
  exists u, starts_with P S0 S u /\ u 0 = 0 /\
  forall y, exists d, derivable_pt_lim u y d /\ mu * d = s_rho S * (p_max_g P * sin (ld_theta (p_loads P))) * (y_M (pG P) - y).
Proof. exact p_C89_viscous. Qed.
Print Assumptions C89_viscous.

(** The option [steady] with the mu(I) material, on a slope between the two friction angles: the velocity vanishes at height zero, the
    shear rate the points carry is the derivative of the velocity, and at every height the friction coefficient belonging to this
    shear rate, under the weight of the grains above, is the tangent of the slope. *)
Theorem C89_granular : forall (P : params R) S0 S sb I0 mu0 mu1 phi l, p_flow P = FSteady -> s_law S0 = Pouliquen ->
  s_bar_0 (pG P) = Some sb -> s_I_0 S = Some (Sc I0) -> s_mu_0 S = Some (Sc mu0) -> s_mu_1 S = Some mu1 -> s_packing S = Some phi -> p_l P = Some l ->
  let th := Rabs (ld_theta (p_loads P)) in let g := Rabs (p_max_g P) in
  0 < sb -> 0 < I0 -> mu0 <= tan th < mu1 -> 0 < phi -> 0 < cos th -> 0 < g ->
  exists u, starts_with P S0 S u /\ u 0 = 0 /\
    forall x y f p, particle_init P S0 S x y f = Ok p -> y < y_M (pG P) ->
    derivable_pt_lim u y (pgammadot p) /\ 0 <= pgammadot p /\
    ppk p = l * sb * sqrt (Rabs (ppressure p * s_rho S)) * pgammadot p /\
    forall rho, 0 < rho -> rate_friction mu0 mu1 I0 (inertial (pgammadot p) sb rho (overburden (phi * rho) (g * cos th) (y_M (pG P) - y))) = tan th.
Proof. exact p_C89_granular. Qed.
Print Assumptions C89_granular.

(** On such a slope, above height zero, the points start with a velocity towards positive x, whatever the signs of gravity and of the slope. *)
Theorem C89_forward : forall (P : params R) S0 S sb I0 mu0 mu1 phi l, p_flow P = FSteady -> s_law S0 = Pouliquen ->
  s_bar_0 (pG P) = Some sb -> s_I_0 S = Some (Sc I0) -> s_mu_0 S = Some (Sc mu0) -> s_mu_1 S = Some mu1 -> s_packing S = Some phi -> p_l P = Some l ->
  let th := Rabs (ld_theta (p_loads P)) in let g := Rabs (p_max_g P) in
  0 < sb -> 0 < I0 -> mu0 < tan th < mu1 -> 0 < phi -> 0 < cos th -> 0 < g ->
  forall x y f p, particle_init P S0 S x y f = Ok p -> 0 < y < y_M (pG P) -> exists v, pv p = Own (mkV3 v 0 0) /\ 0 < v.
Proof. exact p_C89_forward. Qed.
Print Assumptions C89_forward.

(** Instance: C89_forward_example in PropsCasesMore.v. *)

(** The option [steady_poiseulle]: in a channel whose lower wall is at height zero, with a driving force that exceeds the friction at rest, but not the largest
    friction, the velocity is a function [f] of the distance from the nearer wall, up to the distance where the flow becomes a plug. It vanishes at the
    walls, and between wall and plug the friction coefficient belonging to its slope is the ratio of shear stress and pressure there. *)
Theorem C90_channel : forall (P : params R) S0 S sb I0 mu0 mu1 rs p0, p_flow P = FPoiseulle ->
  s_bar_0 (pG P) = Some sb -> s_I_0 S = Some (Sc I0) -> s_mu_0 S = Some (Sc mu0) -> s_mu_1 S = Some mu1 -> s_rho_s S = Some rs -> p_init_press P = Some p0 ->
  let H := y_M (pG P) in let K := Rabs (s_rho S0 * p_max_g P) in let q := Rabs p0 in
  y_m (pG P) = 0 -> 0 < H -> 0 < K -> 0 < q -> 0 < sb -> 0 < I0 -> 0 < rs -> mu0 <= K * (H / 2) / q < mu1 ->
  let plug := H / 2 - mu0 * q / K in
  exists f, starts_with P S0 S (fun y => f (Rmin (Rmin y (H - y)) plug)) /\ f 0 = 0 /\
  forall d, 0 <= d <= plug -> mu0 < mu1 -> exists gd, derivable_pt_lim f d gd /\ 0 <= gd /\
    rate_friction mu0 mu1 I0 (inertial gd sb rs q) = K * (H / 2 - d) / q.
Proof. exact p_C90_channel. Qed.
Print Assumptions C90_channel.

(** A viscous layer two high on a slope of 90 degrees. *)
Example C89_viscous_example : exists p, p_flow (fl_params FSteady 0 (PI / 2) 1) = FSteady /\ s_mu_s (fl_solid Viscous 0 1) = Some 1 /\
  particle_init (fl_params FSteady 0 (PI / 2) 1) (fl_solid Viscous 0 1) (fl_solid Viscous 0 1) 1 1 [] = Ok p /\ pv p = Own (mkV3 (-3) 0 0).
Proof. exact x_C89_viscous. Qed.

(** The velocity vanishes at the lower edge of the domain: false if this edge is not at height zero. *)
Theorem C89_floor_refuted : exists (P : params R) S p v, p_flow P = FSteady /\ s_law S = Viscous /\ s_mu_s S = Some 1 /\
  particle_init P S S 1 (y_m (pG P)) [] = Ok p /\ pv p = Own v /\ vx v <> 0.
Proof. exact p_C89_floor_refuted. Qed.
Print Assumptions C89_floor_refuted.

(** A granular layer two high on a slope of 45 degrees, friction coefficients 1/2 and 2. *)
Example C89_granular_example : exists (P : params R) S p, p_flow P = FSteady /\ s_law S = Pouliquen /\ s_bar_0 (pG P) = Some 1 /\ s_I_0 S = Some (Sc 1) /\
  s_mu_0 S = Some (Sc (1/2)) /\ s_mu_1 S = Some 2 /\ s_packing S = Some 1 /\ p_l P = Some 1 /\
  1/2 <= tan (Rabs (ld_theta (p_loads P))) < 2 /\ 0 < cos (Rabs (ld_theta (p_loads P))) /\ 0 < Rabs (p_max_g P) /\
  particle_init P S S 1 1 [] = Ok p /\ 0 < pgammadot p.
Proof. exact x_C89_granular. Qed.

(** The points of a steady flow start with a velocity down the slope, that is along the force of gravity: false for the mu(I) material
    if gravity is negative and the slope positive. *)
Theorem C89_downhill_refuted : exists (P : params R) S p v, p_flow P = FSteady /\ s_law S = Pouliquen /\
  particle_init P S S 1 1 [] = Ok p /\ pv p = Own v /\ 0 < vx v /\ p_max_g P * sin (ld_theta (p_loads P)) < 0.
Proof. exact p_C89_downhill_refuted. Qed.
Print Assumptions C89_downhill_refuted.

(** A channel two wide, driven above the friction at rest: shear layer up to the distance 1/2, then a plug. *)
Example C90_channel_example : exists (P : params R) S, p_flow P = FPoiseulle /\ s_bar_0 (pG P) = Some 1 /\ s_I_0 S = Some (Sc 1) /\
  s_mu_0 S = Some (Sc (1/2)) /\ s_mu_1 S = Some 2 /\ s_rho_s S = Some 2 /\ p_init_press P = Some 2 /\
  let H := y_M (pG P) in let K := Rabs (s_rho S * p_max_g P) in let q := Rabs 2 in
  y_m (pG P) = 0 /\ 0 < H /\ 0 < K /\ 0 < q /\ 1/2 <= K * (H / 2) / q < 2 /\ H / 2 - 1/2 * q / K = 1/2 /\ exists p, particle_init P S S 1 1 [] = Ok p.
Proof. exact x_C90_channel. Qed.

(** There is no flow where the driving force does not exceed the friction at rest: false. *)
Theorem C90_yield_refuted : exists (P : params R) S p v mu0 q, p_flow P = FPoiseulle /\ s_mu_0 S = Some (Sc mu0) /\ p_init_press P = Some q /\ 0 < q /\
  y_m (pG P) = 0 /\ Rabs (s_rho S * p_max_g P) * (y_M (pG P) / 2) / q < mu0 /\
  particle_init P S S 1 1 [] = Ok p /\ pv p = Own v /\ 0 < vx v.
Proof. exact p_C90_yield_refuted. Qed.
Print Assumptions C90_yield_refuted.

(** The velocity vanishes at the lower edge of the domain: false if this edge is not at height zero. *)
Theorem C90_floor_refuted : exists (P : params R) S p v, p_flow P = FPoiseulle /\
  particle_init P S S 1 (y_m (pG P)) [] = Ok p /\ pv p = Own v /\ 0 < vx v.
Proof. exact p_C90_floor_refuted. Qed.
Print Assumptions C90_floor_refuted.
