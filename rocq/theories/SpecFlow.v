(** * Specification of steady flows. *)
From Coq Require Import Reals.
Local Open Scope R_scope.

(** The inertial number of grains of size [d] and density [rho], sheared at [rate] under the pressure [p]. *)
Definition inertial (rate d rho p : R) : R := Rabs rate * d * sqrt (rho / p).
(** The friction coefficient of a granular flow: [mu0] at rest, [mu1] at infinite inertial number. *)
Definition rate_friction (mu0 mu1 I0 I : R) : R := mu0 + (mu1 - mu0) * I / (I0 + I).
(** The pressure at the depth [h] of a layer of density [rho] under the gravity [g] in the direction normal to the layer. *)
Definition overburden (rho g h : R) : R := rho * g * h.
