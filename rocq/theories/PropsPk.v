(** * The kinetic pressure of the segregation model: C85.
    Statements only; the proofs are in ThmPk.v. *)
From Coq Require Import ZArith Reals List Bool Arith Lra Lia.
From Verif Require Import State NumR LibR LibList Spec SpecFlow ModelGrid ModelConstit ModelParticle ModelMPList ModelIntegr ModelMain ProofsGrid ProofsHist Concrete ThmMapping ProofsStep ThmGeo ThmGrad.
Import ListNotations.
From Verif Require Import ThmPk.
Local Open Scope R_scope.

(** At every node that carries mass the kinetic pressure is the pressure times the inertial number of the flow there; it
    is zero where there is no pressure, never negative, and does not depend on the direction of the shear. *)
Theorem C85_inertial : forall fill (P : params R) L G L' G' rho S0, segregate fill P L G = Ok (L', G') ->
  sol0 L = Ok S0 -> s_rho_s S0 = Some rho -> 0 <= rho ->
  length (f_gammadot G) = nodes (pG P) -> length (g_sbar G) = nodes (pG P) -> length (f_pressure G) = nodes (pG P) -> length (gm G) = nodes (pG P) ->
  forall k, (k < nodes (pG P))%nat -> nth k (gm G) 0 <> 0 ->
  let p := Rabs (nth k (f_pressure G) 0 / nth k (gm G) 0) in
  nth k (g_pk G') 0 = p * inertial (nth k (f_gammadot G) 0) (nth k (g_sbar G) 0) rho p /\
  (p = 0 -> nth k (g_pk G') 0 = 0) /\ (0 <= nth k (g_sbar G) 0 -> 0 <= nth k (g_pk G') 0).
Proof. exact p_C85_inertial. Qed.
Print Assumptions C85_inertial.

(** Where the kinetic pressure varies linearly over a grid without empty nodes, the gradient that drives the segregation is
    its slope, at every node, the boundary included. *)
Theorem C85_gradient : forall fill (P : params R) L G L' G' a b c, segregate fill P L G = Ok (L', G') ->
  proper (pG P) -> grid_ok (pG P) G -> fills fill -> no_empty P G -> affine_field (pG P) (g_pk G') a b c ->
  forall k, (k < nodes (pG P))%nat -> nth k (g_gradpk G') v0 = mkV3 b c 0.
Proof. exact p_C85_gradient. Qed.
Print Assumptions C85_gradient.

(** A sheared field under pressure, with a phase whose points have all left (so that only the grid matters). *)
Example C85_inertial_example : exists (G : grid R) L' G' rho S0, segregate (fun _ l => l) pk_params pk_L G = Ok (L', G') /\
  sol0 pk_L = Ok S0 /\ s_rho_s S0 = Some rho /\ 0 <= rho /\
  length (f_gammadot G) = nodes (pG pk_params) /\ length (g_sbar G) = nodes (pG pk_params) /\
  length (f_pressure G) = nodes (pG pk_params) /\ length (gm G) = nodes (pG pk_params) /\ nth 0 (gm G) 0 <> 0 /\ 0 < nth 0 (g_pk G') 0.
Proof. exact x_C85_inertial. Qed.
