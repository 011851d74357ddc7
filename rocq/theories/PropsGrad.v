(** * Gradients on the grid and diffusion of the grain sizes
    Statements only; the proofs are in ThmGrad.v. *)
From Coq Require Import ZArith List Bool Arith Lia Reals Lra.
From Verif Require Import State NumR LibR LibList Spec ModelGrid ModelIntegr ProofsGrid ThmMapping ThmSeg Concrete.
Import ListNotations.
From Verif Require Import ThmGrad.
Local Open Scope R_scope.

Theorem C48_gradient : forall fill (P : params R) G Z a b c, proper (pG P) -> grid_ok (pG P) G -> fills fill -> no_empty P G ->
  affine_field (pG P) Z a b c ->
  length (calculate_gradient fill P G Z) = nodes (pG P) /\
  forall k, (k < nodes (pG P))%nat -> nth k (calculate_gradient fill P G Z) v0 = mkV3 b c 0.
Proof. exact p_C48_gradient. Qed.
Print Assumptions C48_gradient.

(** Instance: C48_gradient_example in PropsInst.v. *)

(** Shear rate of an affine velocity field. *)
Theorem C48_gammadot : forall fill (P : params R) G a b c a' b' c', proper (pG P) -> grid_ok (pG P) G -> fills fill -> no_empty P G ->
  0 < p_Mtol P -> length (gq G) = nodes (pG P) ->
  (forall k, (k < nodes (pG P))%nat ->
     vx (nth k (gq G) v0) = nth k (gm G) 0 * (a + b * node_x (pG P) k + c * node_y (pG P) k) /\
     vy (nth k (gq G) v0) = nth k (gm G) 0 * (a' + b' * node_x (pG P) k + c' * node_y (pG P) k)) ->
  let G' := calculate_gammadot fill P G in
  length (f_gammadot G') = nodes (pG P) /\ forall k, (k < nodes (pG P))%nat -> nth k (f_gammadot G') 0 = c + b'.
Proof. exact p_C48_gammadot. Qed.
Print Assumptions C48_gammadot.

Example C48_gammadot_example : exists fill (P : params R) G, proper (pG P) /\ grid_ok (pG P) G /\ fills fill /\ no_empty P G /\ 0 < p_Mtol P /\
  length (gq G) = nodes (pG P) /\ nodes (pG P) = 12%nat /\
  forall k, (k < nodes (pG P))%nat -> vx (nth k (gq G) v0) = nth k (gm G) 0 * (0 + 0 * node_x (pG P) k + 1 * node_y (pG P) k) /\
     vy (nth k (gq G) v0) = nth k (gm G) 0 * (0 + 0 * node_x (pG P) k + 0 * node_y (pG P) k).
Proof. exact x_C48_gammadot. Qed.

(** With walls on all sides the total changes by half the difference of the
    fluxes next to opposite walls: it is not conserved in general. *)
Theorem C40_exact : forall (P : params R) rho_s G A l dx dy, p_l P = Some l -> pdx (pG P) = Some dx -> pdy (pG P) = Some dy ->
  dx <> 0 -> dy <> 0 -> walled (pG P) G -> Diffusion P rho_s G = Ok A -> forall k, (k < ns (pG P))%nat ->
  fsum (nodes (pG P)) (fun m => nth k (nth m A []) 0) =
  p_dt P * (fsum (ny (pG P)) (fun j => (flux_x (pG P) l rho_s G dx k (j * nx (pG P) + 1) - flux_x (pG P) l rho_s G dx k (j * nx (pG P) + (nx (pG P) - 2))) / (2 * dx)) +
            fsum (nx (pG P)) (fun i => (flux_y (pG P) l rho_s G dy k (1 * nx (pG P) + i) - flux_y (pG P) l rho_s G dy k ((ny (pG P) - 2) * nx (pG P) + i)) / (2 * dy))).
Proof. exact p_C40_exact. Qed.
Print Assumptions C40_exact.

(** A uniform concentration gives no increment. *)
Theorem C40_uniform : forall (P : params R) rho_s G A l dx dy c k, p_l P = Some l -> pdx (pG P) = Some dx -> pdy (pG P) = Some dy ->
  Diffusion P rho_s G = Ok A -> (k < ns (pG P))%nat -> (forall m, (m < nodes (pG P))%nat -> conc l rho_s G k m = c) ->
  forall m, (m < nodes (pG P))%nat -> nth k (nth m A []) 0 = 0.
Proof. exact p_C40_uniform. Qed.
Print Assumptions C40_uniform.

(** Instance: C40_uniform_example in PropsInst.v. *)

Example C40_exact_example : exists (P : params R) rho_s G A, p_l P = Some 1 /\ pdx (pG P) = Some 1 /\ pdy (pG P) = Some 1 /\ walled (pG P) G /\
  Diffusion P rho_s G = Ok A /\ (exists m, (m < nodes (pG P))%nat /\ nth m (btot G) false = false) /\ flux_x (pG P) 1 rho_s G 1 0 5 = 1 / 4.
Proof. exact x_C40_exact. Qed.
