(** * Mapping between particles and grid: C01-C07.
    Statements only; the proofs are in ThmMapping.v. *)
From Coq Require Import ZArith Reals List Bool Arith Lra Lia.
From Verif Require Import State NumR Spec LibList LibR ModelGrid ModelConstit ModelParticle ModelMPList
  ProofsGrid ProofsMap ProofsP2G Concrete.
Import ListNotations.
From Verif Require Import ThmMapping.
Local Open Scope R_scope.

(** Weights and gradients of a cell of size [dx] by [dy] at local position [x]. *)
Theorem C01_shape_functions : forall dx dy x, dx <> 0 -> dy <> 0 ->
  let N := fun r => nth r (fst (shape dx dy x)) 0 in
  let Gd := fun r => nth r (snd (shape dx dy x)) v0 in
  length (fst (shape dx dy x)) = 4%nat /\ length (snd (shape dx dy x)) = 4%nat /\
  fsum 4 N = 1 /\ (forall a, fsum 4 (fun r => comp a (Gd r)) = 0) /\
  fsum 4 (fun r => N r * fst (corner dx dy r)) = vx x /\
  fsum 4 (fun r => N r * snd (corner dx dy r)) = vy x /\
  fsum 4 (fun r => vx (Gd r) * fst (corner dx dy r)) = 1 /\
  fsum 4 (fun r => vx (Gd r) * snd (corner dx dy r)) = 0 /\
  fsum 4 (fun r => vy (Gd r) * fst (corner dx dy r)) = 0 /\
  fsum 4 (fun r => vy (Gd r) * snd (corner dx dy r)) = 1.
Proof. exact p_C01_shape_functions. Qed.
Print Assumptions C01_shape_functions.

Theorem C01_corners : forall dx dy r s z, dx <> 0 -> dy <> 0 -> (r < 4)%nat -> (s < 4)%nat ->
  nth s (fst (shape dx dy (mkV3 (fst (corner dx dy r)) (snd (corner dx dy r)) z))) 0 =
  if Nat.eqb r s then 1 else 0.
Proof. exact p_C01_corners. Qed.
Print Assumptions C01_corners.

(** Instance: C01_corners_example in PropsCasesStep.v. *)

Theorem C01_bounds : forall dx dy x r, 0 < dx -> 0 < dy ->
  0 <= vx x <= dx -> 0 <= vy x <= dy -> 0 <= nth r (fst (shape dx dy x)) 0 <= 1.
Proof. exact p_C01_bounds. Qed.
Print Assumptions C01_bounds.

(** Instance: C01_bounds_example in PropsCasesStep.v. *)

(** Inside the cell the weights are the tent functions of the corners, and the
    gradient of each weight is the derivative of the weight. *)
Theorem C01_tents : forall dx dy x r, 0 < dx -> 0 < dy ->
  0 <= vx x <= dx -> 0 <= vy x <= dy -> (r < 4)%nat ->
  nth r (fst (shape dx dy x)) 0 =
    tent ((vx x - fst (corner dx dy r)) / dx) * tent ((vy x - snd (corner dx dy r)) / dy).
Proof. exact p_C01_tents. Qed.
Print Assumptions C01_tents.

(** Instance: C01_tents_example in PropsInst.v. *)

Theorem C01_gradients : forall dx dy x y z h r, dx <> 0 -> dy <> 0 ->
  nth r (fst (shape dx dy (mkV3 (x + h) y z))) 0 - nth r (fst (shape dx dy (mkV3 x y z))) 0 =
    h * vx (nth r (snd (shape dx dy (mkV3 x y z))) v0) /\
  nth r (fst (shape dx dy (mkV3 x (y + h) z))) 0 - nth r (fst (shape dx dy (mkV3 x y z))) 0 =
    h * vy (nth r (snd (shape dx dy (mkV3 x y z))) v0) /\
  vz (nth r (snd (shape dx dy (mkV3 x y z))) v0) = 0.
Proof. exact p_C01_gradients. Qed.
Print Assumptions C01_gradients.

(** Instance: C01_gradients_example in PropsCasesStep.v. *)

Example C01_shape_functions_example :
  nth 2 (fst (shape 1 2 (mkV3 (1/2) (1/2) 0))) 0 = 1/8 /\ (1:R) <> 0 /\ (2:R) <> 0.
Proof. exact x_C01_shape_functions. Qed.

Theorem C02_reference_node : forall P G p,
  proper (pG P) -> grid_ok (pG P) G -> in_dom (pG P) (px p) ->
  exists n, get_reference_node P G p = Ok (p <| pnstar := Z.of_nat n |>) /\
    (n < nodes (pG P))%nat /\
    node_x (pG P) n <= vx (px p) < node_x (pG P) n + cell_w (pG P) /\
    node_y (pG P) n <= vy (px p) < node_y (pG P) n + cell_h (pG P) /\
    exists c : nat -> nat,
      (forall r, (r < 4)%nat ->
        nearby (Z.of_nat n) r (nx (pG P)) = Z.of_nat (c r) /\ (c r < nodes (pG P))%nat /\
        node_x (pG P) (c r) = node_x (pG P) n + fst (corner (cell_w (pG P)) (cell_h (pG P)) r) /\
        node_y (pG P) (c r) = node_y (pG P) n + snd (corner (cell_w (pG P)) (cell_h (pG P)) r)) /\
      (forall r s, (r < 4)%nat -> (s < 4)%nat -> c r = c s -> r = s).
Proof. exact p_C02_reference_node. Qed.
Print Assumptions C02_reference_node.

(** The constructor produces such a grid, and discarding the fields keeps it. *)
Theorem C02_grid_constructed : forall P B, proper P ->
  exists G, grid_init P B = Ok G /\ grid_ok P G /\ forall Q, grid_ok P (wipe Q G).
Proof. exact p_C02_grid_constructed. Qed.
Print Assumptions C02_grid_constructed.

(** Instance: C02_grid_constructed_example in PropsCasesStep.v. *)

Example C02_reference_node_example :
  proper (pG (ex_params (T := R) ex_bounds)) /\ in_dom (pG (ex_params ex_bounds)) (px ex_p2) /\
  exists G, grid_init ex_gridp ex_bounds = Ok G /\ grid_ok (pG (ex_params ex_bounds)) G.
Proof. exact x_C02_reference_node. Qed.

Theorem C03_recover_position : forall P G p p1 p2,
  proper (pG P) -> grid_ok (pG P) G -> in_dom (pG P) (px p) ->
  get_reference_node P G p = Ok p1 -> get_basis_functions G p1 = Ok p2 ->
  recover_position P G p2 = Ok (mkV3 (vx (px p)) (vy (px p)) 0).
Proof. exact p_C03_recover_position. Qed.
Print Assumptions C03_recover_position.

(** Instance: C03_recover_position_example in PropsInst.v. *)

Theorem C03_check_never_fires : forall P G L L1 L2,
  proper (pG P) -> grid_ok (pG P) G ->
  all_live L (fun _ p => in_dom (pG P) (px p) /\ vz (px p) = 0) -> enough L ->
  ref_nodes P G L = Ok L1 -> basis_all G L1 = Ok L2 ->
  check_positions P G L2 = Ok tt.
Proof. exact p_C03_check_never_fires. Qed.
Print Assumptions C03_check_never_fires.

Example C03_check_never_fires_example : exists G L1 L2,
  grid_ok (pG (ex_params (T := R) ex_bounds)) G /\
  all_live (ex_L Elastic) (fun _ p => in_dom (pG (ex_params ex_bounds)) (px p) /\ vz (px p) = 0) /\
  enough (ex_L (T := R) Elastic) /\
  ref_nodes (ex_params ex_bounds) G (ex_L Elastic) = Ok L1 /\ basis_all G L1 = Ok L2.
Proof. exact x_C03_check_never_fires. Qed.

Theorem C04_nodal_mass : forall P G L L1 L2 G',
  proper (pG P) -> grid_ok (pG P) G -> all_live L (fun _ p => in_dom (pG P) (px p)) ->
  ref_nodes P (wipe P G) L = Ok L1 -> basis_all (wipe P G) L1 = Ok L2 ->
  p2g_all P L2 (wipe P G) = Ok G' ->
  length (gm G') = nodes (pG P) /\
  forall k, (k < nodes (pG P))%nat ->
    nth k (gm G') 0 =
    psum L (fun _ p => pm p * (tent ((vx (px p) - node_x (pG P) k) / cell_w (pG P)) *
                               tent ((vy (px p) - node_y (pG P) k) / cell_h (pG P)))).
Proof. exact p_C04_nodal_mass. Qed.
Print Assumptions C04_nodal_mass.

(** The mapping always succeeds for particles in the domain. *)
Theorem C04_mapping_total : forall P G L,
  proper (pG P) -> grid_ok (pG P) G -> all_live L (fun _ p => in_dom (pG P) (px p)) ->
  enough L ->
  all_live L (fun _ p => p_seg P = true -> length (pphi p) = ns (pG P)) ->
  exists L1 L2 G', ref_nodes P (wipe P G) L = Ok L1 /\ basis_all (wipe P G) L1 = Ok L2 /\
    p2g_all P L2 (wipe P G) = Ok G'.
Proof. exact p_C04_mapping_total. Qed.
Print Assumptions C04_mapping_total.

(** Instance: C04_mapping_total_example in PropsCasesStep.v. *)

Example C04_nodal_mass_example : exists G L1 L2 G',
  proper (pG (ex_params (T := R) ex_bounds)) /\ grid_ok (pG (ex_params ex_bounds)) G /\
  all_live (ex_L Elastic) (fun _ p => in_dom (pG (ex_params ex_bounds)) (px p)) /\
  ref_nodes (ex_params ex_bounds) (wipe (ex_params ex_bounds) G) (ex_L Elastic) = Ok L1 /\
  basis_all (wipe (ex_params ex_bounds) G) L1 = Ok L2 /\
  p2g_all (ex_params ex_bounds) L2 (wipe (ex_params ex_bounds) G) = Ok G' /\
  nth 5 (gm G') 0 = 5/4.
Proof. exact x_C04_nodal_mass. Qed.

Theorem C05_mass_conserved : forall P G L L1 G',
  gdx G <> 0 -> gdy G <> 0 ->
  basis_all (wipe P G) L = Ok L1 -> p2g_all P L1 (wipe P G) = Ok G' ->
  length (gm G') = nodes (pG P) /\
  fsum (nodes (pG P)) (fun k => nth k (gm G') 0) = psum L (fun _ p => pm p).
Proof. exact p_C05_mass_conserved. Qed.
Print Assumptions C05_mass_conserved.

(** Momentum at a node: what the particles bring, except for the components
    removed by the wall conditions; without wall masks the total is conserved. *)
Theorem C05_momentum_conserved : forall P G L L1 G' a,
  gdx G <> 0 -> gdy G <> 0 ->
  length (bv G) = nodes (pG P) -> length (bh G) = nodes (pG P) -> wall_free (bv G) (bh G) ->
  basis_all (wipe P G) L = Ok L1 -> p2g_all P L1 (wipe P G) = Ok G' ->
  fsum (nodes (pG P)) (fun k => comp a (nth k (gq G') v0)) =
  psum L (fun ph p => pm p * comp a (velocity ph p)).
Proof. exact p_C05_momentum_conserved. Qed.
Print Assumptions C05_momentum_conserved.

(** Instance: C05_momentum_conserved_example in PropsCasesStep.v. *)

(** With walls: the component along [a] at node [k] is the one without walls,
    or zero if the wall conditions remove it (mplist.py:147-151). *)
Theorem C05_momentum_with_walls : forall P G Gfree L G' Gf' a k,
  length (bv G) = nodes (pG P) -> length (bh G) = nodes (pG P) ->
  length (bv Gfree) = nodes (pG P) -> length (bh Gfree) = nodes (pG P) ->
  wall_free (bv Gfree) (bh Gfree) ->
  p2g_all P L (wipe P G) = Ok G' -> p2g_all P L (wipe P Gfree) = Ok Gf' ->
  comp a (nth k (gq G') v0) =
  if removed a (roughness (pB P)) (nth k (bv G) false) (nth k (bh G) false) then 0
  else comp a (nth k (gq Gf') v0).
Proof. exact p_C05_momentum_with_walls. Qed.
Print Assumptions C05_momentum_with_walls.

(** Instance: C05_momentum_with_walls_example in PropsInst.v. *)

Example C05_mass_conserved_example : exists G L1 G',
  gdx G <> 0 /\ gdy G <> 0 /\
  length (bv G) = nodes (pG (ex_params (T := R) ex_bounds)) /\
  length (bh G) = nodes (pG (ex_params (T := R) ex_bounds)) /\ wall_free (bv G) (bh G) /\
  basis_all (wipe (ex_params ex_bounds) G) (ex_L Elastic) = Ok L1 /\
  p2g_all (ex_params ex_bounds) L1 (wipe (ex_params ex_bounds) G) = Ok G'.
Proof. exact x_C05_mass_conserved. Qed.

Theorem C06_resultants : forall P G L L1 G0 G' a,
  gdx G <> 0 -> gdy G <> 0 -> cyclic_lr (pB P) = false ->
  basis_all G L = Ok L1 -> forces_all P L1 (wipe P G0) = Ok G' ->
  length (gfi G') = nodes (pG P) /\ length (gfe G') = nodes (pG P) /\
  fsum (nodes (pG P)) (fun k => comp a (nth k (gfi G') v0)) = 0 /\
  fsum (nodes (pG P)) (fun k => comp a (nth k (gfe G') v0)) = psum L (fun _ p => pm p * comp a (pb p)).
Proof. exact p_C06_resultants. Qed.
Print Assumptions C06_resultants.

Example C06_resultants_example : exists G L1 L2 G',
  gdx G <> 0 /\ gdy G <> 0 /\ cyclic_lr (pB (ex_params (T := R) ex_bounds)) = false /\
  ref_nodes (ex_params ex_bounds) G (ex_L Elastic) = Ok L1 /\
  basis_all G L1 = Ok L2 /\ forces_all (ex_params ex_bounds) L2 (wipe (ex_params ex_bounds) G) = Ok G'.
Proof. exact x_C06_resultants. Qed.

Theorem C07_no_torque : forall P G L L1 L2 G0 G',
  proper (pG P) -> grid_ok (pG P) G -> cyclic_lr (pB P) = false ->
  all_live L (fun _ p => in_dom (pG P) (px p) /\ symmetric (pstress p)) ->
  ref_nodes P G L = Ok L1 -> basis_all G L1 = Ok L2 -> forces_all P L2 (wipe P G0) = Ok G' ->
  fsum (nodes (pG P)) (fun k => node_x (pG P) k * vy (nth k (gfi G') v0)
                              - node_y (pG P) k * vx (nth k (gfi G') v0)) = 0.
Proof. exact p_C07_no_torque. Qed.
Print Assumptions C07_no_torque.

(** The moment is the skew part of the stress, so the hypothesis is needed. *)
Theorem C07_torque_exact : forall P G L L1 L2 G0 G',
  proper (pG P) -> grid_ok (pG P) G -> cyclic_lr (pB P) = false ->
  all_live L (fun _ p => in_dom (pG P) (px p)) ->
  ref_nodes P G L = Ok L1 -> basis_all G L1 = Ok L2 -> forces_all P L2 (wipe P G0) = Ok G' ->
  fsum (nodes (pG P)) (fun k => node_x (pG P) k * vy (nth k (gfi G') v0)
                              - node_y (pG P) k * vx (nth k (gfi G') v0)) =
  psum L (fun _ p => pV p * (yx (pstress p) - xy (pstress p))).
Proof. exact p_C07_torque_exact. Qed.
Print Assumptions C07_torque_exact.

(** Instance: C07_torque_exact_example in PropsCasesStep.v. *)

Example C07_no_torque_example : exists G L1 L2 G',
  proper (pG (ex_params (T := R) ex_bounds)) /\ grid_ok (pG (ex_params ex_bounds)) G /\
  all_live (ex_L Elastic) (fun _ p => in_dom (pG (ex_params ex_bounds)) (px p) /\ symmetric (pstress p)) /\
  ref_nodes (ex_params ex_bounds) G (ex_L Elastic) = Ok L1 /\
  basis_all G L1 = Ok L2 /\ forces_all (ex_params ex_bounds) L2 (wipe (ex_params ex_bounds) G) = Ok G'.
Proof. exact x_C07_no_torque. Qed.

Theorem C54_velocity_between : forall P G L L1 L2 G' a lo hi,
  proper (pG P) -> grid_ok (pG P) G -> wall_free (bv G) (bh G) ->
  all_live L (fun ph p => in_dom (pG P) (px p) /\ 0 <= pm p /\ lo <= comp a (velocity ph p) <= hi) ->
  ref_nodes P (wipe P G) L = Ok L1 -> basis_all (wipe P G) L1 = Ok L2 ->
  p2g_all P L2 (wipe P G) = Ok G' ->
  forall k, 0 < nth k (gm G') 0 -> lo <= comp a (nth k (gq G') v0) / nth k (gm G') 0 <= hi.
Proof. exact p_C54_velocity_between. Qed.
Print Assumptions C54_velocity_between.

(** Instance: C54_velocity_between_example in PropsCasesStep.v. *)

(** With or without walls; massless nodes carry no momentum. *)
Theorem C54_kinetic_energy : forall P G L L1 L2 G',
  proper (pG P) -> grid_ok (pG P) G ->
  all_live L (fun ph p => in_dom (pG P) (px p) /\ 0 <= pm p) ->
  ref_nodes P (wipe P G) L = Ok L1 -> basis_all (wipe P G) L1 = Ok L2 ->
  p2g_all P L2 (wipe P G) = Ok G' ->
  (forall k, 0 <= nth k (gm G') 0 /\ (nth k (gm G') 0 = 0 -> nth k (gq G') v0 = v0)) /\
  fsum (nodes (pG P)) (fun k => if Rlt_dec 0 (nth k (gm G') 0)
                                then sq3 (nth k (gq G') v0) / (2 * nth k (gm G') 0) else 0)
  <= psum L (fun ph p => 1 / 2 * pm p * sq3 (velocity ph p)).
Proof. exact p_C54_kinetic_energy. Qed.
Print Assumptions C54_kinetic_energy.

Example C54_kinetic_energy_example : exists G L1 L2 G',
  grid_ok (pG (ex_params (T := R) ex_bounds)) G /\ wall_free (bv G) (bh G) /\
  all_live (ex_L Elastic) (fun ph p => in_dom (pG (ex_params ex_bounds)) (px p) /\ 0 <= pm p /\ -1 <= comp AX (velocity ph p) <= 1) /\
  ref_nodes (ex_params ex_bounds) (wipe (ex_params ex_bounds) G) (ex_L Elastic) = Ok L1 /\
  basis_all (wipe (ex_params ex_bounds) G) L1 = Ok L2 /\
  p2g_all (ex_params ex_bounds) L2 (wipe (ex_params ex_bounds) G) = Ok G'.
Proof. exact x_C54_kinetic_energy. Qed.
