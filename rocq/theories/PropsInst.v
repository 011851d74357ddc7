(** * Instances: concrete cases that meet the hypotheses of theorems stated elsewhere
    Statements only; the proofs are in ThmInst.v. *)
From Coq Require Import ZArith List Bool Arith Lia Reals Lra.
From Verif Require Import State NumR LibR LibList Spec SpecStep ModelGrid ModelConstit ModelParticle ModelMPList
  ModelIntegr ModelMain ProofsGrid ProofsMap ProofsP2G ProofsWalls ProofsLaws ProofsSym ProofsInOut ProofsHist Concrete
  ThmMapping ThmWalls ThmLaws ThmInOut ThmLoop ThmHist SpecLaws ProofsStep ThmStep ProofsPoints ThmBalance ThmSeg ThmGrad ThmFrac.
Import ListNotations.
From Verif Require Import ThmInst.
Local Open Scope R_scope.

(** A cell of 2 by 1 and the point (1/2, 1/3). *)
Example C01_tents_example : let x := mkV3 (1/2) (1/3) 0 in 0 <= vx x <= 2 /\ 0 <= vy x <= 1 /\
  nth 0 (fst (shape 2 1 x)) 0 = 1 / 2 /\ nth 2 (fst (shape 2 1 x)) 0 = 1 / 12.
Proof. exact x_C01_tents. Qed.

Example C03_recover_position_example : exists (G : grid R) p1 p2,
  let P := ex_params ex_bounds in
  proper (pG P) /\ grid_ok (pG P) G /\ in_dom (pG P) (px ex_p2) /\
  get_reference_node P G ex_p2 = Ok p1 /\ get_basis_functions G p1 = Ok p2 /\
  recover_position P G p2 = Ok (mkV3 (3/2) (5/4) 0).
Proof. exact x_C03_recover_position. Qed.

(** The two particles mapped to a grid with walls on all sides and to one without. *)
Example C05_momentum_with_walls_example : exists (G Gfree : grid R) L G' Gf',
  let P := ex_params ex_bounds in
  length (bv G) = nodes (pG P) /\ length (bh G) = nodes (pG P) /\
  length (bv Gfree) = nodes (pG P) /\ length (bh Gfree) = nodes (pG P) /\ wall_free (bv Gfree) (bh Gfree) /\
  p2g_all P L (wipe P G) = Ok G' /\ p2g_all P L (wipe P Gfree) = Ok Gf' /\
  nth 0 (bv G) false = true /\ (length (concat (map live L)) = 2)%nat.
Proof. exact x_C05_momentum_with_walls. Qed.

(** A line of three nodes with two equal size classes in motion. *)
Example C39_uniform_example : exists ss f phi, (forall i, (i < 3)%nat -> phi i = f) /\ length f = length ss /\
  Forall (fun s => 0 < s) ss /\ Forall (Rle 0) f /\ Rsum f = 1 /\ (length ss = 2)%nat.
Proof. exact x_C39_uniform. Qed.

Example C18_correction_exact_partial_example : exists (G : grid R) p1 p2 p3 G2,
  let P := ex_params ex_bounds in let p := locate ex_gridp ex_p1 in let S := ex_solid Elastic in
  located (pG P) p /\ length (gm G) = nodes (pG P) /\ length (gq G) = nodes (pG P) /\
  (forall k, (k < nodes (pG P))%nat -> cell_corner (pG P) (px p) k ->
     p_Mtol P < nth k (gm G) 0 /\
     forall a, comp a (nth k (gq G) v0) = nth k (gm G) 0 *
       comp a (affine (mkV3 1 0 0) (mkM3 0 2 0 0 0 0 0 0 0) (node_x (pG P) k) (node_y (pG P) k))) /\
  0 <= p_Mtol P /\ update_strain P G p = Ok p1 /\
  apply_law P S S 0 p1 G = Ok (p2, G2) /\ update_stress P S S 0 p1 G = Ok (p3, G2) /\ xy (pstress p) = 2.
Proof. exact x_C18_correction_exact_partial. Qed.

Example C16_rigid_motion_example : exists (G : grid R) p1 p2 p',
  let P := ex_params ex_bounds in
  proper (pG P) /\ grid_ok (pG P) G /\ in_dom (pG P) (px ex_p1) /\ 0 <= p_Mtol P /\
  length (gm G) = nodes (pG P) /\ length (gq G) = nodes (pG P) /\
  (forall k, (k < nodes (pG P))%nat -> cell_corner (pG P) (px ex_p1) k ->
     p_Mtol P < nth k (gm G) 0 /\
     forall a, comp a (nth k (gq G) v0) =
       nth k (gm G) 0 * comp a (mkV3 (vx (mkV3 1 0 0) - 2 * node_y (pG P) k) (vy (mkV3 1 0 0) + 2 * node_x (pG P) k) (vz (mkV3 1 0 0)))) /\
  get_reference_node P G ex_p1 = Ok p1 /\ get_basis_functions G p1 = Ok p2 /\ update_strain P G p2 = Ok p'.
Proof. exact x_C16_rigid_motion. Qed.

(** Three elastic particles, one strained by a combination of the others. *)
Example C19_linear_example : exists P S (G : grid R) p' q' r' G1' G2' G3', let p := ex_p_loc <| pdstrain := mkM3 1 2 0 2 0 0 0 0 0 |> in
  let q := ex_p_loc <| pdstrain := iso 1 |> in let r := ex_p_loc <| pdstrain := plus3 (times 2 (pdstrain p)) (times 3 (pdstrain q)) |> in
  s_law S = Elastic /\ apply_law P S S 0 p G = Ok (p', G1') /\ apply_law P S S 0 q G = Ok (q', G2') /\
  apply_law P S S 0 r G = Ok (r', G3').
Proof. exact x_C19_linear. Qed.

Example C20_compression_example : exists (P : params R) S p, p_pressure P = PCompression /\ p_init_press P = Some 5 /\
  particle_init P S S 1 1 [] = Ok p /\ yy (pstress p) = -5.
Proof. exact x_C20_compression. Qed.

(** A Bingham fluid sheared below its yield rate of 1. *)
Example C22_below_and_continuous_example : exists P S (G : grid R) p p' G', s_law S = Bingham /\
  apply_law P S S 0 p G = Ok (p', G') /\ 0 < p_dt P /\ s_gamma_c S = Some 1 /\
  0 < frob (deviator (pdstrain p)) / p_dt P <= 1.
Proof. exact x_C22_below_and_continuous. Qed.

Example C24_scalar_aborts_example : exists (P : params R) (S : solid R) (MP : particle R) m, s_mu_0 S = Some (Sc m) /\ (0 < ns (pG P))%nat /\
  (ns (pG P) <= length (pphi MP))%nat /\ (ns (pG P) <= length (gs (pG P)))%nat.
Proof. exact x_C24_scalar_aborts. Qed.

Example C30_outlet_left_partial_example : exists P (L : list (phase R)) dx, counted L /\ pdx (pG P) = Some dx /\
  exists p q, In p (concat (map live L)) /\ In q (concat (map live L)) /\
    x_m (pG P) < vx (px p) < x_m (pG P) + dx /\ x_m (pG P) + dx < vx (px q).
Proof. exact x_C30_outlet_left_partial. Qed.

Example C31_schedule_example : exists (S : solid R) rate dt, s_inlet_rate S = Some rate /\ 0 < dt <= rate /\ INR 3 * dt < rate.
Proof. exact x_C31_schedule. Qed.

Example C31_inlet_top_example : exists P L L' ph ph', inlet_top_f (T := R) P L = Ok L' /\ In ph L /\ In ph' L' /\
  inlet_due P (ph_sol ph) = Ok true /\ (length (ph_pts ph) < length (ph_pts ph'))%nat.
Proof. exact x_C31_inlet_top. Qed.

(** A rough box whose floor carries friction. *)
Example C13_friction_exact_example : exists P (G G' : grid R), sized (pG P) G /\ rubs (pB P) (1/2) /\ update_momentum P G = Ok G' /\
  conveyor (pB P) = false /\ (5 < nx (pG P) * ny (pG P))%nat.
Proof. exact x_C13_friction_exact. Qed.

Example C12_wall_momentum_example : exists P (G G' : grid R), sized (pG P) G /\ no_rub (pB P) /\ update_momentum P G = Ok G' /\
  removed AX (roughness (pB P)) (nth 0 (bv G) false) (nth 0 (bh G) false) = true /\ conveyor (pB P) = false.
Proof. exact x_C12_wall_momentum. Qed.

Example C49_load_resultant_example : exists P (G G' : grid R), sized (pG P) G /\ proper (pG P) /\ (forall k, nth k (gext G) v0 = v0) /\
  BCs P 2 G = Ok G' /\ gdx G <> 0 /\ gdy G <> 0 /\ vertical_force (pB P) = true /\ horizontal_force (pB P) = true.
Proof. exact x_C49_load_resultant. Qed.

Example C41_valid_example : fractions 3 [1/2; 1/3; 1/6] /\ normalise [1/2; 1/3; 1/6] = [1/2; 1/3; 1/6].
Proof. exact x_C41_valid. Qed.

Example C48_gradient_example : exists fill (P : params R) G Z, proper (pG P) /\ grid_ok (pG P) G /\ fills fill /\ no_empty P G /\
  affine_field (pG P) Z 1 2 3.
Proof. exact x_C48_gradient. Qed.

Example C56_needs_q_example : exists s : ytime (T := R), yt_q s = None /\ yt_yielded s = false /\ exists f, In f [1/2; 1] /\ 99 / 100 < f.
Proof. exact x_C56_needs_q. Qed.

(** A uniform concentration on the example grid. *)
Example C40_uniform_example : exists (P : params R) G A, p_l P = Some 1 /\ pdx (pG P) = Some 1 /\ pdy (pG P) = Some 1 /\
  Diffusion P 1 G = Ok A /\ (0 < ns (pG P))%nat /\ (forall m, (m < nodes (pG P))%nat -> conc 1 1 G 0 m = 1/2) /\
  nth 5 (btot G) true = false.
Proof. exact x_C40_uniform. Qed.
