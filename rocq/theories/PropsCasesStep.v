(** * Cases that meet the hypotheses: the mapping and the step
    Statements only; the proofs are in ThmCasesStep.v. *)
From Coq Require Import ZArith QArith Reals List Bool Arith Lra Lia Permutation.
From Verif Require Import State NumR NumQ Spec SpecLaws SpecStep LibList LibR ModelGrid ModelConstit ModelParticle ModelMPList
  ModelIntegr ModelMain ProofsGrid ProofsMap ProofsP2G ProofsWalls ProofsLaws ProofsInOut ProofsHist Concrete SpecOrder
  ThmMapping ThmWalls ThmLaws ThmInOut ThmHist ProofsStep ProofsPoints ThmStep ThmBalance ThmLoop ThmRun ThmFrac ThmOrder ThmInst ThmSift.
Import ListNotations.
Local Existing Instance Num_R.
From Verif Require Import ThmCasesStep.
Local Open Scope R_scope.

(** Shape functions of a cell two by one. *)
Example C01_corners_example : nth 2 (fst (shape 2 1 (mkV3 (fst (corner 2 1 2)) (snd (corner 2 1 2)) 7))) 0 = 1 /\
  nth 3 (fst (shape 2 1 (mkV3 (fst (corner 2 1 2)) (snd (corner 2 1 2)) 7))) 0 = 0 /\ fst (corner 2 1 2) = 2 /\ 2 <> 0 /\ 1 <> 0.
Proof. exact x_C01_corners. Qed.

Example C01_bounds_example : let x := mkV3 (1/2) (1/3) 0 in 0 <= vx x <= 2 /\ 0 <= vy x <= 1 /\ 0 < 2 /\ 0 < 1 /\ 0 < nth 0 (fst (shape 2 1 x)) 0 < 1.
Proof. exact x_C01_bounds. Qed.

Example C01_gradients_example : vx (nth 0 (snd (shape 2 1 (mkV3 (1/2) (1/3) 0))) v0) = -1/3 /\ 2 <> 0 /\ 1 <> 0.
Proof. exact x_C01_gradients. Qed.

Example C02_grid_constructed_example : proper (ex_gridp (T := R)) /\ nodes (ex_gridp (T := R)) = 12%nat.
Proof. exact x_C02_grid_constructed. Qed.

Example C04_mapping_total_example : exists G, proper (pG (ex_params (T := R) ex_bounds)) /\ grid_ok (pG (ex_params ex_bounds)) G /\
  all_live (ex_L Elastic) (fun _ p => in_dom (pG (ex_params ex_bounds)) (px p)) /\ enough (ex_L (T := R) Elastic) /\
  all_live (ex_L Elastic) (fun _ p => p_seg (ex_params ex_bounds) = true -> length (pphi p) = ns (pG (ex_params (T := R) ex_bounds))).
Proof. exact x_C04_mapping_total. Qed.

Example C05_momentum_conserved_example : exists G L1 G', gdx G <> 0 /\ gdy G <> 0 /\
  length (bv G) = nodes (pG (ex_params (T := R) ex_bounds)) /\ length (bh G) = nodes (pG (ex_params (T := R) ex_bounds)) /\ wall_free (bv G) (bh G) /\
  basis_all (wipe (ex_params ex_bounds) G) (ex_L Elastic) = Ok L1 /\ p2g_all (ex_params ex_bounds) L1 (wipe (ex_params ex_bounds) G) = Ok G' /\
  psum (ex_L Elastic) (fun ph p => pm p * comp AX (velocity ph p)) = 2.
Proof. exact x_C05_momentum_conserved. Qed.

Example C07_torque_exact_example : exists G L1 L2 G', proper (pG (ex_params (T := R) ex_bounds)) /\ grid_ok (pG (ex_params ex_bounds)) G /\
  cyclic_lr (pB (ex_params (T := R) ex_bounds)) = false /\ all_live (ex_L Elastic) (fun _ p => in_dom (pG (ex_params ex_bounds)) (px p)) /\
  ref_nodes (ex_params ex_bounds) G (ex_L Elastic) = Ok L1 /\ basis_all G L1 = Ok L2 /\
  forces_all (ex_params ex_bounds) L2 (wipe (ex_params ex_bounds) G) = Ok G'.
Proof. exact x_C07_torque_exact. Qed.

Example C08_exact_example : forall uf fill, exists s s', proper (pG (sP s)) /\ grid_ok (pG (sP s)) (sG s) /\
  all_live (sL s) (fun _ p => in_dom (pG (sP s)) (px p)) /\ shut (sP s) /\
  (forall ph, In ph (sL s) -> s_law (ph_sol ph) <> Rigid /\ s_law (ph_sol ph) <> ElasticTime) /\
  own_velocities (sL s) /\ 0 <= p_Mtol (sP s) /\ time_march uf fill s = Ok s'.
Proof. exact x_C08_exact. Qed.

Example C09_columns_equal_example : (forall a b, Nat.add a b = Nat.add b a) /\ cyc Nat.add 3 [1; 2; 3; 4; 5; 6]%nat = Ok [4; 2; 4; 10; 5; 10]%nat /\ (1 < 2)%nat.
Proof. exact x_C09_columns_equal. Qed.

Example C10_nodes_example : exists G, grid_init (ex_gridp (T := R)) ex_box = Ok G.
Proof. exact x_C10_nodes. Qed.

Example C14_confined_example : forall fill, exists s, boxed s /\ cfl_held no_loads fill s /\ (length (concat (map live (sL s))) = 2)%nat.
Proof. exact x_C14_confined. Qed.

Example C42_completes_example : forall fill, exists s, boxed s /\ runnable s /\ cfl_held no_loads fill s /\ 0 < p_dt (sP s) /\ (length (concat (map live (sL s))) = 2)%nat.
Proof. exact x_C42_completes. Qed.

Example C42_terminates_example : forall fill, exists s : state R, p_dynamic (sP s) = false /\ 0 < p_dt (sP s) /\ p_tf (sP s) < p_t (sP s) + INR 11 * p_dt (sP s) /\
  (length (concat (map live (sL s))) = 2)%nat /\ main_loop no_loads fill 11 s <> None.
Proof. exact x_C42_terminates. Qed.

Example C42_deterministic_example : forall fill, exists (s : state R) r1 r2, main_loop no_loads fill 11 s = Some r1 /\ main_loop no_loads fill 20 s = Some r2 /\
  (length (concat (map live (sL s))) = 2)%nat.
Proof. exact x_C42_deterministic. Qed.

Example C42_no_progress_example : exists s : state R, p_dynamic (sP s) = false /\ p_dt (sP s) <= 0 /\ p_t (sP s) <= p_tf (sP s) /\ sL s <> [].
Proof. exact x_C42_no_progress. Qed.

Example C17_run_example : forall uf fill, exists P G sols L s', mplist_init P sols = Ok L /\ reach uf fill (mkState P G L) s' /\ s' <> mkState P G L /\
  (length (concat (map live L)) = 2)%nat.
Proof. exact x_C17_run. Qed.

Example C33_initial_example : exists (P : params R) sols L, mplist_init P sols = Ok L /\ (length (concat (map live L)) = 2)%nat.
Proof. exact x_C33_initial. Qed.

Example C34_mass_and_volume_example : forall uf fill, exists s s' : state R, counted (sL s) /\ reach uf fill s s' /\ s' <> s /\
  outlet_left (pB (sP s)) = false /\ outlet_bottom (pB (sP s)) = false /\ inlet_right (pB (sP s)) = false /\ inlet_top (pB (sP s)) = false.
Proof. exact x_C34_mass_and_volume. Qed.

Example C17_strain_symmetric_example : exists G p', update_strain (ex_params (T := R) ex_bounds) G (locate ex_gridp ex_p1) = Ok p' /\
  symmetric (pstrain (locate ex_gridp (ex_p1 (T := R)))) /\ pstress (locate ex_gridp (ex_p1 (T := R))) <> m0.
Proof. exact x_C17_strain_symmetric. Qed.

(** A step in the box, and its maximal speed. *)
Example C58_pass_total_example : forall uf fill, exists (s : state R) r, ready s /\ p_dynamic (sP s) = false /\ p_tf (sP s) <> 0 /\ p_savetime (sP s) <> 0 /\
  (length (concat (map live (sL s))) = 2)%nat /\ pass uf fill s [] = Ok r.
Proof. exact x_C58_pass_total. Qed.

Example C59_step_example : forall fill, exists s s', proper (pG (sP s)) /\ grid_ok (pG (sP s)) (sG s) /\
  all_live (sL s) (fun _ p => in_dom (pG (sP s)) (px p)) /\ shut (sP s) /\ no_rub (pB (sP s)) /\
  0 <= p_Mtol (sP s) /\ (forall ph, In ph (sL s) -> s_law (ph_sol ph) = Elastic) /\ drifting v0 (sL s) /\ unloaded (sP s) (no_loads (sP s)) /\
  time_march no_loads fill s = Ok s' /\ (length (concat (map live (sL s))) = 2)%nat.
Proof. exact x_C59_step. Qed.

Example C14_step_example : forall fill, exists s s', proper (pG (sP s)) /\ grid_ok (pG (sP s)) (sG s) /\
  p_seg (sP s) = false /\ cyclic_lr (pB (sP s)) = false /\ conveyor (pB (sP s)) = false /\
  outlet_left (pB (sP s)) = false /\ outlet_bottom (pB (sP s)) = false /\ inlet_right (pB (sP s)) = false /\ inlet_top (pB (sP s)) = false /\
  (forall ph, In ph (sL s) -> s_law (ph_sol ph) <> Rigid) /\ closed (pG (sP s)) (sG s) /\
  all_live (sL s) (fun _ p => inside (pG (sP s)) (px p)) /\ time_march no_loads fill s = Ok s' /\ cfl (p_dt (sP s)) (sP s) (sG s') /\
  (length (concat (map live (sL s))) = 2)%nat.
Proof. exact x_C14_step. Qed.

(** Swapping two points of a run. *)
Example C53_run_example : forall uf fill, exists (s t : state R) s' tr, shuffled s t /\ sL s <> sL t /\ (forall tf, tf = p_tf (sP s) -> 0 < tf) /\
  pass uf fill s [] = Ok (s', tr).
Proof. exact x_C53_run. Qed.

Example C53_energy_example : exists La Lb r, Forall2 reordered La Lb /\ La <> Lb /\ measure_energy (ex_params (T := R) ex_box) La = Ok r.
Proof. exact x_C53_energy. Qed.

Example C51_kinetic_example : let p := ex_p1 (T := R) in 0 < pm p /\ vel v0 p <> v0 /\ fst (fst (energy (ex_params ex_bounds) v0 p)) = 1.
Proof. exact x_C51_kinetic. Qed.

Example C51_gravitational_example : let P := ex_params (T := R) ex_bounds in let p := ex_p1 in vx (px p) <> 0 /\ vz (px p) = 0 /\ ld_theta (p_loads P) = 0 /\
  snd (fst (energy P v0 p)) = 1.
Proof. exact x_C51_gravitational. Qed.

Example C51_elastic_example : exists (P : params R) sv p, 0 <= pV p /\ 0 <= 3 /\ 0 <= 2 /\ hooke 3 2 (pstrain p) (pstress p) /\ 0 < snd (energy P sv p).
Proof. exact x_C51_elastic. Qed.

Example C54_velocity_between_example : exists G L1 L2 G', proper (pG (ex_params (T := R) ex_bounds)) /\
  grid_ok (pG (ex_params (T := R) ex_bounds)) G /\ wall_free (bv G) (bh G) /\
  all_live (ex_L Elastic) (fun ph p => in_dom (pG (ex_params ex_bounds)) (px p) /\ 0 <= pm p /\ -1 <= comp AX (velocity ph p) <= 1) /\
  ref_nodes (ex_params ex_bounds) (wipe (ex_params ex_bounds) G) (ex_L Elastic) = Ok L1 /\
  basis_all (wipe (ex_params ex_bounds) G) L1 = Ok L2 /\
  p2g_all (ex_params ex_bounds) L2 (wipe (ex_params ex_bounds) G) = Ok G'.
Proof. exact x_C54_velocity_between. Qed.

Example C56_first_yield_example : exists s : ytime (T := R), yt_q s = Some 3 /\ yt_yielded s = false /\ (forall f, In f [1/2; 3/4] -> f <= 99 / 100) /\
  In 1 [1/2; 1] /\ 99 / 100 < 1.
Proof. exact x_C56_first_yield. Qed.

Example C41_plain_example : exists P G L', proper (pG P) /\ p_norm P = false /\ length (gm G) = nodes (pG P) /\ length (g_dphi G) = nodes (pG P) /\
  all_live [mkPhase (ex_solid Elastic) 1 v0 [locate ex_gridp ex_p1]] (fun _ p => located (pG P) p) /\
  move_grainsize P G [mkPhase (ex_solid (T := R) Elastic) 1 v0 [locate ex_gridp ex_p1]] = Ok L' /\ p_Mtol P < nth 0 (gm G) 0 /\ nth 0 (nth 0 (g_dphi G) []) 0 = 1 / 4.
Proof. exact x_C41_plain. Qed.
