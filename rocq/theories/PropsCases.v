(** * Cases that meet the hypotheses: walls, limiters, loads, initial points
    Statements only; the proofs are in ThmCases.v. *)
From Coq Require Import ZArith QArith Reals List Bool Arith Lra Lia.
From Verif Require Import State NumR NumQ NumX Spec SpecLaws SpecStep SpecScheme LibList LibR ModelGrid ModelInputs ModelConstit ModelParticle ModelMPList
  ModelIntegr ModelNewInt ModelMain ProofsGrid ProofsWalls Concrete ThmMapping ThmWalls ThmLoads ThmSeg ThmLimits ThmFrac ThmLoop ThmInOut ThmLaws.
Import ListNotations.
From Verif Require Import ThmCases.
Local Open Scope R_scope.

(** Two walls on a grid of ten columns and six rows: column 2 up to row 2, column 6 from row 3. *)
Example C11_two_walls_example :
  let B : bounds Q := mkBounds false true false None false false false false false false false
           false false false false false false false false false in
  let P : gridp Q := mkGridp 0%Q 9%Q 0%Q 5%Q 10 6 None None 1%Q 1 [1%Q] None None in
  only_two_walls B /\
  match grid_init P B with
  | Ok G => filter (fun k => nth k (bv G) false) (seq 0 60) = [2; 12; 22; 36; 46; 56]%nat
  | Err _ => False end.
Proof. exact x_C11_two_walls. Qed.

(** A silo wall on a grid of four columns and ten rows: column 1, open in rows 2 to 7. *)
Example C11_silo_left_column_example :
  let B : bounds Q := mkBounds false false false None false false false false false false false
           false false false false false false false true false in
  let P : gridp Q := mkGridp 0%Q 3%Q 0%Q 9%Q 4 10 None None 1%Q 1 [1%Q] None None in
  only_silo_left B /\ match grid_init P B with Ok G => nth 1 (bv G) false = true | Err _ => False end.
Proof. exact x_C11_silo_left_column. Qed.

Example C11_silo_left_opening_example :
  let B : bounds Q := mkBounds false false false None false false false false false false false
           false false false false false false false true false in
  let P : gridp Q := mkGridp 0%Q 3%Q 0%Q 9%Q 4 10 None None 1%Q 1 [1%Q] None None in
  only_silo_left B /\ (3 <= nx P)%nat /\ (6 <= ny P)%nat /\
  match grid_init P B with
  | Ok G => filter (fun k => nth k (bv G) false) (seq 0 40) = [1; 5; 33; 37]%nat
  | Err _ => False end.
Proof. exact x_C11_silo_left_opening. Qed.

(** A silo floor of ten columns: the bottom row is open in columns 3 to 7, and every higher node is marked. *)
Example C11_silo_bottom_exact_partial_example :
  let B : bounds Q := mkBounds false false false None false false false false false false false
           false false false false false false false false true in
  let P : gridp Q := mkGridp 0%Q 9%Q 0%Q 1%Q 10 2 None None 1%Q 1 [1%Q] None None in
  only_silo_bottom B /\ (4 <= nx P)%nat /\
  match grid_init P B with
  | Ok G => filter (fun k => nth k (bh G) false) (seq 0 20) = [0; 1; 2; 8; 9; 10; 11; 12; 13; 14; 15; 16; 17; 18; 19]%nat
  | Err _ => False end.
Proof. exact x_C11_silo_bottom_exact_partial. Qed.

(** Volumes of the nodes of a four by three grid of unit cells, closed and cyclic. *)
Example C15_nodal_volume_example : match grid_init (ex_gridp : gridp Q) ex_box with
  | Ok G => gV G = [1#4; 1#2; 1#2; 1#4; 1#2; 1; 1; 1#2; 1#4; 1#2; 1#2; 1#4]%Q | Err _ => False end.
Proof. exact x_C15_nodal_volume. Qed.

Example C15_volumes_cyclic_example : proper (ex_gridp : gridp R) /\ cyclic_lr (ex_box <| cyclic_lr := true |> : bounds R) = true /\
  (exists G, grid_init ex_gridp (ex_box <| cyclic_lr := true |> : bounds R) = Ok G) /\
  match grid_init (ex_gridp : gridp Q) (ex_box <| cyclic_lr := true |>) with
  | Ok G => gV G = [1#2; 1#2; 1#2; 1#2; 1; 1; 1; 1; 1#2; 1#2; 1#2; 1#2]%Q | Err _ => False end.
Proof. exact x_C15_volumes_cyclic. Qed.

Example C15_volumes_positive_example : proper (ex_gridp : gridp R) /\ 0 < thickness (ex_gridp : gridp R) /\
  exists G, grid_init ex_gridp (ex_box : bounds R) = Ok G.
Proof. exact x_C15_volumes_positive. Qed.

(** Limiters at slopes 1 and 2. *)
Example C37_minmod_example : minmod 1 2 = 1 /\ minmod (-2) (-1) = -1 /\ minmod 1 (-2) = 0 /\ 0 < 1 * 2 /\ 1 * -2 <= 0.
Proof. exact x_C37_minmod. Qed.

Example C73_ratio_example : vanLeer 1 2 = 2 / 3 /\ vanLeer (3 * 1) (3 * 2) = 2 / 3 /\ vanAlbada1 1 2 = 3 / 5 /\ vanAlbada1 (3 * 1) (3 * 2) = 3 / 5 /\ 2 <> 0 /\ 3 <> 0.
Proof. exact x_C73_ratio. Qed.

Example C73_vanLeer_example : vanLeer 1 2 = 2 / 3 /\ 0 < 1 * 2 /\ vanLeer 1 (-2) = 0 /\ 1 * -2 <= 0.
Proof. exact x_C73_vanLeer. Qed.

(** vanAlbada1 at slopes of one sign, and of two signs with either the steeper. *)
Example C73_vanAlbada_example : vanAlbada1 2 1 = 6 / 5 /\ 0 < 2 * 1 /\ vanAlbada1 (-1) 2 = -1 / 5 /\ -1 * 2 < 0 /\ vanAlbada1 (-2) 1 = 2 / 5 /\ -2 * 1 < 0.
Proof. exact x_C73_vanAlbada. Qed.

Example C73_even_example : 2 * vanLeer 1 2 = 4 / 3 /\ 1 * vanLeer 2 1 = 4 / 3 /\ 2 * vanAlbada1 1 2 = 6 / 5 /\ 1 * vanAlbada1 2 1 = 6 / 5.
Proof. exact x_C73_even. Qed.

Example C73_minmod2_example : minmod2 1 3 5 2 = 2 /\ minmod2 (-1) (-3) (-5) 2 = -2 /\ minmod2 1 3 (-5) 2 = 0 /\ 0 <= 2.
Proof. exact x_C73_minmod2. Qed.

Example C97_ramp_example : 0 < 2 /\ ramp (-10) 0 2 = 0 /\ ramp (-10) 2 2 < -8 /\ -10 <= ramp (-10) 4 2 <= ramp (-10) 2 2.
Proof. exact x_C97_ramp. Qed.

Example C97_path_example : 0 < 10 /\ 0 < p_tf load_params /\
  ld_qv (dp_forces 10 8 (load_params <| p_t := 1/2 |>)) = 4 /\ ld_qh (dp_forces 10 8 (load_params <| p_t := 1/2 |>)) = 4 /\
  ld_qv (dp_forces 10 8 (load_params <| p_t := 3/2 |>)) = 4 /\ ld_qh (dp_forces 10 8 (load_params <| p_t := 3/2 |>)) = 12.
Proof. exact x_C97_path. Qed.

Example C97_rate_example : 0 < p_tf load_params /\ 0 <= 8 /\ 0 <= p_t (load_params <| p_t := 7 |>) <= p_tf load_params /\
  ld_qv (dp_forces 2 8 (load_params <| p_t := 7 |>)) = 24 / 5 /\ ld_qh (pouliquen_forces 8 (load_params <| p_t := 7 |>)) = 56 / 5.
Proof. exact x_C97_rate. Qed.

Example C97_tension_example : 0 < p_tf load_params /\ 0 < 8 /\ p_tf load_params / 5 < p_t (load_params <| p_t := 3 |>) /\
  ld_qv (dp_forces 10 8 (load_params <| p_t := 3 |>)) = -8 /\ ld_qv (dp_forces 10 8 (load_params <| p_t := 10 |>)) = - 8 * 8.
Proof. exact x_C97_tension. Qed.

Example C98_full_example : p_loads load_params = first_loads (-10) 8 0 /\ p_dt load_params <> 0 /\
  ld_g (ramp_forces 2 load_params) = 0 /\ ld_qv (ramp_forces 2 (clock (ramp_forces 2) 5 load_params)) = 8.
Proof. exact x_C98_full. Qed.

(** The nodal fractions of a massless node are 0/0 and become zero. *)
Example C36_massless_example : Forall (fun a => a = Fin 0) [Fin 0; Fin 0] /\ map (fun a => ndiv (T := X R) a (Fin 0)) [Fin 0; Fin 0] = [NaN; NaN].
Proof. exact x_C36_massless. Qed.

Example C45_needs_dx_example : pdx (pG (ex_params (T := R) ex_bounds <| pG := ex_gridp <| pdx := None |> |>)) = None /\ live (ex_phase (T := R) Elastic) <> [].
Proof. exact x_C45_needs_dx. Qed.

Example C29_initial_example : exists p : particle R, particle_init tilt (ex_solid Elastic) (ex_solid Elastic) 1 1 [] = Ok p /\ vx (pb p) = -5.
Proof. exact x_C29_initial. Qed.

Example C20_lithostatic_example : exists p : particle R, p_pressure tilt = PLithostatic /\
  particle_init tilt (ex_solid Elastic) (ex_solid Elastic) 1 1 [] = Ok p /\ xy (pstress p) = -1 /\ yy (pstress p) < -1.
Proof. exact x_C20_lithostatic. Qed.

(** Periodic sides put a point at -1 back to 2. *)
Example C32_cyclic_lr_example : exists (P : params R) L L', cyclic_lr_f P L = Ok L' /\
  map (fun p => vx (px p)) (concat (map live L)) = [-1; 1] /\ map (fun p => vx (px p)) (concat (map live L')) = [2; 1].
Proof. exact x_C32_cyclic_lr. Qed.

Example C19_hooke_example : exists P S G p' G', s_law S = Elastic /\ apply_law P S S 0 ex_p_loc G = Ok (p', G') /\
  s_G S = Some 2 /\ xy (pdstrain ex_p_loc) = 2 /\ xy (pdstress p') = 8.
Proof. exact x_C19_hooke. Qed.

Example C23_deviator_trace_free_example : exists P S G p p' G', s_law S = VonMises /\ apply_law P S S 0 p G = Ok (p', G') /\
  tr3 (pdev (T := R) p) = 0 /\ frob (pdev p) = sqrt 2 * 1 /\ deviator (pdstrain p) = times 3 (pdev p).
Proof. exact x_C23_deviator_trace_free. Qed.
