(** * Cases that meet the hypotheses: walls, limiters, loads, initial points *)
From Coq Require Import ZArith QArith Reals List Bool Arith Lra Lia.
From Verif Require Import State NumR NumQ NumX Spec SpecLaws SpecStep SpecScheme LibList LibR ModelGrid ModelInputs ModelConstit ModelParticle ModelMPList
  ModelIntegr ModelNewInt ModelMain ProofsGrid ProofsWalls Concrete ThmMapping ThmWalls ThmLoads ThmSeg ThmLimits ThmFrac ThmLoop ThmInOut ThmLaws.
Import ListNotations.
Local Open Scope R_scope.
Local Existing Instance Num_R.

(** Two walls on a grid of ten columns and six rows: column 2 up to row 2, column 6 from row 3. *)
Example x_C11_two_walls :
  let B : bounds Q := mkBounds false true false None false false false false false false false
           false false false false false false false false false in
  let P : gridp Q := mkGridp 0%Q 9%Q 0%Q 5%Q 10 6 None None 1%Q 1 [1%Q] None None in
  only_two_walls B /\
  match grid_init P B with
  | Ok G => filter (fun k => nth k (bv G) false) (seq 0 60) = [2; 12; 22; 36; 46; 56]%nat
  | Err _ => False end.
Proof. vm_compute. repeat split; auto. Qed.
(** A silo wall on a grid of four columns and ten rows: column 1, open in rows 2 to 7. *)
Example x_C11_silo_left_column :
  let B : bounds Q := mkBounds false false false None false false false false false false false
           false false false false false false false true false in
  let P : gridp Q := mkGridp 0%Q 3%Q 0%Q 9%Q 4 10 None None 1%Q 1 [1%Q] None None in
  only_silo_left B /\ match grid_init P B with Ok G => nth 1 (bv G) false = true | Err _ => False end.
Proof. vm_compute. repeat split; auto. Qed.
Example x_C11_silo_left_opening :
  let B : bounds Q := mkBounds false false false None false false false false false false false
           false false false false false false false true false in
  let P : gridp Q := mkGridp 0%Q 3%Q 0%Q 9%Q 4 10 None None 1%Q 1 [1%Q] None None in
  only_silo_left B /\ (3 <= nx P)%nat /\ (6 <= ny P)%nat /\
  match grid_init P B with
  | Ok G => filter (fun k => nth k (bv G) false) (seq 0 40) = [1; 5; 33; 37]%nat
  | Err _ => False end.
Proof. vm_compute. repeat split; auto; lia. Qed.
(** A silo floor of ten columns: the bottom row is open in columns 3 to 7, and every higher node is marked. *)
Example x_C11_silo_bottom_exact_partial :
  let B : bounds Q := mkBounds false false false None false false false false false false false
           false false false false false false false false true in
  let P : gridp Q := mkGridp 0%Q 9%Q 0%Q 1%Q 10 2 None None 1%Q 1 [1%Q] None None in
  only_silo_bottom B /\ (4 <= nx P)%nat /\
  match grid_init P B with
  | Ok G => filter (fun k => nth k (bh G) false) (seq 0 20) = [0; 1; 2; 8; 9; 10; 11; 12; 13; 14; 15; 16; 17; 18; 19]%nat
  | Err _ => False end.
Proof. vm_compute. repeat split; auto; lia. Qed.

(** Volumes of the nodes of a four by three grid of unit cells, closed and cyclic. *)
Example x_C15_nodal_volume : match grid_init (ex_gridp : gridp Q) ex_box with
  | Ok G => gV G = [1#4; 1#2; 1#2; 1#4; 1#2; 1; 1; 1#2; 1#4; 1#2; 1#2; 1#4]%Q | Err _ => False end.
Proof. vm_compute. auto. Qed.
Example x_C15_volumes_cyclic : proper (ex_gridp : gridp R) /\ cyclic_lr (ex_box <| cyclic_lr := true |> : bounds R) = true /\
  (exists G, grid_init ex_gridp (ex_box <| cyclic_lr := true |> : bounds R) = Ok G) /\
  match grid_init (ex_gridp : gridp Q) (ex_box <| cyclic_lr := true |>) with
  | Ok G => gV G = [1#2; 1#2; 1#2; 1#2; 1; 1; 1; 1; 1#2; 1#2; 1#2; 1#2]%Q | Err _ => False end.
Proof.
  destruct x_C15_volumes_tile as (H & _). split; [exact H|]. split; [reflexivity|]. split; [|vm_compute; auto].
  destruct (grid_init_ok ex_gridp (ex_box <| cyclic_lr := true |>) H) as (G & E & _). eauto.
Qed.
Example x_C15_volumes_positive : proper (ex_gridp : gridp R) /\ 0 < thickness (ex_gridp : gridp R) /\
  exists G, grid_init ex_gridp (ex_box : bounds R) = Ok G.
Proof. destruct x_C15_volumes_tile as (H & _ & E). repeat split; auto; try apply H. cbn. lra. Qed.

(** Limiters at slopes 1 and 2. *)
Example x_C37_minmod : minmod 1 2 = 1 /\ minmod (-2) (-1) = -1 /\ minmod 1 (-2) = 0 /\ 0 < 1 * 2 /\ 1 * -2 <= 0.
Proof.
  destruct (p_C37_minmod 1 2) as (_ & H1 & _). destruct (p_C37_minmod (-2) (-1)) as (_ & H2 & _). destruct (p_C37_minmod 1 (-2)) as (H3 & _).
  specialize (H1 ltac:(lra)). specialize (H2 ltac:(lra)). specialize (H3 ltac:(lra)). destruct H1 as (A1 & B1), H2 as (A2 & B2).
  rewrite (Rabs_right 1), (Rabs_right 2), Rmin_left in A1 by lra. rewrite (Rabs_left (-2)), (Rabs_left (-1)), Rmin_right in A2 by lra.
  repeat split; try lra; unfold Rabs in *; repeat destruct (Rcase_abs _); lra.
Qed.
Example x_C73_ratio : vanLeer 1 2 = 2 / 3 /\ vanLeer (3 * 1) (3 * 2) = 2 / 3 /\ vanAlbada1 1 2 = 3 / 5 /\ vanAlbada1 (3 * 1) (3 * 2) = 3 / 5 /\ 2 <> 0 /\ 3 <> 0.
Proof.
  destruct (p_C73_ratio 1 2 3 ltac:(lra) ltac:(lra)) as (A & B). rewrite A, B. unfold vanLeer, vanAlbada1. rewrite div0_R. cbn [nadd ndiv nabs nmul n1 Num_R].
  rewrite Rabs_right by lra. repeat split; lra || field.
Qed.
Example x_C73_vanLeer : vanLeer 1 2 = 2 / 3 /\ 0 < 1 * 2 /\ vanLeer 1 (-2) = 0 /\ 1 * -2 <= 0.
Proof. repeat split; try lra. apply x_C73_ratio. apply (p_C73_vanLeer 1 (-2)); lra. Qed.
(** vanAlbada1 at slopes of one sign, and of two signs with either the steeper. *)
Example x_C73_vanAlbada : vanAlbada1 2 1 = 6 / 5 /\ 0 < 2 * 1 /\ vanAlbada1 (-1) 2 = -1 / 5 /\ -1 * 2 < 0 /\ vanAlbada1 (-2) 1 = 2 / 5 /\ -2 * 1 < 0.
Proof. unfold vanAlbada1. cbv zeta. rewrite (div0_R 2 1), (div0_R (-1) 2), (div0_R (-2) 1). cbn [nadd ndiv nmul n1 Num_R]. repeat split; lra || field. Qed.
Example x_C73_even : 2 * vanLeer 1 2 = 4 / 3 /\ 1 * vanLeer 2 1 = 4 / 3 /\ 2 * vanAlbada1 1 2 = 6 / 5 /\ 1 * vanAlbada1 2 1 = 6 / 5.
Proof.
  destruct (p_C73_even 1 2 ltac:(lra) ltac:(lra)) as (A & B). destruct x_C73_ratio as (C & _ & D & _). rewrite <- A, <- B, C, D. repeat split; lra.
Qed.
Example x_C73_minmod2 : minmod2 1 3 5 2 = 2 /\ minmod2 (-1) (-3) (-5) 2 = -2 /\ minmod2 1 3 (-5) 2 = 0 /\ 0 <= 2.
Proof.
  assert (L1 : forall a b, a < b -> Rltb a b = true) by (intros; unfold Rltb; destruct (Rlt_dec _ _); lra || reflexivity).
  assert (L2 : forall a b, b <= a -> Rltb a b = false) by (intros; unfold Rltb; destruct (Rlt_dec _ _); lra || reflexivity).
  unfold minmod2. cbn [nltb nmin nmax nmul n0 Num_R].
  rewrite (L1 0 1), (L1 0 3), (L1 0 5), (L2 1 0), (L2 0 (-1)), (L1 (-1) 0), (L1 (-3) 0), (L1 (-5) 0), (L2 0 (-5)) by lra. cbn.
  rewrite Rmin_left, Rmax_left by lra. lra.
Qed.

(** Loads: a run of ten units of time with a load of 8. *)
Definition load_params : params R := ex_params ex_bounds <| p_t := 0 |> <| p_tf := 10 |> <| p_loads := first_loads (-10) 8 0 |> <| p_max_g := -10 |>.
Example x_C97_ramp : 0 < 2 /\ ramp (-10) 0 2 = 0 /\ ramp (-10) 2 2 < -8 /\ -10 <= ramp (-10) 4 2 <= ramp (-10) 2 2.
Proof.
  assert (E : exp (-3) < 1 / 8).
  { replace (-3) with (- (3)) by lra. rewrite exp_Ropp. pose proof (exp_ineq1 1 ltac:(lra)) as K. replace 3 with (1 + (1 + 1)) by lra. rewrite !exp_plus.
    replace (1 / 8) with (/ 8) by lra. apply Rinv_lt_contravar; nra. }
  destruct (p_C97_ramp (-10) 2 ltac:(lra)) as (A & B & C & _). repeat split; try lra; try exact A.
  - unfold ramp. match goal with |- _ * (1 - exp ?u) < _ => replace u with (-3) by field end. lra.
  - destruct (B 4) as (B1 & B2). unfold Rabs in B1. repeat destruct (Rcase_abs _); lra.
  - specialize (C 2 4 ltac:(lra)). destruct (B 4), (B 2). unfold Rabs in C. repeat destruct (Rcase_abs _); lra.
Qed.
Example x_C97_path : 0 < 10 /\ 0 < p_tf load_params /\
  ld_qv (dp_forces 10 8 (load_params <| p_t := 1/2 |>)) = 4 /\ ld_qh (dp_forces 10 8 (load_params <| p_t := 1/2 |>)) = 4 /\
  ld_qv (dp_forces 10 8 (load_params <| p_t := 3/2 |>)) = 4 /\ ld_qh (dp_forces 10 8 (load_params <| p_t := 3/2 |>)) = 12.
Proof. unfold dp_forces. cbn. repeat (destruct (Rlt_dec _ _); try lra). cbn. repeat split; lra. Qed.
Example x_C97_rate : 0 < p_tf load_params /\ 0 <= 8 /\ 0 <= p_t (load_params <| p_t := 7 |>) <= p_tf load_params /\
  ld_qv (dp_forces 2 8 (load_params <| p_t := 7 |>)) = 24 / 5 /\ ld_qh (pouliquen_forces 8 (load_params <| p_t := 7 |>)) = 56 / 5.
Proof. unfold dp_forces, pouliquen_forces. cbn. repeat (destruct (Rlt_dec _ _); try lra). cbn. repeat split; lra. Qed.
Example x_C97_tension : 0 < p_tf load_params /\ 0 < 8 /\ p_tf load_params / 5 < p_t (load_params <| p_t := 3 |>) /\
  ld_qv (dp_forces 10 8 (load_params <| p_t := 3 |>)) = -8 /\ ld_qv (dp_forces 10 8 (load_params <| p_t := 10 |>)) = - 8 * 8.
Proof. unfold dp_forces. cbn. repeat (destruct (Rlt_dec _ _); try lra). cbn. repeat split; lra. Qed.
Example x_C98_full : p_loads load_params = first_loads (-10) 8 0 /\ p_dt load_params <> 0 /\
  ld_g (ramp_forces 2 load_params) = 0 /\ ld_qv (ramp_forces 2 (clock (ramp_forces 2) 5 load_params)) = 8.
Proof.
  split; [reflexivity|]. split; [cbn; unR; lra|]. split; [|apply (p_C98_full 2 5 load_params (-10) 8 0 eq_refl)].
  cbn. apply x_C97_ramp.
Qed.
(** The nodal fractions of a massless node are 0/0 and become zero. *)
Example x_C36_massless : Forall (fun a => a = Fin 0) [Fin 0; Fin 0] /\ map (fun a => ndiv (T := X R) a (Fin 0)) [Fin 0; Fin 0] = [NaN; NaN].
Proof.
  split; [repeat constructor|]. cbn. unfold xdiv, xinf_sign. cbn. unfold Reqb, Rltb. destruct (Req_EM_T 0 0); [|lra]. destruct (Rlt_dec 0 0); [lra|]. reflexivity.
Qed.
Example x_C45_needs_dx : pdx (pG (ex_params (T := R) ex_bounds <| pG := ex_gridp <| pdx := None |> |>)) = None /\ live (ex_phase (T := R) Elastic) <> [].
Proof. split; [reflexivity|discriminate]. Qed.
(** A point made half way up a slope at 30 degrees (in radians pi/6), under lithostatic pressure. *)
Definition tilt : params R := ex_params ex_bounds <| p_pressure := PLithostatic |> <| p_loads := mkLoads (-10) (PI / 6) 0 0 |>.
Example x_C29_initial : exists p : particle R, particle_init tilt (ex_solid Elastic) (ex_solid Elastic) 1 1 [] = Ok p /\ vx (pb p) = -5.
Proof. eexists. split; [reflexivity|]. cbn. unR. rewrite sin_PI6. lra. Qed.
Example x_C20_lithostatic : exists p : particle R, p_pressure tilt = PLithostatic /\
  particle_init tilt (ex_solid Elastic) (ex_solid Elastic) 1 1 [] = Ok p /\ xy (pstress p) = -1 /\ yy (pstress p) < -1.
Proof.
  eexists. split; [reflexivity|]. split; [reflexivity|]. cbn. unfold n2. unR. rewrite sin_PI6, cos_PI6.
  assert (1 < sqrt 3) by (rewrite <- sqrt_1; apply sqrt_lt_1; lra). lra.
Qed.
(** Periodic sides put a point at -1 back to 2. *)
Example x_C32_cyclic_lr : exists (P : params R) L L', cyclic_lr_f P L = Ok L' /\
  map (fun p => vx (px p)) (concat (map live L)) = [-1; 1] /\ map (fun p => vx (px p)) (concat (map live L')) = [2; 1].
Proof.
  exists (ex_params ex_bounds), [mkPhase (ex_solid Elastic) 2 v0 [ex_particle (-1) 1 v0 m0; ex_particle 1 1 v0 m0]].
  eexists. split; [reflexivity|]. split; [reflexivity|]. cbn [map concat live ph_pts ph_n firstn app px wrap ex_particle]. unfold wrap. cbn. unfold Rltb.
  repeat (destruct (Rlt_dec _ _); cbn in *; try lra). do 2 f_equal; lra.
Qed.
Example x_C19_hooke : exists P S G p' G', s_law S = Elastic /\ apply_law P S S 0 ex_p_loc G = Ok (p', G') /\
  s_G S = Some 2 /\ xy (pdstrain ex_p_loc) = 2 /\ xy (pdstress p') = 8.
Proof.
  destruct (grid_init_ok (ex_gridp (T := R)) ex_bounds ex_proper) as (G0 & _ & HG0).
  destruct (run_law Elastic 0 ltac:(cbn; auto) ex_p_loc G0 ex_p_located eq_refl) as (p' & G' & E).
  eexists. eexists. eexists. exists p', G'. split; [|split; [exact E|]]; [reflexivity|].
  split; [reflexivity|]. split; [reflexivity|].
  edestruct p_C19_hooke as (K & g & EK & Eg & _ & D & _); [|exact E|]; [reflexivity|].
  injection Eg as <-. apply (f_equal xy) in D. cbn in D. unfold tr3 in D. cbn in D. unfold n2 in D. unR. lra.
Qed.
Example x_C23_deviator_trace_free : exists P S G p p' G', s_law S = VonMises /\ apply_law P S S 0 p G = Ok (p', G') /\
  tr3 (pdev (T := R) p) = 0 /\ frob (pdev p) = sqrt 2 * 1 /\ deviator (pdstrain p) = times 3 (pdev p).
Proof. destruct x_C23_saturation as (P & S & G & p & p' & G' & A). exists P, S, G, p, p', G'. tauto. Qed.
