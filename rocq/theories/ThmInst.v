(** * Instances: concrete cases that meet the hypotheses of theorems stated elsewhere *)
From Coq Require Import ZArith List Bool Arith Lia Reals Lra.
From Verif Require Import State NumR LibR LibList Spec SpecStep ModelGrid ModelConstit ModelParticle ModelMPList
  ModelIntegr ModelMain ProofsGrid ProofsMap ProofsP2G ProofsWalls ProofsLaws ProofsSym ProofsInOut ProofsHist Concrete
  ThmMapping ThmWalls ThmLaws ThmInOut ThmLoop ThmHist SpecLaws ProofsStep ThmStep ProofsPoints ThmBalance ThmSeg ThmGrad ThmFrac.
Import ListNotations.
Local Open Scope R_scope.

Lemma ex_in2 : in_dom ex_gridp (px (T := R) ex_p2).
Proof. apply (ex_dom Elastic (ex_phase Elastic)); cbn; auto. Qed.
Lemma ex_in1 : in_dom ex_gridp (px (T := R) ex_p1).
Proof. apply (ex_dom Elastic (ex_phase Elastic)); cbn; auto. Qed.

(** A cell of 2 by 1 and the point (1/2, 1/3). *)
Example x_C01_tents : let x := mkV3 (1/2) (1/3) 0 in 0 <= vx x <= 2 /\ 0 <= vy x <= 1 /\
  nth 0 (fst (shape 2 1 x)) 0 = 1 / 2 /\ nth 2 (fst (shape 2 1 x)) 0 = 1 / 12.
Proof. cbv zeta. cbn. repeat split; unR; lra. Qed.
Example x_C03_recover_position : exists (G : grid R) p1 p2,
  let P := ex_params ex_bounds in
  proper (pG P) /\ grid_ok (pG P) G /\ in_dom (pG P) (px ex_p2) /\
  get_reference_node P G ex_p2 = Ok p1 /\ get_basis_functions G p1 = Ok p2 /\
  recover_position P G p2 = Ok (mkV3 (3/2) (5/4) 0).
Proof.
  destruct (grid_init_ok (ex_gridp (T := R)) ex_bounds ex_proper) as (G & _ & OK).
  pose proof (ref_node_spec _ ex_proper _ OK (ex_params ex_bounds) ex_p2 eq_refl ex_in2) as E1.
  eexists G, _, _. cbv zeta. split; [exact ex_proper|]. split; [exact OK|]. split; [exact ex_in2|].
  split; [exact E1|]. split; [apply (basis_spec _ ex_proper _ OK); [apply ex_in2|reflexivity]|].
  erewrite (p_C03_recover_position (ex_params ex_bounds) G ex_p2); [|exact ex_proper|exact OK|exact ex_in2|exact E1|].
  - reflexivity.
  - apply (basis_spec _ ex_proper _ OK); [apply ex_in2|reflexivity].
Qed.
(** The two particles mapped to a grid with walls on all sides and to one without. *)
Example x_C05_momentum_with_walls : exists (G Gfree : grid R) L G' Gf',
  let P := ex_params ex_bounds in
  length (bv G) = nodes (pG P) /\ length (bh G) = nodes (pG P) /\
  length (bv Gfree) = nodes (pG P) /\ length (bh Gfree) = nodes (pG P) /\ wall_free (bv Gfree) (bh Gfree) /\
  p2g_all P L (wipe P G) = Ok G' /\ p2g_all P L (wipe P Gfree) = Ok Gf' /\
  nth 0 (bv G) false = true /\ (length (concat (map live L)) = 2)%nat.
Proof.
  destruct (grid_init_ok (ex_gridp (T := R)) ex_bounds ex_proper) as (Gf & EF & OKF).
  destruct (grid_init_ok (ex_gridp (T := R)) ex_box ex_proper) as (G & EG & OK).
  pose (L := map (fun ph => ph <| ph_pts := map (locate (ex_gridp (T := R))) (ph_pts ph) |>) (ex_L Elastic)).
  assert (HL : all_live L (fun _ p => reaches (ex_params (T := R) ex_bounds) p /\ (false = true -> length (pphi p) = ns (ex_gridp (T := R))))).
  { intros ph p [<-|[]] [<-|[<-|[]]]; (split; [|discriminate]);
      apply located_reaches; try exact ex_proper; apply locate_located; [exact ex_in1|exact ex_in2]. }
  assert (He : enough L) by (intros ph [<-|[]]; cbn; lia).
  destruct (p2g_all_total (ex_params ex_bounds) L (wipe (ex_params ex_bounds) G) (wipe_lens _ _) (wipe_seg _ _) He HL) as [G' H1].
  destruct (p2g_all_total (ex_params ex_bounds) L (wipe (ex_params ex_bounds) Gf) (wipe_lens _ _) (wipe_seg _ _) He HL) as [Gf' H2].
  exists G, Gf, L, G', Gf'. cbv zeta. split; [apply OK|]. split; [apply OK|]. split; [apply OKF|]. split; [apply OKF|].
  split; [exact (no_walls Gf EF OKF)|]. split; [exact H1|]. split; [exact H2|]. split; [|reflexivity].
  apply grid_init_parts in EG. destruct EG as (_ & _ & Ev & _). rewrite Ev. reflexivity.
Qed.
(** A line of three nodes with two equal size classes in motion. *)
Example x_C39_uniform : exists ss f phi, (forall i, (i < 3)%nat -> phi i = f) /\ length f = length ss /\
  Forall (fun s => 0 < s) ss /\ Forall (Rle 0) f /\ Rsum f = 1 /\ (length ss = 2)%nat.
Proof.
  exists [1; 2], [1/4; 3/4], (fun _ => [1/4; 3/4]). repeat split; repeat constructor; cbn; lra.
Qed.
(** Simple shear [v = (2 y + 1, 0, 0)] of a stressed particle. *)
Lemma ex_shear : exists (G : grid R) p1,
  let P := ex_params ex_bounds in let p := locate ex_gridp ex_p1 in
  located (pG P) p /\ length (gm G) = nodes (pG P) /\ length (gq G) = nodes (pG P) /\
  (forall k, (k < nodes (pG P))%nat -> cell_corner (pG P) (px p) k ->
     p_Mtol P < nth k (gm G) 0 /\
     forall a, comp a (nth k (gq G) v0) = nth k (gm G) 0 *
       comp a (affine (mkV3 1 0 0) (mkM3 0 2 0 0 0 0 0 0 0) (node_x (pG P) k) (node_y (pG P) k))) /\
  0 <= p_Mtol P /\ update_strain P G p = Ok p1 /\ slens (nodes (pG P)) G.
Proof.
  destruct (grid_init_ok (ex_gridp (T := R)) ex_bounds ex_proper) as (G0 & _ & HG0).
  pose (G := moving ex_gridp (wipe (ex_params ex_bounds) G0) shear_field).
  assert (HM : 0 <= p_Mtol (ex_params (T := R) ex_bounds) < 1) by (cbn; unfold lit; cbn; lra).
  assert (HL : located ex_gridp (locate (ex_gridp (T := R)) ex_p1)) by (apply locate_located; exact ex_in1).
  destruct (strain_total (ex_params ex_bounds) G (locate ex_gridp ex_p1) ex_proper) as [p' E].
  { apply located_reaches; [exact ex_proper|exact HL]. }
  { apply repeat_length. }
  { cbn. reflexivity. }
  exists G, p'. cbv zeta. split; [exact HL|]. split; [apply repeat_length|]. split; [reflexivity|]. split; [|split; [apply HM|split; [exact E|]]].
  - intros k Hk _. destruct (moving_nth ex_gridp (wipe (ex_params ex_bounds) G0) shear_field k Hk) as [E1 E2]. fold G in E1, E2.
    rewrite E1, E2. split; [apply HM|]. intros a. unfold shear_field. cbn [pG ex_params]. lra.
  - apply (wipe_slens (ex_params ex_bounds) G0).
Qed.
Example x_C18_correction_exact_partial : exists (G : grid R) p1 p2 p3 G2,
  let P := ex_params ex_bounds in let p := locate ex_gridp ex_p1 in let S := ex_solid Elastic in
  located (pG P) p /\ length (gm G) = nodes (pG P) /\ length (gq G) = nodes (pG P) /\
  (forall k, (k < nodes (pG P))%nat -> cell_corner (pG P) (px p) k ->
     p_Mtol P < nth k (gm G) 0 /\
     forall a, comp a (nth k (gq G) v0) = nth k (gm G) 0 *
       comp a (affine (mkV3 1 0 0) (mkM3 0 2 0 0 0 0 0 0 0) (node_x (pG P) k) (node_y (pG P) k))) /\
  0 <= p_Mtol P /\ update_strain P G p = Ok p1 /\
  apply_law P S S 0 p1 G = Ok (p2, G2) /\ update_stress P S S 0 p1 G = Ok (p3, G2) /\ xy (pstress p) = 2.
Proof.
  destruct ex_shear as (G & p1 & HL & H1 & H2 & H3 & H4 & H5 & H6).
  destruct (law_total (ex_params ex_bounds) (ex_solid Elastic) (ex_solid Elastic) 0 p1 G) as (p2 & G2 & E2); [|exact H6| |].
  { rewrite (strain_frame _ _ _ _ H5).
    pose proof (located_reaches (ex_params ex_bounds) _ ex_proper HL) as HR. intros r Hr. apply (HR r Hr). }
  { unfold equipped, has. cbn. repeat split; discriminate. }
  exists G, p1, p2. eexists. exists G2. cbv zeta. do 6 (split; [assumption|]). split; [exact E2|]. split; [|reflexivity].
  unfold update_stress. rewrite E2. reflexivity.
Qed.
(** A grid turning about the origin. *)
Definition spin_field (k : nat) : V3 R := mkV3 (1 - 2 * node_y ex_gridp k) (0 + 2 * node_x ex_gridp k) 0.
Example x_C16_rigid_motion : exists (G : grid R) p1 p2 p',
  let P := ex_params ex_bounds in
  proper (pG P) /\ grid_ok (pG P) G /\ in_dom (pG P) (px ex_p1) /\ 0 <= p_Mtol P /\
  length (gm G) = nodes (pG P) /\ length (gq G) = nodes (pG P) /\
  (forall k, (k < nodes (pG P))%nat -> cell_corner (pG P) (px ex_p1) k ->
     p_Mtol P < nth k (gm G) 0 /\
     forall a, comp a (nth k (gq G) v0) =
       nth k (gm G) 0 * comp a (mkV3 (vx (mkV3 1 0 0) - 2 * node_y (pG P) k) (vy (mkV3 1 0 0) + 2 * node_x (pG P) k) (vz (mkV3 1 0 0)))) /\
  get_reference_node P G ex_p1 = Ok p1 /\ get_basis_functions G p1 = Ok p2 /\ update_strain P G p2 = Ok p'.
Proof.
  destruct (grid_init_ok (ex_gridp (T := R)) ex_bounds ex_proper) as (G0 & _ & HG0).
  pose (G := moving ex_gridp G0 spin_field).
  assert (HG : grid_ok (pG (ex_params (T := R) ex_bounds)) G) by (apply moving_ok; exact HG0).
  assert (HM : 0 <= p_Mtol (ex_params (T := R) ex_bounds) < 1) by (cbn; unfold lit; cbn; lra).
  destruct (strain_total (ex_params ex_bounds) G (locate ex_gridp ex_p1) ex_proper) as [p' E].
  { apply located_reaches; [exact ex_proper|]. apply locate_located. exact ex_in1. }
  { apply repeat_length. }
  { cbn. reflexivity. }
  eexists G, _, _, p'. cbv zeta. split; [exact ex_proper|]. split; [exact HG|]. split; [exact ex_in1|]. split; [apply HM|].
  split; [apply repeat_length|]. split; [reflexivity|]. split; [|split; [|split; [|exact E]]].
  - intros k Hk _. destruct (moving_nth ex_gridp G0 spin_field k Hk) as [E1 E2]. fold G in E1, E2.
    rewrite E1, E2. split; [apply HM|]. intros a. unfold spin_field. cbn [vx vy vz pG ex_params]. lra.
  - apply (ref_node_spec _ ex_proper _ HG (ex_params ex_bounds) _ eq_refl ex_in1).
  - apply (basis_spec _ ex_proper _ HG); [exact ex_in1|reflexivity].
Qed.

Lemma restrained p d P : located P p -> located P (p <| pdstrain := d |>).
Proof. exact (fun H => H). Qed.
Lemma run_d l d : In l [Elastic; ElasticTime; VonMises; DpRate; Viscous; Bingham; KenKamrin; LinearMu; KenSimple] ->
  forall G0, exists p' G', apply_law (ex_params ex_bounds) (ex_solid_sc l) (ex_solid_sc l) 0
     (ex_p_loc <| pdstrain := d |>) (wipe (ex_params ex_bounds) G0) = Ok (p', G').
Proof. intros Hl G0. apply (run_law l 0 Hl); [|reflexivity]. apply restrained. exact ex_p_located. Qed.
(** Three elastic particles, one strained by a combination of the others. *)
Example x_C19_linear : exists P S (G : grid R) p' q' r' G1' G2' G3', let p := ex_p_loc <| pdstrain := mkM3 1 2 0 2 0 0 0 0 0 |> in
  let q := ex_p_loc <| pdstrain := iso 1 |> in let r := ex_p_loc <| pdstrain := plus3 (times 2 (pdstrain p)) (times 3 (pdstrain q)) |> in
  s_law S = Elastic /\ apply_law P S S 0 p G = Ok (p', G1') /\ apply_law P S S 0 q G = Ok (q', G2') /\
  apply_law P S S 0 r G = Ok (r', G3').
Proof.
  destruct (grid_init_ok (ex_gridp (T := R)) ex_bounds ex_proper) as (G0 & _ & HG0).
  pose (dp := mkM3 1 2 0 2 0 0 0 0 0).
  destruct (run_d Elastic dp ltac:(cbn; tauto) G0) as (p' & G1 & E1).
  destruct (run_d Elastic (iso 1) ltac:(cbn; tauto) G0) as (q' & G2 & E2).
  destruct (run_d Elastic (plus3 (times 2 dp) (times 3 (iso 1))) ltac:(cbn; tauto) G0) as (r' & G3 & E3).
  exists (ex_params ex_bounds), (ex_solid_sc Elastic), (wipe (ex_params ex_bounds) G0), p', q', r', G1, G2, G3. cbv zeta.
  split; [reflexivity|]. split; [exact E1|]. split; [exact E2|exact E3].
Qed.
Example x_C20_compression : exists (P : params R) S p, p_pressure P = PCompression /\ p_init_press P = Some 5 /\
  particle_init P S S 1 1 [] = Ok p /\ yy (pstress p) = -5.
Proof.
  eexists (ex_params ex_bounds <| p_pressure := PCompression |> <| p_init_press := Some 5 |>), (ex_solid Elastic), _.
  split; [reflexivity|]. split; [reflexivity|]. split; [reflexivity|]. cbn. lra.
Qed.
(** A Bingham fluid sheared below its yield rate of 1. *)
Example x_C22_below_and_continuous : exists P S (G : grid R) p p' G', s_law S = Bingham /\
  apply_law P S S 0 p G = Ok (p', G') /\ 0 < p_dt P /\ s_gamma_c S = Some 1 /\
  0 < frob (deviator (pdstrain p)) / p_dt P <= 1.
Proof.
  destruct (grid_init_ok (ex_gridp (T := R)) ex_bounds ex_proper) as (G0 & _ & HG0).
  destruct (run_d Bingham (mkM3 0 (1/20) 0 (1/20) 0 0 0 0 0) ltac:(cbn; tauto) G0) as (p' & G1 & E1).
  eexists _, _, _, _, _, _. split; [|split; [exact E1|]]; [reflexivity|]. split; [cbn; lra|]. split; [reflexivity|].
  assert (F : frob (deviator (pdstrain (ex_p_loc <| pdstrain := mkM3 0 (1/20) 0 (1/20) 0 0 0 0 0 |>))) = sqrt (1/200)).
  { unfold frob. f_equal. unfold inner. cbn. unfold tr3. cbn. field. }
  rewrite F. change (p_dt (ex_params (T := R) ex_bounds)) with (1 / 10).
  assert (A : 0 < sqrt (1/200)) by (apply sqrt_lt_R0; lra).
  assert (B : sqrt (1/200) <= sqrt (1/10 * (1/10))) by (apply sqrt_le_1_alt; lra). rewrite sqrt_square in B by lra.
  split; [apply Rdiv_lt_0_compat; lra|]. apply (Rmult_le_reg_r (1/10)); [lra|]. field_simplify; lra.
Qed.
Example x_C24_scalar_aborts : exists (P : params R) (S : solid R) (MP : particle R) m, s_mu_0 S = Some (Sc m) /\ (0 < ns (pG P))%nat /\
  (ns (pG P) <= length (pphi MP))%nat /\ (ns (pG P) <= length (gs (pG P)))%nat.
Proof.
  exists (ex_params ex_bounds), (ex_solid_sc Pouliquen), ex_p1. eexists. split; [reflexivity|]. cbn. lia.
Qed.
Example x_C30_outlet_left_partial : exists P (L : list (phase R)) dx, counted L /\ pdx (pG P) = Some dx /\
  exists p q, In p (concat (map live L)) /\ In q (concat (map live L)) /\
    x_m (pG P) < vx (px p) < x_m (pG P) + dx /\ x_m (pG P) + dx < vx (px q).
Proof.
  exists (ex_params ex_bounds), (ex_L Elastic), 1. split; [intros ph [<-|[]]; reflexivity|]. split; [reflexivity|].
  exists ex_p1, ex_p2. cbn. repeat split; auto; lra.
Qed.
Example x_C31_schedule : exists (S : solid R) rate dt, s_inlet_rate S = Some rate /\ 0 < dt <= rate /\ INR 3 * dt < rate.
Proof. exists (ex_solid Elastic), 1, (1/5). split; [reflexivity|]. cbn. lra. Qed.
Example x_C31_inlet_top : exists P L L' ph ph', inlet_top_f (T := R) P L = Ok L' /\ In ph L /\ In ph' L' /\
  inlet_due P (ph_sol ph) = Ok true /\ (length (ph_pts ph) < length (ph_pts ph'))%nat.
Proof.
  pose (P := ex_params (T := R) ex_bounds <| p_t := 1 |>).
  assert (D : inlet_due P (ex_solid Elastic) = Ok true).
  { unfold inlet_due. cbn [ex_solid s_inlet_rate attr bind].
    change (nmod (p_t P) n1) with (Rmod 1 1). rewrite (Rmod_interval 1 1 1) by (cbn; lra). cbn [bind].
    f_equal. apply andb_true_iff. split; [apply Rltb_true|apply negb_true_iff, Reqb_false]; cbn; unfold lit; cbn; lra. }
  assert (HP : p_pressure P = PNone /\ p_flow P = FNone) by (split; reflexivity). clearbody P.
  exists P, [mkPhase (ex_solid Elastic) 0 v0 []].
  unfold inlet_top_f. cbn [sol0 bind ph_sol]. unfold phases_. cbn [forM ph_sol]. rewrite D. cbn [bind].
  cbn [ex_solid s_gap foldM attr bind ph_sol]. unfold add_point, particle_init, init_state, init_flow.
  destruct HP as [-> ->]. cbn [bind]. eexists. eexists. eexists.
  split; [reflexivity|]. split; [left; reflexivity|]. split; [left; reflexivity|]. split; [exact D|]. cbn. lia.
Qed.
(** A rough box whose floor carries friction. *)
Example x_C13_friction_exact : exists P (G G' : grid R), sized (pG P) G /\ rubs (pB P) (1/2) /\ update_momentum P G = Ok G' /\
  conveyor (pB P) = false /\ (5 < nx (pG P) * ny (pG P))%nat.
Proof.
  destruct (grid_init_ok (ex_gridp (T := R)) ex_box ex_proper) as (G & EG & OK).
  pose (P := ex_params (T := R) (ex_box <| roughness := true |> <| wall_mu := Some (1/2) |>)).
  destruct (um_total P (wipe P G)) as [G' E]; [intros X; discriminate X|].
  exists P, (wipe P G), G'. split; [|split; [repeat split; cbn; lra|split; [exact E|split; [reflexivity|cbn; lia]]]].
  exact (proj1 (x_C12_sized G EG)).
Qed.
Example x_C12_wall_momentum : exists P (G G' : grid R), sized (pG P) G /\ no_rub (pB P) /\ update_momentum P G = Ok G' /\
  removed AX (roughness (pB P)) (nth 0 (bv G) false) (nth 0 (bh G) false) = true /\ conveyor (pB P) = false.
Proof.
  destruct (grid_init_ok (ex_gridp (T := R)) ex_box ex_proper) as (G & EG & OK).
  pose (P := ex_params (T := R) ex_box).
  destruct (um_total P (wipe P G)) as [G' E]; [intros X; discriminate X|].
  exists P, (wipe P G), G'. split; [exact (proj1 (x_C12_sized G EG))|]. split; [left; reflexivity|]. split; [exact E|].
  split; [|reflexivity]. apply grid_init_parts in EG. destruct EG as (_ & _ & Ev & _).
  change (bv (wipe P G)) with (bv G). rewrite Ev. reflexivity.
Qed.
Example x_C49_load_resultant : exists P (G G' : grid R), sized (pG P) G /\ proper (pG P) /\ (forall k, nth k (gext G) v0 = v0) /\
  BCs P 2 G = Ok G' /\ gdx G <> 0 /\ gdy G <> 0 /\ vertical_force (pB P) = true /\ horizontal_force (pB P) = true.
Proof.
  destruct (grid_init_ok (ex_gridp (T := R)) ex_box ex_proper) as (G & EG & OK).
  pose (P := ex_params (T := R) (ex_box <| vertical_force := true |> <| horizontal_force := true |>)).
  destruct (BCs_total P 2 (wipe P G)) as [G' E]; [left; reflexivity|].
  exists P, (wipe P G), G'. split; [exact (proj1 (x_C12_sized G EG))|]. split; [exact ex_proper|].
  split; [|split; [exact E|]].
  - intros k. change (gext (wipe P G)) with (repeat (v0 (T := R)) (nodes (pG P))).
    destruct (Nat.lt_ge_cases k (nodes (pG P))) as [H|H].
    + apply nth_repeat_any. exact H.
    + apply nth_overflow. rewrite repeat_length. exact H.
  - change (gdx (wipe P G)) with (gdx G). change (gdy (wipe P G)) with (gdy G).
    rewrite (go_dx _ _ OK), (go_dy _ _ OK). pose proof (cell_w_pos _ ex_proper). pose proof (cell_h_pos _ ex_proper).
    repeat split; lra.
Qed.
Example x_C41_valid : fractions 3 [1/2; 1/3; 1/6] /\ normalise [1/2; 1/3; 1/6] = [1/2; 1/3; 1/6].
Proof.
  assert (H : fractions 3 [1/2; 1/3; 1/6]).
  { unfold fractions. repeat split; repeat constructor; cbn; lra. }
  split; [exact H|exact (p_C41_valid 3 _ H)].
Qed.
Example x_C48_gradient : exists fill (P : params R) G Z, proper (pG P) /\ grid_ok (pG P) G /\ fills fill /\ no_empty P G /\
  affine_field (pG P) Z 1 2 3.
Proof.
  destruct (grid_init_ok ex_gridp ex_bounds ex_proper) as (G & EG & OK).
  exists (fun _ Z => Z), (ex_params ex_bounds), (G <| gm := repeat 2 12 |>), (map (fun k => 1 + 2 * node_x ex_gridp k + 3 * node_y ex_gridp k) (seq 0 12)).
  split; [exact ex_proper|]. split; [destruct OK; constructor; assumption|]. split; [intros m Z _ _; reflexivity|].
  split; [split; [reflexivity|]; cbn [gm set]; apply Forall_forall; intros m Hm; apply repeat_spec in Hm; subst m; cbn; lra|].
  split; [reflexivity|]. intros k Hk. rewrite nth_map_seq' by exact Hk. reflexivity.
Qed.
Example x_C56_needs_q : exists s : ytime (T := R), yt_q s = None /\ yt_yielded s = false /\ exists f, In f [1/2; 1] /\ 99 / 100 < f.
Proof. exists (mkYtime false 10 1 1 1 None). split; [reflexivity|]. split; [reflexivity|]. exists 1. cbn. split; [auto|lra]. Qed.
(** A uniform concentration on the example grid. *)
Example x_C40_uniform : exists (P : params R) G A, p_l P = Some 1 /\ pdx (pG P) = Some 1 /\ pdy (pG P) = Some 1 /\
  Diffusion P 1 G = Ok A /\ (0 < ns (pG P))%nat /\ (forall m, (m < nodes (pG P))%nat -> conc 1 1 G 0 m = 1/2) /\
  nth 5 (btot G) true = false.
Proof.
  destruct (grid_init_ok ex_gridp ex_bounds ex_proper) as (G & EG & OK).
  set (P := ex_params (T := R) ex_bounds <| p_l := Some 1 |> <| pG := ex_gridp <| pdx := Some 1 |> <| pdy := Some 1 |> |>).
  set (G' := G <| btot := repeat false 12 |> <| gm := repeat 1 12 |> <| g_sbar := repeat 1 12 |> <| f_gammadot := repeat 1 12 |>
               <| f_pressure := repeat 1 12 |> <| g_phi := repeat [1/2] 12 |>).
  exists P, G'. eexists. split; [reflexivity|]. split; [reflexivity|]. split; [reflexivity|].
  split; [reflexivity|]. split; [cbn; lia|]. split; [|reflexivity].
  intros m Hm. change (m < 12)%nat in Hm. assert (E1 : nth m (repeat 1 12) 0 = 1) by (apply (repeat_spec 12), nth_In; exact Hm).
  assert (E2 : nth m (repeat [1/2] 12) [] = [1/2]) by (apply (repeat_spec 12), nth_In; exact Hm).
  unfold conc, diffusivity, at0. cbn [G' g_sbar gm f_gammadot f_pressure g_phi set n0 Num_R]. rewrite E1, E2. cbn [npow nmul ndiv nsqrt nabs Num_R nth].
  unfold Rpow. destruct (Rlt_dec 0 1) as [_|N]; [|lra]. unfold Rpower. rewrite ln_1, Rmult_0_r, exp_0. unfold Rdiv. rewrite !Rinv_1, !Rmult_1_r, Rabs_R1, sqrt_1. field.
Qed.
