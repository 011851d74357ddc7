(** * Cases that meet the hypotheses: the mapping and the step *)
From Coq Require Import ZArith QArith Reals List Bool Arith Lra Lia Permutation.
From Verif Require Import State NumR NumQ Spec SpecLaws SpecStep LibList LibR ModelGrid ModelConstit ModelParticle ModelMPList
  ModelIntegr ModelMain ProofsGrid ProofsMap ProofsP2G ProofsWalls ProofsLaws ProofsInOut ProofsHist Concrete SpecOrder
  ThmMapping ThmWalls ThmLaws ThmInOut ThmHist ProofsStep ProofsPoints ThmStep ThmBalance ThmLoop ThmRun ThmFrac ThmOrder ThmInst ThmSift.
Import ListNotations.
Local Existing Instance Num_R.
Local Open Scope R_scope.

(** Shape functions of a cell two by one. *)
Example x_C01_corners : nth 2 (fst (shape 2 1 (mkV3 (fst (corner 2 1 2)) (snd (corner 2 1 2)) 7))) 0 = 1 /\
  nth 3 (fst (shape 2 1 (mkV3 (fst (corner 2 1 2)) (snd (corner 2 1 2)) 7))) 0 = 0 /\ fst (corner 2 1 2) = 2 /\ 2 <> 0 /\ 1 <> 0.
Proof. rewrite !p_C01_corners by (lra || lia). cbn. repeat split; lra. Qed.
Example x_C01_bounds : let x := mkV3 (1/2) (1/3) 0 in 0 <= vx x <= 2 /\ 0 <= vy x <= 1 /\ 0 < 2 /\ 0 < 1 /\ 0 < nth 0 (fst (shape 2 1 x)) 0 < 1.
Proof. cbv zeta. cbn. unR. lra. Qed.
Example x_C01_gradients : vx (nth 0 (snd (shape 2 1 (mkV3 (1/2) (1/3) 0))) v0) = -1/3 /\ 2 <> 0 /\ 1 <> 0.
Proof. cbn. unR. lra. Qed.
Example x_C02_grid_constructed : proper (ex_gridp (T := R)) /\ nodes (ex_gridp (T := R)) = 12%nat.
Proof. split; [exact ex_proper|reflexivity]. Qed.
Example x_C04_mapping_total : exists G, proper (pG (ex_params (T := R) ex_bounds)) /\ grid_ok (pG (ex_params ex_bounds)) G /\
  all_live (ex_L Elastic) (fun _ p => in_dom (pG (ex_params ex_bounds)) (px p)) /\ enough (ex_L (T := R) Elastic) /\
  all_live (ex_L Elastic) (fun _ p => p_seg (ex_params ex_bounds) = true -> length (pphi p) = ns (pG (ex_params (T := R) ex_bounds))).
Proof.
  destruct (grid_init_ok (ex_gridp (T := R)) ex_bounds ex_proper) as (G & _ & HG). exists G.
  split; [exact ex_proper|]. split; [exact HG|]. split; [apply ex_dom|]. split; [apply ex_enough|]. apply ex_phi.
Qed.
Example x_C05_momentum_conserved : exists G L1 G', gdx G <> 0 /\ gdy G <> 0 /\
  length (bv G) = nodes (pG (ex_params (T := R) ex_bounds)) /\ length (bh G) = nodes (pG (ex_params (T := R) ex_bounds)) /\ wall_free (bv G) (bh G) /\
  basis_all (wipe (ex_params ex_bounds) G) (ex_L Elastic) = Ok L1 /\ p2g_all (ex_params ex_bounds) L1 (wipe (ex_params ex_bounds) G) = Ok G' /\
  psum (ex_L Elastic) (fun ph p => pm p * comp AX (velocity ph p)) = 2.
Proof.
  destruct x_C05_mass_conserved as (G & L1 & G' & A). exists G, L1, G'. repeat (split; [tauto|]). cbn. unR. unfold n2. unR. lra.
Qed.
Example x_C07_torque_exact : exists G L1 L2 G', proper (pG (ex_params (T := R) ex_bounds)) /\ grid_ok (pG (ex_params ex_bounds)) G /\
  cyclic_lr (pB (ex_params (T := R) ex_bounds)) = false /\ all_live (ex_L Elastic) (fun _ p => in_dom (pG (ex_params ex_bounds)) (px p)) /\
  ref_nodes (ex_params ex_bounds) G (ex_L Elastic) = Ok L1 /\ basis_all G L1 = Ok L2 /\
  forces_all (ex_params ex_bounds) L2 (wipe (ex_params ex_bounds) G) = Ok G'.
Proof.
  destruct x_C07_no_torque as (G & L1 & L2 & G' & A & B & C & D). exists G, L1, L2, G'. split; [exact A|]. split; [exact B|]. split; [reflexivity|]. split; [|exact D].
  intros ph p H1 H2. apply (C ph p H1 H2).
Qed.
Example x_C08_exact : forall uf fill, exists s s', proper (pG (sP s)) /\ grid_ok (pG (sP s)) (sG s) /\
  all_live (sL s) (fun _ p => in_dom (pG (sP s)) (px p)) /\ shut (sP s) /\
  (forall ph, In ph (sL s) -> s_law (ph_sol ph) <> Rigid /\ s_law (ph_sol ph) <> ElasticTime) /\
  own_velocities (sL s) /\ 0 <= p_Mtol (sP s) /\ time_march uf fill s = Ok s'.
Proof. intros uf fill. destruct (x_C08_momentum_balance uf fill) as (s & s' & S0 & A). exists s, s'. tauto. Qed.
Example x_C09_columns_equal : (forall a b, Nat.add a b = Nat.add b a) /\ cyc Nat.add 3 [1; 2; 3; 4; 5; 6]%nat = Ok [4; 2; 4; 10; 5; 10]%nat /\ (1 < 2)%nat.
Proof. split; [intros; lia|]. split; [vm_compute; reflexivity|lia]. Qed.
Example x_C10_nodes : exists G, grid_init (ex_gridp (T := R)) ex_box = Ok G.
Proof. destruct (grid_init_ok (ex_gridp (T := R)) ex_box ex_proper) as (G & E & _). eauto. Qed.

(** Two points at rest in a box, without loads. *)
Lemma still_box fill : exists G, grid_init ex_gridp ex_box = Ok G /\ grid_ok ex_gridp G /\
  boxed (dr_state ex_box G v0) /\ runnable (dr_state ex_box G v0) /\ cfl_held no_loads fill (dr_state ex_box G v0).
Proof.
  destruct (grid_init_ok ex_gridp ex_box ex_proper) as (G & EG & OK).
  assert (SH : shut (ex_params (T := R) ex_box)) by (repeat split; reflexivity).
  exists G. split; [exact EG|]. split; [exact OK|]. split; [|split].
  - constructor; cbn [dr_state sP sG sL ex_params pG pB p_seg].
    + exact ex_proper.
    + exact OK.
    + reflexivity.
    + repeat split; reflexivity.
    + intros ph [<-|[]]. reflexivity.
    + intros ph [<-|[]]. cbn; discriminate.
    + exact (box_closed G EG).
    + exact (dr_dom v0).
  - constructor; cbn [dr_state sP sG sL ex_params p_check p_aniso p_dynamic p_tf p_savetime]; try reflexivity; try (cbn; lra).
    exists (ex_solid Elastic). split; [reflexivity|]. intros ph [<-|[]]. unfold equipped, has. cbn; repeat split; discriminate.
  - apply rest_cfl; auto.
    + exact ex_proper.
    + exact (dr_dom' v0).
    + left; reflexivity.
    + cbn; lra.
    + intros ph [<-|[]]. reflexivity.
    + exact (dr_drift v0).
    + intros P. repeat split; reflexivity.
    + cbn; lra.
Qed.
Example x_C14_confined : forall fill, exists s, boxed s /\ cfl_held no_loads fill s /\ (length (concat (map live (sL s))) = 2)%nat.
Proof. intros fill. destruct (x_C14_never_aborts fill) as (s & A). exists s. tauto. Qed.
Example x_C42_completes : forall fill, exists s, boxed s /\ runnable s /\ cfl_held no_loads fill s /\ 0 < p_dt (sP s) /\ (length (concat (map live (sL s))) = 2)%nat.
Proof. intros fill. destruct (still_box fill) as (G & _ & _ & A & B & C). exists (dr_state ex_box G v0). repeat (split; [assumption|]). split; [cbn; unR; lra|reflexivity]. Qed.
Example x_C42_terminates : forall fill, exists s : state R, p_dynamic (sP s) = false /\ 0 < p_dt (sP s) /\ p_tf (sP s) < p_t (sP s) + INR 11 * p_dt (sP s) /\
  (length (concat (map live (sL s))) = 2)%nat /\ main_loop no_loads fill 11 s <> None.
Proof.
  intros fill. destruct (still_box fill) as (G & _ & _ & _ & B & _). exists (dr_state ex_box G v0).
  assert (K : p_dynamic (sP (dr_state ex_box G v0)) = false /\ 0 < p_dt (sP (dr_state ex_box G v0)) /\
     p_tf (sP (dr_state ex_box G v0)) < p_t (sP (dr_state ex_box G v0)) + INR 11 * p_dt (sP (dr_state ex_box G v0))).
  { cbn. unR. lra. }
  split; [apply K|]. split; [apply K|]. split; [apply K|]. split; [reflexivity|]. apply p_C42_terminates; apply K.
Qed.
Example x_C42_deterministic : forall fill, exists (s : state R) r1 r2, main_loop no_loads fill 11 s = Some r1 /\ main_loop no_loads fill 20 s = Some r2 /\
  (length (concat (map live (sL s))) = 2)%nat.
Proof.
  intros fill. destruct (still_box fill) as (G & _ & _ & _ & B & _). set (s := dr_state ex_box G v0).
  assert (K : forall n, (11 <= n)%nat -> exists r, main_loop no_loads fill n s = Some r).
  { intros n Hn. destruct (main_loop no_loads fill n s) eqn:E; [eauto|]. exfalso. revert E. apply p_C42_terminates; [reflexivity|cbn; unR; lra|].
    apply le_INR in Hn. cbn in Hn. cbn. unR. lra. }
  destruct (K 11%nat ltac:(lia)) as [r1 E1]. destruct (K 20%nat ltac:(lia)) as [r2 E2]. exists s, r1, r2. repeat split; assumption.
Qed.
Example x_C42_no_progress : exists s : state R, p_dynamic (sP s) = false /\ p_dt (sP s) <= 0 /\ p_t (sP s) <= p_tf (sP s) /\ sL s <> [].
Proof.
  destruct (grid_init_ok ex_gridp ex_box ex_proper) as (G & EG & OK). exists (mkState (ex_params ex_box <| p_dt := 0 |>) G (ex_L Elastic)).
  cbn. unR. repeat split; try lra; try reflexivity. discriminate.
Qed.

(** Points made by the code and a pass of the loop from them. *)
Definition made_L : list (phase R) :=
  match mplist_init (ex_params ex_box) [(ex_solid VonMises, v0, [(1/2, 1/2, None); (3/2, 5/4, None)])] with Ok L => L | Err _ => [] end.
Lemma made : forall uf fill, exists G L s', mplist_init (ex_params ex_box) [(ex_solid VonMises, v0, [(1/2, 1/2, None); (3/2, 5/4, None)])] = Ok L /\
  (length (concat (map live L)) = 2)%nat /\ reach uf fill (mkState (ex_params ex_box) G L) s' /\ s' <> mkState (ex_params ex_box) G L.
Proof.
  intros uf fill. destruct (grid_init_ok ex_gridp ex_box ex_proper) as (G & EG & OK). exists G, made_L.
  assert (EL : mplist_init (ex_params ex_box) [(ex_solid VonMises, v0, [(1/2, 1/2, None); (3/2, 5/4, None)])] = Ok made_L) by reflexivity.
  assert (HR : ready (mkState (ex_params ex_box) G made_L)).
  { constructor; cbn [sP sG sL ex_params pG pB p_intruder_v p_v0 p_aniso p_seg pdx ex_gridp p_check].
    - exact ex_proper.
    - exact OK.
    - intros ph [<-|[]]. reflexivity.
    - intros ph p [<-|[]] [<-|[<-|[]]]; (split; [|discriminate]); unfold in_dom; cbn; unfold n2; unR; lra.
    - exists (ex_solid VonMises). split; [reflexivity|]. intros ph [<-|[]]. unfold equipped, has. cbn; repeat split; discriminate.
    - intros ph [<-|[]]. cbn; discriminate.
    - discriminate.
    - left; reflexivity.
    - reflexivity.
    - split; reflexivity.
    - intros _. discriminate. }
  destruct (p_C58_pass_total uf fill _ [] HR) as [[s' tr'] E]; [reflexivity|cbn; unR; lra|cbn; unR; lra|].
  exists s'. split; [exact EL|]. split; [reflexivity|]. split; [eapply reach_S; [apply reach_0|exact E]|].
  destruct (pass_inv uf fill _ _ _ _ E) as (s3 & dt & _ & _ & _ & EP). intros Q. rewrite Q in EP.
  apply (f_equal p_t) in EP. cbn in EP. unR. lra.
Qed.
Example x_C17_run : forall uf fill, exists P G sols L s', mplist_init P sols = Ok L /\ reach uf fill (mkState P G L) s' /\ s' <> mkState P G L /\
  (length (concat (map live L)) = 2)%nat.
Proof. intros uf fill. destruct (made uf fill) as (G & L & s' & A & B & C & D). do 5 eexists. eauto. Qed.
Example x_C33_initial : exists (P : params R) sols L, mplist_init P sols = Ok L /\ (length (concat (map live L)) = 2)%nat.
Proof. destruct (made no_loads (fun _ l => l)) as (G & L & s' & A & B & _). eauto. Qed.
Example x_C34_mass_and_volume : forall uf fill, exists s s' : state R, counted (sL s) /\ reach uf fill s s' /\ s' <> s /\
  outlet_left (pB (sP s)) = false /\ outlet_bottom (pB (sP s)) = false /\ inlet_right (pB (sP s)) = false /\ inlet_top (pB (sP s)) = false.
Proof. intros uf fill. destruct (x_C34_total_mass uf fill) as (s & s' & A). exists s, s'. tauto. Qed.
Example x_C17_strain_symmetric : exists G p', update_strain (ex_params (T := R) ex_bounds) G (locate ex_gridp ex_p1) = Ok p' /\
  symmetric (pstrain (locate ex_gridp (ex_p1 (T := R)))) /\ pstress (locate ex_gridp (ex_p1 (T := R))) <> m0.
Proof.
  destruct (grid_init_ok (ex_gridp (T := R)) ex_bounds ex_proper) as (G0 & _ & HG0).
  assert (HD : in_dom (pG (ex_params (T := R) ex_bounds)) (px ex_p1)) by (apply (ex_dom Elastic (ex_phase Elastic)); cbn; auto).
  destruct (strain_total (ex_params ex_bounds) (wipe (ex_params ex_bounds) G0) (locate ex_gridp ex_p1) ex_proper) as [p1 E1].
  { apply located_reaches; [exact ex_proper|]. apply locate_located. exact HD. } { reflexivity. } { reflexivity. }
  exists (wipe (ex_params ex_bounds) G0), p1. split; [exact E1|]. split; [repeat split|].
  intros Q. apply (f_equal xx) in Q. cbn in Q. unR. lra.
Qed.
(** A step in the box, and its maximal speed. *)
Example x_C58_pass_total : forall uf fill, exists (s : state R) r, ready s /\ p_dynamic (sP s) = false /\ p_tf (sP s) <> 0 /\ p_savetime (sP s) <> 0 /\
  (length (concat (map live (sL s))) = 2)%nat /\ pass uf fill s [] = Ok r.
Proof.
  intros uf fill. destruct (grid_init_ok ex_gridp ex_box ex_proper) as (G & EG & OK).
  pose proof (ex_ready ex_box G EG OK eq_refl eq_refl eq_refl Elastic (or_introl eq_refl)) as HR.
  destruct (p_C58_pass_total uf fill _ [] HR) as [r E]; [reflexivity|cbn; unR; lra|cbn; unR; lra|].
  eexists. exists r. split; [exact HR|]. cbn [start sP ex_params p_dynamic p_tf p_savetime]. split; [reflexivity|].
  split; [unR; lra|]. split; [cbn; unR; lra|]. split; [reflexivity|exact E].
Qed.
Example x_C59_step : forall fill, exists s s', proper (pG (sP s)) /\ grid_ok (pG (sP s)) (sG s) /\
  all_live (sL s) (fun _ p => in_dom (pG (sP s)) (px p)) /\ shut (sP s) /\ no_rub (pB (sP s)) /\
  0 <= p_Mtol (sP s) /\ (forall ph, In ph (sL s) -> s_law (ph_sol ph) = Elastic) /\ drifting v0 (sL s) /\ unloaded (sP s) (no_loads (sP s)) /\
  time_march no_loads fill s = Ok s' /\ (length (concat (map live (sL s))) = 2)%nat.
Proof.
  intros fill. destruct (grid_init_ok ex_gridp ex_box ex_proper) as (G & EG & OK).
  pose proof (dr_ready ex_box G v0 OK eq_refl eq_refl eq_refl) as HR. destruct (p_C58_step_total no_loads fill _ HR) as [s' E].
  exists (dr_state ex_box G v0), s'. split; [exact ex_proper|]. split; [exact OK|]. split; [exact (dr_dom' v0)|].
  split; [repeat split; reflexivity|]. split; [left; reflexivity|]. split; [cbn; unR; lra|].
  split; [intros ph [<-|[]]; reflexivity|]. split; [exact (dr_drift v0)|]. split; [repeat split; reflexivity|]. split; [exact E|reflexivity].
Qed.
Example x_C14_step : forall fill, exists s s', proper (pG (sP s)) /\ grid_ok (pG (sP s)) (sG s) /\
  p_seg (sP s) = false /\ cyclic_lr (pB (sP s)) = false /\ conveyor (pB (sP s)) = false /\
  outlet_left (pB (sP s)) = false /\ outlet_bottom (pB (sP s)) = false /\ inlet_right (pB (sP s)) = false /\ inlet_top (pB (sP s)) = false /\
  (forall ph, In ph (sL s) -> s_law (ph_sol ph) <> Rigid) /\ closed (pG (sP s)) (sG s) /\
  all_live (sL s) (fun _ p => inside (pG (sP s)) (px p)) /\ time_march no_loads fill s = Ok s' /\ cfl (p_dt (sP s)) (sP s) (sG s') /\
  (length (concat (map live (sL s))) = 2)%nat.
Proof.
  intros fill. destruct (still_box fill) as (G & EG & OK & [B1 B2 B3 B4 B5 B6 B7 B8] & HR & HC).
  pose proof (dr_ready ex_box G v0 OK eq_refl eq_refl eq_refl) as RD.
  destruct (p_C58_pass_total no_loads fill _ [] RD) as [[s2 tr'] E]; [reflexivity|cbn; unR; lra|cbn; unR; lra|].
  pose proof (HC _ [] s2 tr' (reach_0 _ _ _) E) as C. destruct (pass_inv no_loads fill _ _ _ _ E) as (s3 & dt & E3 & EL & EG3 & EP).
  exists (dr_state ex_box G v0), s3. rewrite <- EG3. repeat (split; [tauto|]). tauto.
Qed.

(** Swapping two points of a run. *)
Example x_C53_run : forall uf fill, exists (s t : state R) s' tr, shuffled s t /\ sL s <> sL t /\ (forall tf, tf = p_tf (sP s) -> 0 < tf) /\
  pass uf fill s [] = Ok (s', tr).
Proof.
  intros uf fill. destruct (grid_init_ok ex_gridp ex_box ex_proper) as (G & EG & OK).
  pose proof (ex_ready ex_box G EG OK eq_refl eq_refl eq_refl Elastic (or_introl eq_refl)) as HR.
  destruct (p_C58_pass_total uf fill _ [] HR) as [[s' tr] E]; [reflexivity|cbn; unR; lra|cbn; unR; lra|].
  exists (start (ex_params ex_box) G Elastic), (mkState (ex_params ex_box) G [ex_phase Elastic <| ph_pts := [ex_p2; ex_p1] |>]), s', tr.
  split; [|split; [|split; [|exact E]]].
  - split; [reflexivity|]. split; [reflexivity|]. cbn [sL start ex_L]. constructor; [|constructor].
    split; [reflexivity|]. split; [reflexivity|]. split; [reflexivity|]. split; [apply perm_swap|reflexivity].
  - cbn [sL start ex_L]. intros X. assert (Y : map (fun p => vx (px p)) (concat (map ph_pts (ex_L Elastic))) = map (fun p => vx (px p)) (concat (map ph_pts [ex_phase Elastic <| ph_pts := [ex_p2; ex_p1] |>]))) by (f_equal; f_equal; f_equal; exact X).
    cbn in Y. injection Y as Y _. unR. lra.
  - intros tf ->. cbn. unR. lra.
Qed.
Example x_C53_energy : exists La Lb r, Forall2 reordered La Lb /\ La <> Lb /\ measure_energy (ex_params (T := R) ex_box) La = Ok r.
Proof.
  exists (ex_L Elastic), [ex_phase Elastic <| ph_pts := [ex_p2; ex_p1] |>]. eexists. split; [|split; [|reflexivity]].
  - constructor; [|constructor]. split; [reflexivity|]. split; [reflexivity|]. split; [reflexivity|]. split; [apply perm_swap|reflexivity].
  - intros X. assert (Y : map (fun p => vx (px p)) (concat (map ph_pts (ex_L (T := R) Elastic))) = map (fun p => vx (px p)) (concat (map ph_pts [ex_phase (T := R) Elastic <| ph_pts := [ex_p2; ex_p1] |>]))) by (f_equal; f_equal; f_equal; exact X).
    cbn in Y. injection Y as Y _. unR. lra.
Qed.
Example x_C51_kinetic : let p := ex_p1 (T := R) in 0 < pm p /\ vel v0 p <> v0 /\ fst (fst (energy (ex_params ex_bounds) v0 p)) = 1.
Proof.
  cbv zeta. assert (M : 0 < pm (ex_p1 (T := R))) by (cbn; unfold n2; unR; lra). split; [exact M|].
  split; [intros E; apply (f_equal vx) in E; cbn in E; unR; lra|].
  destruct (p_C51_kinetic (ex_params ex_bounds) v0 ex_p1 M) as (_ & _ & ->). cbn. unfold n2. unR. lra.
Qed.
Example x_C51_gravitational : let P := ex_params (T := R) ex_bounds in let p := ex_p1 in vx (px p) <> 0 /\ vz (px p) = 0 /\ ld_theta (p_loads P) = 0 /\
  snd (fst (energy P v0 p)) = 1.
Proof.
  cbv zeta. assert (A : vx (px (ex_p1 (T := R))) <> 0) by (cbn; unR; lra).
  destruct (p_C51_gravitational (ex_params ex_bounds) v0 ex_p1 A eq_refl) as (_ & K). split; [exact A|]. split; [reflexivity|]. split; [reflexivity|].
  rewrite (K eq_refl). cbn. unfold nhalf, n2. unR. rewrite Rabs_right by lra. lra.
Qed.
Example x_C51_elastic : exists (P : params R) sv p, 0 <= pV p /\ 0 <= 3 /\ 0 <= 2 /\ hooke 3 2 (pstrain p) (pstress p) /\ 0 < snd (energy P sv p).
Proof. destruct x_C51_energy as (P & sv & p & A). exists P, sv, p. repeat (split; [tauto || lra|]). tauto. Qed.
Example x_C54_velocity_between : exists G L1 L2 G', proper (pG (ex_params (T := R) ex_bounds)) /\
  grid_ok (pG (ex_params (T := R) ex_bounds)) G /\ wall_free (bv G) (bh G) /\
  all_live (ex_L Elastic) (fun ph p => in_dom (pG (ex_params ex_bounds)) (px p) /\ 0 <= pm p /\ -1 <= comp AX (velocity ph p) <= 1) /\
  ref_nodes (ex_params ex_bounds) (wipe (ex_params ex_bounds) G) (ex_L Elastic) = Ok L1 /\
  basis_all (wipe (ex_params ex_bounds) G) L1 = Ok L2 /\
  p2g_all (ex_params ex_bounds) L2 (wipe (ex_params ex_bounds) G) = Ok G'.
Proof. destruct x_C54_kinetic_energy as (G & L1 & L2 & G' & A). exists G, L1, L2, G'. split; [exact ex_proper|exact A]. Qed.
Example x_C56_first_yield : exists s : ytime (T := R), yt_q s = Some 3 /\ yt_yielded s = false /\ (forall f, In f [1/2; 3/4] -> f <= 99 / 100) /\
  In 1 [1/2; 1] /\ 99 / 100 < 1.
Proof.
  exists (mkYtime false 10 1 1 1 (Some 3)). split; [reflexivity|]. split; [reflexivity|]. split; [intros f [<-|[<-|[]]]; lra|]. split; [cbn; auto|lra].
Qed.
Example x_C41_plain : exists P G L', proper (pG P) /\ p_norm P = false /\ length (gm G) = nodes (pG P) /\ length (g_dphi G) = nodes (pG P) /\
  all_live [mkPhase (ex_solid Elastic) 1 v0 [locate ex_gridp ex_p1]] (fun _ p => located (pG P) p) /\
  move_grainsize P G [mkPhase (ex_solid (T := R) Elastic) 1 v0 [locate ex_gridp ex_p1]] = Ok L' /\ p_Mtol P < nth 0 (gm G) 0 /\ nth 0 (nth 0 (g_dphi G) []) 0 = 1 / 4.
Proof.
  set (P := ex_params (T := R) ex_bounds). destruct (grid_init_ok ex_gridp ex_bounds ex_proper) as (G0 & _ & OK).
  set (G := G0 <| gm := repeat 1 12 |> <| g_dphi := repeat [1/4; -1/4] 12 |> <| g_dpk := repeat 0 12 |>).
  assert (HL : located ex_gridp (locate ex_gridp (ex_p1 (T := R)))) by (apply locate_located, (ex_dom Elastic (ex_phase Elastic)); cbn; auto).
  destruct (map_phi_total P G (locate ex_gridp ex_p1)) as (p' & E & _).
  { apply located_reaches; [exact ex_proper|exact HL]. } { reflexivity. } { reflexivity. } { reflexivity. }
  { cbn. repeat constructor. } { reflexivity. }
  assert (K : exists L', points_ (fun _ _ p => map_phi_to_mp P G p) [mkPhase (ex_solid (T := R) Elastic) 1 v0 [locate ex_gridp ex_p1]] = Ok L').
  { apply points__total; [intros ph [<-|[]]; reflexivity|]. intros k ph p [<-|[]] [<-|[]]. eauto. }
  destruct K as [L' K]. exists P, G, L'. split; [exact ex_proper|]. split; [reflexivity|]. split; [reflexivity|]. split; [reflexivity|].
  split; [intros ph p [<-|[]] [<-|[]]; exact HL|]. split; [|split; [cbn; unR; lra|reflexivity]].
  unfold move_grainsize. rewrite K. reflexivity.
Qed.
