(** * Strains, constitutive laws and energies: C16-C23, C28, C51. *)
From Coq Require Import ZArith Reals List Bool Arith Lra Lia.
From Verif Require Import State NumR Spec SpecLaws LibList LibR ModelGrid ModelConstit ModelParticle ModelMPList
  ProofsGrid ProofsMap ProofsP2G ProofsLaws ProofsSym Concrete ThmMapping.
Import ListNotations.
Local Open Scope R_scope.

Lemma m3_ext {T} (a b : M3 T) : xx a = xx b -> xy a = xy b -> xz a = xz b -> yx a = yx b -> yy a = yy b ->
  yz a = yz b -> zx a = zx b -> zy a = zy b -> zz a = zz b -> a = b.
Proof. destruct a, b; cbn; intros; subst; reflexivity. Qed.

(** ** C16 *)
Lemma corner_is_corner P x r : proper P -> in_dom P x -> (r < 4)%nat ->
  cell_corner P x (corner_node P (cell_node P x) r).
Proof.
  intros HP HD Hr. unfold cell_corner. destruct (corner_xy P HP x r HD Hr) as [-> ->].
  destruct (loc_bounds P HP x HD) as [B1 B2]. unfold loc in B1, B2. cbn in B1, B2.
  pose proof (cell_w_pos _ HP). pose proof (cell_h_pos _ HP).
  do 4 (destruct r as [|r]; [cbn; lra|]). lia.
Qed.

(** The field that [update_strain] sees. *)
Lemma strain_located P G p c A p' : proper (pG P) -> located (pG P) p ->
  length (gm G) = nodes (pG P) -> length (gq G) = nodes (pG P) ->
  (forall k, (k < nodes (pG P))%nat -> cell_corner (pG P) (px p) k ->
     p_Mtol P < nth k (gm G) 0 /\
     forall a, comp a (nth k (gq G) v0) = nth k (gm G) 0 * comp a (affine c A (node_x (pG P) k) (node_y (pG P) k))) ->
  0 <= p_Mtol P ->
  update_strain P G p = Ok p' ->
  let B := mkM3 (xx A) (xy A) 0 (yx A) (yy A) 0 (zx A) (zy A) 0 in
  pdstrain p' = mscale (p_dt P / 2) (madd B (mtr B)) /\ pL p' = madd B (mtr B) /\
  p' = p <| pdstrain := pdstrain p' |> <| pL := pL p' |> <| pstrain := madd (pstrain p) (pdstrain p') |>.
Proof.
  intros HP HL Lm Lq HA HM E B. pose proof HL as (HD & EN & _).
  assert (NV : forall r, (r < 4)%nat -> nodal_velocity P G (nearby (pnstar p) r (nx (pG P))) =
     Ok (affine c A (node_x (pG P) (cell_node (pG P) (px p)) + fst (corner (cell_w (pG P)) (cell_h (pG P)) r))
                    (node_y (pG P) (cell_node (pG P) (px p)) + snd (corner (cell_w (pG P)) (cell_h (pG P)) r)))).
  { intros r Hr. destruct (corner_colrow _ HP _ r HD Hr) as (Hc & _).
    destruct (corner_xy _ HP _ r HD Hr) as [C1 C2].
    destruct (HA _ Hc (corner_is_corner _ _ _ HP HD Hr)) as [Hm Hq]. rewrite C1, C2 in Hq.
    unfold nodal_velocity. rewrite EN.
    rewrite (py_get_some (gm G) _ (corner_node (pG P) (cell_node (pG P) (px p)) r) 0)
      by (rewrite Lm; apply corner_in_range; auto).
    cbn [bind]. cbn [nltb Num_R]. rewrite (proj2 (Rltb_true _ _)) by exact Hm.
    rewrite (py_get_some (gq G) _ (corner_node (pG P) (cell_node (pG P) (px p)) r) v0)
      by (rewrite Lq; apply corner_in_range; auto).
    cbn [bind]. f_equal. apply v3_ext. intros a. rewrite comp_vdivs, Hq. field. lra. }
  unfold update_strain, four in E. cbn [foldM] in E.
  rewrite (NV 0%nat) in E by lia. rewrite (NV 1%nat) in E by lia.
  rewrite (NV 2%nat) in E by lia. rewrite (NV 3%nat) in E by lia.
  cbn [bind fst snd] in E. injection E as <-. cbn [pdstrain pL pstrain set].
  rewrite !(located_G _ _ _ HL).
  pose proof (cell_w_pos _ HP). pose proof (cell_h_pos _ HP).
  unfold loc, wG. split; [|split; [|reflexivity]].
  - apply m3_ext; cbn; field; lra.
  - apply m3_ext; cbn; field; lra.
Qed.

Lemma p_C16_affine_strain : forall P G p p1 p2 p' c A,
  proper (pG P) -> grid_ok (pG P) G -> in_dom (pG P) (px p) -> 0 <= p_Mtol P ->
  length (gm G) = nodes (pG P) -> length (gq G) = nodes (pG P) ->
  (forall k, (k < nodes (pG P))%nat -> cell_corner (pG P) (px p) k ->
     p_Mtol P < nth k (gm G) 0 /\
     forall a, comp a (nth k (gq G) v0) = nth k (gm G) 0 * comp a (affine c A (node_x (pG P) k) (node_y (pG P) k))) ->
  get_reference_node P G p = Ok p1 -> get_basis_functions G p1 = Ok p2 -> update_strain P G p2 = Ok p' ->
  let dt := p_dt P in
  pdstrain p' = mkM3 (dt * xx A) (dt * (xy A + yx A) / 2) (dt * zx A / 2)
                     (dt * (xy A + yx A) / 2) (dt * yy A) (dt * zy A / 2)
                     (dt * zx A / 2) (dt * zy A / 2) 0 /\
  pstrain p' = plus3 (pstrain p) (pdstrain p').
Proof.
  intros P G p p1 p2 p' c A HP HG HD HM Lm Lq HA E1 E2 E3 dt.
  rewrite (ref_node_spec _ HP _ HG P p eq_refl HD) in E1. injection E1 as <-.
  rewrite (basis_spec _ HP _ HG) in E2 by auto. injection E2 as <-.
  eapply (strain_located P G (locate (pG P) p) c A) in E3; auto.
  - destruct E3 as (E & _ & F). split.
    + rewrite E. apply m3_ext; cbn; fold dt; lra.
    + rewrite F. reflexivity.
  - apply locate_located; auto.
Qed.

(** Translation and rotation of the plane strain nothing. *)
Lemma p_C16_rigid_motion : forall P G p p1 p2 p' c w,
  proper (pG P) -> grid_ok (pG P) G -> in_dom (pG P) (px p) -> 0 <= p_Mtol P ->
  length (gm G) = nodes (pG P) -> length (gq G) = nodes (pG P) ->
  (forall k, (k < nodes (pG P))%nat -> cell_corner (pG P) (px p) k ->
     p_Mtol P < nth k (gm G) 0 /\
     forall a, comp a (nth k (gq G) v0) =
       nth k (gm G) 0 * comp a (mkV3 (vx c - w * node_y (pG P) k) (vy c + w * node_x (pG P) k) (vz c))) ->
  get_reference_node P G p = Ok p1 -> get_basis_functions G p1 = Ok p2 -> update_strain P G p2 = Ok p' ->
  pdstrain p' = iso 0 /\ pstrain p' = pstrain p.
Proof.
  intros P G p p1 p2 p' c w HP HG HD HM Lm Lq HA E1 E2 E3.
  destruct (p_C16_affine_strain P G p p1 p2 p' c (mkM3 0 (- w) 0 w 0 0 0 0 0) HP HG HD HM Lm Lq) as [E F]; auto.
  - intros k Hk Hc. destruct (HA k Hk Hc) as [A B]. split; auto. intros a. rewrite B. f_equal.
    destruct a; cbn; lra.
  - cbn in E. assert (Z : pdstrain p' = iso 0) by (rewrite E; apply m3_ext; cbn; lra).
    split; auto. rewrite F, Z. apply m3_ext; cbn; lra.
Qed.

(** A grid whose nodes have mass 1 and move with the field [f]. *)
Definition moving (P : gridp R) (G : grid R) (f : nat -> V3 R) : grid R :=
  G <| gm := repeat 1 (nodes P) |> <| gq := map f (seq 0 (nodes P)) |>.
Lemma moving_nth P G f k : (k < nodes P)%nat ->
  nth k (gm (moving P G f)) 0 = 1 /\ nth k (gq (moving P G f)) v0 = f k.
Proof.
  intros Hk. cbn. split; [apply nth_repeat_any; auto|].
  rewrite nth_map_lt with (d := 0%nat) by (rewrite seq_length; auto). rewrite nth_seq0; auto.
Qed.
Lemma moving_ok P G f : grid_ok P G -> grid_ok P (moving P G f).
Proof. intros []. constructor; auto. Qed.
Lemma strain_total P G p : proper (pG P) -> reaches P p ->
  length (gm G) = nodes (pG P) -> length (gq G) = nodes (pG P) ->
  exists p', update_strain P G p = Ok p'.
Proof.
  intros HP HR Lm Lq. unfold update_strain.
  destruct (four_total P (pnstar p) (fun (dl : M3 R * M3 R) r n =>
          v <- nodal_velocity P G n ;;
          let L := outer v (Gr p r) in let L_T := outer (Gr p r) v in
          Ok (madd (fst dl) (mmuls (mscale nhalf (madd L L_T)) (p_dt P)),
              madd (madd (snd dl) L) L_T)) (fun _ => True) (m0, m0)) as ([d l] & E & _); auto.
  - intros r s Hr _. destruct (HR r Hr) as [k Hk]. unfold nodal_velocity.
    rewrite (py_get_some (gm G) _ k 0) by (rewrite Lm; auto). cbn [bind].
    rewrite (py_get_some (gq G) _ k v0) by (rewrite Lq; auto). cbn [bind].
    destruct (_ <? _)%num; cbn [bind]; eauto.
  - cbv zeta in E. rewrite E. cbn [bind]. eauto.
Qed.

(** Simple shear of the example grid: [v = (2 y + 1, 0, 0)]. *)
Definition shear_field (k : nat) : V3 R := affine (mkV3 1 0 0) (mkM3 0 2 0 0 0 0 0 0 0) (node_x ex_gridp k) (node_y ex_gridp k).
Example x_C16_affine_strain : exists G p1 p2 p',
  let P := ex_params ex_bounds in
  proper (pG P) /\ grid_ok (pG P) G /\ in_dom (pG P) (px (T := R) ex_p1) /\ 0 <= p_Mtol P /\
  length (gm G) = nodes (pG P) /\ length (gq G) = nodes (pG P) /\
  (forall k, (k < nodes (pG P))%nat -> cell_corner (pG P) (px ex_p1) k ->
     p_Mtol P < nth k (gm G) 0 /\
     forall a, comp a (nth k (gq G) v0) = nth k (gm G) 0 *
       comp a (affine (mkV3 1 0 0) (mkM3 0 2 0 0 0 0 0 0 0) (node_x (pG P) k) (node_y (pG P) k))) /\
  get_reference_node P G ex_p1 = Ok p1 /\ get_basis_functions G p1 = Ok p2 /\ update_strain P G p2 = Ok p' /\
  xy (pdstrain p') = 1/10.
Proof.
  destruct (grid_init_ok (ex_gridp (T := R)) ex_bounds ex_proper) as (G0 & _ & HG0).
  pose (G := moving ex_gridp G0 shear_field). exists G.
  assert (HG : grid_ok (pG (ex_params (T := R) ex_bounds)) G) by (apply moving_ok; exact HG0).
  assert (HD : in_dom (pG (ex_params (T := R) ex_bounds)) (px ex_p1))
    by (apply (ex_dom Elastic (ex_phase Elastic)); cbn; auto).
  assert (HM : 0 <= p_Mtol (ex_params (T := R) ex_bounds) < 1) by (cbn; unfold lit; cbn; lra).
  assert (HA : forall k, (k < nodes ex_gridp)%nat -> cell_corner ex_gridp (px ex_p1) k ->
     p_Mtol (ex_params (T := R) ex_bounds) < nth k (gm G) 0 /\
     forall a, comp a (nth k (gq G) v0) = nth k (gm G) 0 *
       comp a (affine (mkV3 1 0 0) (mkM3 0 2 0 0 0 0 0 0 0) (node_x ex_gridp k) (node_y ex_gridp k))).
  { intros k Hk _. destruct (moving_nth ex_gridp G0 shear_field k Hk) as [E1 E2]. fold G in E1, E2.
    rewrite E1, E2. split; [lra|]. intros a. unfold shear_field. lra. }
  eexists. eexists. 
  destruct (strain_total (ex_params ex_bounds) G (locate ex_gridp ex_p1) ex_proper) as [p' E].
  { apply located_reaches; [exact ex_proper|]. apply locate_located. exact HD. }
  { apply repeat_length. }
  { cbn. reflexivity. }
  exists p'. cbv zeta.
  split; [exact ex_proper|]. split; [exact HG|]. split; [exact HD|]. split; [apply HM|].
  split; [apply repeat_length|]. split; [reflexivity|]. split; [exact HA|].
  split; [apply (ref_node_spec _ ex_proper _ HG (ex_params ex_bounds) _ eq_refl HD)|].
  split; [apply (basis_spec _ ex_proper _ HG); auto|].
  split; [exact E|].
  eapply (strain_located (ex_params ex_bounds) G _ (mkV3 1 0 0) (mkM3 0 2 0 0 0 0 0 0 0) p' ex_proper) in E; auto.
  - destruct E as (E & _). rewrite E. cbn. unfold lit. cbn. lra.
  - apply locate_located. exact HD.
  - apply HM.
Qed.

(** ** C17: one particle; the whole program is in ThmStep.v *)
Lemma p_C17_strain_symmetric : forall P G p p', update_strain P G p = Ok p' ->
  symmetric (pdstrain p') /\ (symmetric (pstrain p) -> symmetric (pstrain p')).
Proof.
  intros P G p p' E. apply strain_sym in E. destruct E as (A & _ & ->). cbn [pdstrain pstrain set].
  split; auto. unfold symmetric in *. cbn. unR. intuition lra.
Qed.

(** One update of the stress, for every law. *)
Lemma p_C17_stress_symmetric : forall P S0 S ip p G p1 p' G',
  update_strain P G p = Ok p1 -> update_stress P S0 S ip p1 G = Ok (p', G') ->
  symmetric (pstress p) -> symmetric (pdev p) -> symmetric (pdstress p) ->
  symmetric (pstress p') /\ symmetric (pdev p') /\ symmetric (pdstress p').
Proof.
  intros P S0 S ip p G p1 p' G' E1 E2 SS SV ST.
  apply strain_sym in E1. destruct E1 as (SD & SL & F).
  assert (SS1 : symmetric (pstress p1)) by (rewrite F; exact SS).
  assert (SV1 : symmetric (pdev p1)) by (rewrite F; exact SV).
  assert (ST1 : symmetric (pdstress p1)) by (rewrite F; exact ST).
  unfold update_stress in E2. pbinds E2. injection E2 as <- <-. cbn [pstress pdev pdstress set].
  pose proof (law_effect _ _ _ _ _ _ _ _ E) as (LF & _).
  assert (SL2 : symmetric (pL b)) by (rewrite LF; exact SL).
  destruct (law_sym _ _ _ _ _ _ _ _ E SD SS1 SV1 ST1) as (A & B & C).
  split; [|auto]. clear - A C SL2. unfold symmetric in *.
  destruct A as (A1 & A2 & A3), C as (C1 & C2 & C3), SL2 as (L1 & L2 & L3).
  cbn. unR. rewrite A1, A2, A3, C1, C2, C3, L1, L2, L3. repeat split; ring.
Qed.

(** Every law that completes on the example completes with all hypotheses. *)
Definition ex_solid_sc {T} `{Num T} (l : law_name) : solid T :=
  mkSolid n2 n1 l [nhalf; nhalf]
          (Some n3) (Some n2) (Some n1) (Some n2) (Some n0) (Some nhalf) (Some n1) (Some n1)
          (Some (Sc n2)) (Some (Sc n1)) (Some (Sc n1))
          (Some n1) (Some n1) (Some n1) (Some n1)
          (Some n2) (Some n1) (Some n1) (Some n1)
          (Some n1) (Some n0) (Some n0) (Some n1)
          (Some n1) (Some n1) [n1] (Some (nhalf, nhalf)) false None.

Lemma wipe_slens P (G : grid R) : slens (nodes (pG P)) (wipe P G).
Proof. unfold wipe. intros f. destruct (p_seg P); destruct f; cbn; rewrite ?repeat_length; reflexivity. Qed.

Definition straining (p : particle R) : particle R :=
  p <| pdstrain := mkM3 1 2 0 2 0 0 0 0 0 |> <| pL := mkM3 1 2 0 2 0 0 0 0 0 |>.
Lemma vis_ex P (MP : particle R) fs G : proper (pG P) -> located (pG P) MP ->
  exists G', visualise P MP fs (wipe P G) = Ok G'.
Proof.
  intros HP HL. apply visualise_total with (n := nodes (pG P)); [apply wipe_slens|].
  apply (located_reaches P MP HP HL).
Qed.
Ltac run_vis H := match goal with
  | |- context [visualise ?P ?MP ?fs (wipe ?P ?G)] =>
      let G' := fresh "G'" in let E := fresh "E" in
      destruct (vis_ex P MP fs G ex_proper H) as [G' E]; rewrite E; cbn [bind]
  end.
Lemma run_law l ip : In l [Elastic; ElasticTime; VonMises; DpRate; Viscous; Bingham; KenKamrin; LinearMu; KenSimple] ->
  forall (p : particle R) G, located ex_gridp p -> pphi p = [1/2; 1/2] ->
  exists p' G', apply_law (ex_params ex_bounds) (ex_solid_sc l) (ex_solid_sc l) ip p (wipe (ex_params ex_bounds) G) = Ok (p', G').
Proof.
  intros Hl p G HL Hphi. unfold apply_law. cbn [s_law ex_solid_sc].
  repeat (destruct Hl as [<-|Hl]); try contradiction.
  - unfold elastic. cbn [ex_solid_sc s_K s_G attr bind]. run_vis HL. eauto.
  - unfold elastic_time. cbn [ex_solid_sc s_t_0 s_rho_f s_E_0 s_nu attr bind].
    destruct (Nat.eqb ip 0); [destruct (_ <? _)%num|]; cbn [bind]; run_vis HL; eauto.
  - unfold von_mises. cbn [ex_solid_sc s_K s_G s_k s_s attr bind]. run_vis HL. eauto.
  - unfold dp_rate. cbn [ex_solid_sc s_K s_G s_mu s_t_star s_beta attr bind].
    destruct (dp_rate_guts _ _ _ _ _ _ _) as [ds [pp qq]]. run_vis HL. eauto.
  - unfold viscous. cbn [ex_solid_sc s_K s_mu_s s_mu_v attr bind]. run_vis HL. eauto.
  - unfold bingham. cbn [ex_solid_sc s_K s_mu_s s_mu_v s_gamma_c s_mu_0 s_tau_0 attr bind sc_scalar].
    destruct (_ <=? _)%num; cbn [bind]; run_vis HL; eauto.
  - unfold ken_kamrin. cbn [ex_solid_sc s_K s_mu_s s_mu_2 s_mu_v s_I_0 attr bind sc_scalar]. run_vis HL. eauto.
  - unfold linear_mu, mean_size. rewrite Hphi.
    cbn [ex_params pG ex_gridp ns gs seq foldM nth_res nth_error bind ex_solid_sc s_rho_s s_mu_0 s_b s_eta_max s_K attr sc_scalar].
    change (pG (ex_params (T := R) ex_bounds)) with (ex_gridp (T := R)).
    run_vis HL. eauto.
  - unfold ken_simple, mean_size. rewrite Hphi.
    cbn [ex_params pG ex_gridp ns gs seq foldM nth_res nth_error bind ex_solid_sc s_mu_0 s_eta_max s_K attr sc_scalar negb mallfin nfin Num_R andb].
    run_vis HL. eauto.
Qed.

Example x_C17_stress_symmetric : forall l,
  In l [Elastic; ElasticTime; VonMises; DpRate; Viscous; Bingham; KenKamrin; LinearMu; KenSimple] ->
  exists p G p1 p' G',
  update_strain (ex_params ex_bounds) G p = Ok p1 /\
  update_stress (ex_params ex_bounds) (ex_solid_sc l) (ex_solid_sc l) 0 p1 G = Ok (p', G') /\
  symmetric (pstress (T := R) p) /\ xy (pstress p) = 2 /\ symmetric (pdev p) /\ symmetric (pdstress p).
Proof.
  intros l Hl. destruct (grid_init_ok (ex_gridp (T := R)) ex_bounds ex_proper) as (G0 & _ & HG0).
  assert (HD : in_dom (pG (ex_params (T := R) ex_bounds)) (px ex_p1))
    by (apply (ex_dom Elastic (ex_phase Elastic)); cbn; auto).
  pose (p := locate ex_gridp (ex_p1 (T := R))). pose (G := wipe (ex_params ex_bounds) G0).
  assert (HL : located ex_gridp p) by (apply locate_located; exact HD).
  destruct (strain_total (ex_params ex_bounds) G p ex_proper) as [p1 E1].
  { apply located_reaches; [exact ex_proper|exact HL]. }
  { reflexivity. } { reflexivity. }
  pose proof (strain_sym _ _ _ _ E1) as (_ & _ & F).
  destruct (run_law l 0 Hl p1 G0) as (p' & G' & E2).
  { rewrite F. exact HL. } { rewrite F. reflexivity. }
  exists p, G, p1. unfold update_stress. fold G in E2. rewrite E2. cbn [bind]. eexists. exists G'.
  split; [exact E1|]. split; [reflexivity|]. subst p. unfold symmetric. cbn. repeat split; reflexivity.
Qed.

Lemma elastic_out P S p G p' G' : elastic P S p G = Ok (p', G') ->
  exists K g, s_K S = Some K /\ s_G S = Some g /\
    pdstress p' = plus3 (iso (K * tr3 (pdstrain p))) (times (2 * g) (deviator (pdstrain p))).
Proof.
  unfold elastic. intros E. pbinds E. injection E as <- <-. apply attr_ok in E0. apply attr_ok in E1.
  exists a, a0. split; [auto|]. split; [auto|]. cbn [pdstress set].
  apply m3_ext; cbn; unR; unfold tr3, n2, n3; cbn; unR; field.
Qed.

(** ** C18 *)
(** What the correction of particle.py:158 is: because [self.L] and [self.L_T]
    are one array, it contains twice the strain rate and never the spin. *)
Lemma p_C18_correction_exact_partial : forall P S0 S ip p G p1 p2 p3 G2 c A,
  proper (pG P) -> located (pG P) p ->
  length (gm G) = nodes (pG P) -> length (gq G) = nodes (pG P) ->
  (forall k, (k < nodes (pG P))%nat -> cell_corner (pG P) (px p) k ->
     p_Mtol P < nth k (gm G) 0 /\
     forall a, comp a (nth k (gq G) v0) = nth k (gm G) 0 * comp a (affine c A (node_x (pG P) k) (node_y (pG P) k))) ->
  0 <= p_Mtol P ->
  update_strain P G p = Ok p1 ->
  apply_law P S0 S ip p1 G = Ok (p2, G2) -> update_stress P S0 S ip p1 G = Ok (p3, G2) ->
  let D := mkM3 (xx A) ((xy A + yx A) / 2) (zx A / 2) ((xy A + yx A) / 2) (yy A) (zy A / 2) (zx A / 2) (zy A / 2) 0 in
  pstress p3 = plus3 (plus3 (pstress p2) (pdstress p2))
                     (times (- (2 * p_dt P)) (plus3 (mm D (pstress p2)) (mm (pstress p2) D))).
Proof.
  intros P S0 S ip p G p1 p2 p3 G2 c A HP HL Lm Lq HA HM E1 E2 E3 D.
  destruct (strain_located P G p c A p1 HP HL Lm Lq HA HM E1) as (_ & EL & _).
  unfold update_stress in E3. rewrite E2 in E3. cbn [bind] in E3. injection E3 as <-.
  cbn [pstress set]. pose proof (law_effect _ _ _ _ _ _ _ _ E2) as (LF & _).
  assert (EL2 : pL p2 = pL p1) by (rewrite LF; reflexivity). rewrite EL2, EL.
  apply m3_ext; cbn; unR; field.
Qed.

(** A spinning elastic particle keeps its stress components; an objective
    update would turn them by [W s - s W] per unit time. *)
Lemma p_C18_spin_refuted :
  (forall P S0 S ip p G p1 G1 p' c w K Gs,
    proper (pG P) -> located (pG P) p ->
    length (gm G) = nodes (pG P) -> length (gq G) = nodes (pG P) ->
    (forall k, (k < nodes (pG P))%nat -> cell_corner (pG P) (px p) k ->
       p_Mtol P < nth k (gm G) 0 /\
       forall a, comp a (nth k (gq G) v0) =
         nth k (gm G) 0 * comp a (mkV3 (vx c - w * node_y (pG P) k) (vy c + w * node_x (pG P) k) (vz c))) ->
    0 <= p_Mtol P -> s_law S = Elastic -> s_K S = Some K -> s_G S = Some Gs ->
    update_strain P G p = Ok p1 -> update_stress P S0 S ip p1 G = Ok (p', G1) ->
    pstress p' = pstress p) /\
  exists W s : M3 R, mtr W = times (-1) W /\ symmetric s /\ plus3 (mm W s) (mm s (mtr W)) <> iso 0.
Proof.
  split.
  - intros P S0 S ip p G p1 G1 p' c w K Gs HP HL Lm Lq HA HM EL EK EG E1 E2.
    destruct (strain_located P G p c (mkM3 0 (- w) 0 w 0 0 0 0 0) p1 HP HL Lm Lq) as (ED & ELL & F); auto.
    { intros k Hk Hc. destruct (HA k Hk Hc) as [A B]. split; auto. intros a. rewrite B. f_equal.
      destruct a; cbn; lra. }
    assert (Z : pdstrain p1 = m0) by (rewrite ED; apply m3_ext; cbn; unR; field).
    assert (ZL : pL p1 = m0) by (rewrite ELL; apply m3_ext; cbn; unR; field).
    assert (ES : pstress p1 = pstress p) by (rewrite F; reflexivity).
    unfold update_stress in E2. pbinds E2. injection E2 as <- _.
    pose proof (law_effect _ _ _ _ _ _ _ _ E) as (LF & _ & _ & _ & LS).
    specialize (LS ltac:(congruence)). unfold apply_law in E. rewrite EL in E.
    destruct (elastic_out _ _ _ _ _ _ E) as (K' & g' & _ & _ & OUT). clear E.
    assert (LL : pL b = pL p1) by (rewrite LF; reflexivity).
    cbn [pstress pdstress pL set]. rewrite LL, LS, OUT, Z, ZL, ES. apply m3_ext; cbn; unR; unfold tr3; cbn; unR; field.
  - exists (mkM3 0 (-1) 0 1 0 0 0 0 0), (mkM3 1 0 0 0 0 0 0 0 0).
    split; [apply m3_ext; cbn; lra|]. split; [unfold symmetric; cbn; auto|].
    intros E. apply (f_equal xy) in E. cbn in E. unR. lra.
Qed.

(** ** C19 *)
Lemma p_C19_hooke : forall P S0 S ip p G p' G', s_law S = Elastic ->
  apply_law P S0 S ip p G = Ok (p', G') ->
  exists K g, s_K S = Some K /\ s_G S = Some g /\
    tr3 (pdstress p') = 3 * K * tr3 (pdstrain p) /\
    deviator (pdstress p') = times (2 * g) (deviator (pdstrain p)) /\
    pstress p' = pstress p /\ pm p' = pm p.
Proof.
  intros P S0 S ip p G p' G' EL E. pose proof (law_effect _ _ _ _ _ _ _ _ E) as (_ & _ & _ & M & ST).
  unfold apply_law in E. rewrite EL in E.
  destruct (elastic_out _ _ _ _ _ _ E) as (K & g & E1 & E2 & ED).
  exists K, g. do 2 (split; [auto|]). rewrite ED. split; [|split; [|split]].
  - unfold tr3. cbn. unfold tr3. field.
  - apply m3_ext; cbn; unfold tr3; cbn; unfold tr3; field.
  - apply ST. congruence.
  - apply M. congruence.
Qed.

(** The increment is a linear function of the strain increment. *)
Lemma p_C19_linear : forall P S0 S ip p q r G1 G2 G3 p' q' r' G1' G2' G3' a b, s_law S = Elastic ->
  apply_law P S0 S ip p G1 = Ok (p', G1') -> apply_law P S0 S ip q G2 = Ok (q', G2') ->
  apply_law P S0 S ip r G3 = Ok (r', G3') ->
  pdstrain r = plus3 (times a (pdstrain p)) (times b (pdstrain q)) ->
  pdstress r' = plus3 (times a (pdstress p')) (times b (pdstress q')).
Proof.
  intros P S0 S ip p q r G1 G2 G3 p' q' r' G1' G2' G3' a b EL A B C EE.
  unfold apply_law in A, B, C. rewrite EL in A, B, C.
  destruct (elastic_out _ _ _ _ _ _ A) as (K & g & E1 & E2 & EA).
  destruct (elastic_out _ _ _ _ _ _ B) as (K2 & g2 & E3 & E4 & EB).
  destruct (elastic_out _ _ _ _ _ _ C) as (K3 & g3 & E5 & E6 & EC).
  replace K2 with K in * by congruence. replace K3 with K in * by congruence.
  replace g2 with g in * by congruence. replace g3 with g in * by congruence.
  rewrite EA, EB, EC, EE. apply m3_ext; cbn; unfold tr3; cbn; field.
Qed.

Lemma mm_assoc (a b c : M3 R) : mm (mm a b) c = mm a (mm b c).
Proof. apply m3_ext; cbn; unR; ring. Qed.
Lemma tr_comm a b : tr3 (mm a b) = tr3 (mm b a).
Proof. unfold tr3. cbn. unR. ring. Qed.
Lemma mm_iso k a : mm (iso k) a = times k a.
Proof. apply m3_ext; cbn; unR; ring. Qed.
Lemma times_1 a : times 1 a = a.
Proof. apply m3_ext; cbn; ring. Qed.
Lemma turn_tr Q a : orthogonal Q -> tr3 (turn Q a) = tr3 a.
Proof.
  intros [H _]. unfold turn. rewrite tr_comm, <- mm_assoc, H, mm_iso, times_1. reflexivity.
Qed.
Lemma turn_lin Q x y a b : turn Q (plus3 (times x a) (times y b)) = plus3 (times x (turn Q a)) (times y (turn Q b)).
Proof. apply m3_ext; cbn; unR; ring. Qed.
Lemma turn_iso Q k : orthogonal Q -> turn Q (iso k) = iso k.
Proof.
  intros [_ H]. unfold turn. replace (mm Q (iso k)) with (times k Q) by (apply m3_ext; cbn; unR; ring).
  replace (mm (times k Q) (mtr Q)) with (times k (mm Q (mtr Q))) by (apply m3_ext; cbn; unR; ring).
  rewrite H. apply m3_ext; cbn; ring.
Qed.
Lemma dev_split a : deviator a = plus3 (times 1 a) (times (-1) (iso (tr3 a / 3))).
Proof. apply m3_ext; cbn; ring. Qed.
Lemma turn_dev Q a : orthogonal Q -> turn Q (deviator a) = deviator (turn Q a).
Proof. intros H. rewrite !dev_split, turn_lin, turn_tr, turn_iso by auto. reflexivity. Qed.

(** Isotropy: turning the strain increment turns the stress increment. *)
Lemma p_C19_isotropic : forall P S0 S ip p q G1 G2 p' q' G1' G2' Q, s_law S = Elastic -> orthogonal Q ->
  apply_law P S0 S ip p G1 = Ok (p', G1') -> apply_law P S0 S ip q G2 = Ok (q', G2') ->
  pdstrain q = turn Q (pdstrain p) -> pdstress q' = turn Q (pdstress p').
Proof.
  intros P S0 S ip p q G1 G2 p' q' G1' G2' Q EL HQ A B EE.
  unfold apply_law in A, B. rewrite EL in A, B.
  destruct (elastic_out _ _ _ _ _ _ A) as (K & g & E1 & E2 & EA).
  destruct (elastic_out _ _ _ _ _ _ B) as (K2 & g2 & E3 & E4 & EB).
  replace K2 with K in * by congruence. replace g2 with g in * by congruence.
  rewrite EA, EB, EE.
  replace (plus3 (iso (K * tr3 (pdstrain p))) (times (2 * g) (deviator (pdstrain p)))) with
    (plus3 (times 1 (iso (K * tr3 (pdstrain p)))) (times (2 * g) (deviator (pdstrain p)))) by (rewrite times_1; reflexivity).
  rewrite turn_lin, times_1, turn_iso, turn_dev, turn_tr by auto. reflexivity.
Qed.

Lemma straining_located P p : located P p -> located P (straining p).
Proof. exact (fun H => H). Qed.
Definition ex_p_loc : particle R := straining (locate ex_gridp ex_p1).
Lemma ex_p_located : located ex_gridp ex_p_loc.
Proof.
  apply (straining_located ex_gridp (locate ex_gridp ex_p1)). apply locate_located.
  apply (ex_dom Elastic (ex_phase Elastic)); cbn; auto.
Qed.
Lemma run_ex l : In l [Elastic; ElasticTime; VonMises; DpRate; Viscous; Bingham; KenKamrin; LinearMu; KenSimple] ->
  exists P S G p' G', s_law S = l /\ apply_law P S S 0 ex_p_loc G = Ok (p', G').
Proof.
  intros Hl. destruct (grid_init_ok (ex_gridp (T := R)) ex_bounds ex_proper) as (G0 & _ & HG0).
  destruct (run_law l 0 Hl ex_p_loc G0 ex_p_located eq_refl) as (p' & G' & E).
  eexists. eexists. eexists. exists p', G'. split; [|exact E]. reflexivity.
Qed.
Example x_C19_isotropic : exists P S G p' G', s_law S = Elastic /\
  apply_law P S S 0 ex_p_loc G = Ok (p', G') /\ xy (pdstrain ex_p_loc) = 2 /\
  orthogonal (mkM3 0 (-1) 0 1 0 0 0 0 1).
Proof.
  destruct (run_ex Elastic) as (P & S & G & p' & G' & A & B); [cbn; auto|].
  exists P, S, G, p', G'. split; [auto|]. split; [auto|]. split; [reflexivity|].
  split; apply m3_ext; cbn; unR; ring.
Qed.

(** ** C20 *)
Lemma init_strain_hooke K g s : K <> 0 -> g <> 0 -> hooke K g (init_strain K g s) s.
Proof.
  intros HK Hg. unfold hooke, init_strain. split; [|apply m3_ext]; cbn; unfold tr3; cbn; unR;
  unfold n2, n3; unR; field; auto.
Qed.
Lemma init_stress_hooke K g e : hooke K g e (init_stress K g e).
Proof.
  unfold hooke, init_stress. split; [|apply m3_ext]; cbn; unfold tr3; cbn; unR; unfold n2, n3; unR; field.
Qed.

Lemma init_stress_sym K g e : symmetric e -> symmetric (init_stress K g e).
Proof. intros. unfold init_stress. auto 10 using sym_add, sym_sub, sym_scale, sym_divs, sym_muls, sym_eye. Qed.
Lemma init_strain_sym K g e : symmetric e -> symmetric (init_strain K g e).
Proof. intros. unfold init_strain. auto 10 using sym_add, sym_sub, sym_scale, sym_divs, sym_muls, sym_eye. Qed.

Lemma p_C20_initial_state : forall P S0 S x y phi p K g,
  particle_init P S0 S x y phi = Ok p -> s_K S = Some K -> s_G S = Some g -> K <> 0 -> g <> 0 ->
  hooke K g (pstrain p) (pstress p) /\ symmetric (pstress p) /\ symmetric (pstrain p) /\
  ppressure p = tr3 (pstress p) / 3 /\ psigma_kk p = tr3 (pstress p) /\
  pdev p = deviator (pstress p) /\ tr3 (pdev p) = 0.
Proof.
  intros P S0 S x y phi p K g E EK EG HK Hg. unfold particle_init in E. pbinds E. injection E as <-.
  cbn [pstrain pstress ppressure psigma_kk pdev].
  assert (HH : hooke K g b0 b /\ symmetric b /\ symmetric b0).
  { clear E1. unfold init_state in E0. rewrite EK, EG in E0. cbn [attr bind] in E0.
    destruct (p_pressure P).
    all: try (pbinds E0); injection E0 as <- <-.
    - split; [|unfold symmetric; cbn; auto].
      unfold hooke; split; [|apply m3_ext]; cbn; unfold tr3; cbn; unR; field.
    - split; [exact (init_strain_hooke K g _ HK Hg)|]. split; [|apply init_strain_sym]; unfold symmetric; cbn; auto.
    - split; [exact (init_stress_hooke K g _)|].
      split; [apply init_stress_sym|]; apply sym_scale; unfold symmetric; cbn; auto.
    - split; [exact (init_stress_hooke K g _)|].
      split; [apply init_stress_sym|]; apply sym_scale; unfold symmetric; cbn; auto.
    - split; [exact (init_strain_hooke K g _ HK Hg)|]. split; [|apply init_strain_sym]; unfold symmetric; cbn; auto. }
  destruct HH as (H1 & H2 & H3). split; [auto|]. split; [auto|]. split; [auto|].
  split; [reflexivity|]. split; [reflexivity|].
  split; [apply m3_ext; cbn; unfold tr3, n3; unR; field|].
  unfold tr3. cbn. unfold n3, trace. unR. field.
Qed.

(** The lithostatic state: vertical stress grows linearly with the depth below
    the surface and balances the weight of the material above. *)
Lemma p_C20_lithostatic : forall P S0 S x y phi p, p_pressure P = PLithostatic ->
  particle_init P S0 S x y phi = Ok p ->
  let depth := match top_gap (pG P) with Some g => y_M (pG P) - g - y | None => y_M (pG P) - y end in
  let th := ld_theta (p_loads P) in
  yy (pstress p) = s_rho S * (p_max_g P * cos th) * depth /\
  xy (pstress p) = s_rho S * (p_max_g P * sin th) * depth /\
  xx (pstress p) = yy (pstress p) /\ zz (pstress p) = yy (pstress p) /\
  psigmav p = yy (pstress p) /\ psigmah p = xx (pstress p).
Proof.
  intros P S0 S x y phi p EP E depth th. unfold particle_init, init_state in E. rewrite EP in E. pbinds E. injection E as <-.
 clear E1. pbinds E0. injection E0 as <- <-. cbn. unR. fold th.
  subst depth. destruct (top_gap (pG P)); repeat split; unR; ring.
Qed.

(** The compression state is isotropic with the requested pressure. *)
Lemma p_C20_compression : forall P S0 S x y phi p p0, p_pressure P = PCompression -> p_init_press P = Some p0 ->
  particle_init P S0 S x y phi = Ok p -> pstress p = iso (- p0) /\ ppressure p = - p0.
Proof.
  intros P S0 S x y phi p p0 EP E0 E. unfold particle_init, init_state in E. rewrite EP, E0 in E.
  cbn [attr bind] in E. pbinds E. injection E as <-.
  pbinds E1. injection E1 as <- <-. cbn. unfold n3, trace. cbn. unR. split; [|field].
  apply m3_ext; cbn; lra.
Qed.

Example x_C20_initial_state : exists p : particle R,
  particle_init (ex_params ex_bounds <| p_pressure := PLithostatic |>) (ex_solid Elastic) (ex_solid Elastic) 1 1 [] = Ok p /\
  s_K (ex_solid (T := R) Elastic) = Some 3 /\ s_G (ex_solid (T := R) Elastic) = Some 2 /\
  yy (pstress p) = - 2.
Proof.
  eexists. split; [reflexivity|]. split; [reflexivity|]. split; [reflexivity|].
  cbn. unfold n2. unR. rewrite cos_0. ring.
Qed.

(** ** C21 *)
Lemma viscous_out P S p G p' G' : viscous P S p G = Ok (p', G') ->
  exists K mu_s mu_v, s_K S = Some K /\ s_mu_s S = Some mu_s /\ s_mu_v S = Some mu_v /\
    ppressure p' = ppressure p + K * (tr3 (pdstrain p) / 3) /\
    pdev p' = times (2 * mu_s / p_dt P) (deviator (pdstrain p)) /\
    pstress p' = pstress p /\
    plus3 (pstress p) (pdstress p') =
      plus3 (plus3 (iso (ppressure p')) (pdev p')) (iso (- (mu_v * (tr3 (pdstrain p) / 3) / p_dt P))).
Proof.
  unfold viscous. intros E. pbinds E. injection E as <- <-.
  apply attr_ok in E0. apply attr_ok in E1. apply attr_ok in E2. exists a, a0, a1.
  do 3 (split; [auto|]). cbn [ppressure pdev pstress pdstress set].
  split; [reflexivity|]. split; [|split; [reflexivity|]];
  apply m3_ext; cbn; unfold tr3, n2, n3, Rdiv; unR; ring.
Qed.

Lemma tr_times k a : tr3 (times k a) = k * tr3 a.
Proof. unfold tr3; cbn; ring. Qed.
Lemma tr_dev a : tr3 (deviator a) = 0.
Proof. unfold tr3 at 1; cbn; unfold tr3; field. Qed.

Lemma p_C21_viscous : forall P S0 S ip p G p' G', s_law S = Viscous ->
  apply_law P S0 S ip p G = Ok (p', G') -> p_dt P <> 0 ->
  exists K mu_s mu_v, s_K S = Some K /\ s_mu_s S = Some mu_s /\ s_mu_v S = Some mu_v /\
    let d := pdstrain p in let s' := plus3 (pstress p') (pdstress p') in
    ppressure p' - ppressure p = K * tr3 d / 3 /\
    tr3 s' / 3 = ppressure p' - mu_v * (tr3 d / 3) / p_dt P /\
    deviator s' = times (2 * mu_s) (times (/ p_dt P) (deviator d)) /\
    tr3 (pdev p') = 0.
Proof.
  intros P S0 S ip p G p' G' EL E Hdt. unfold apply_law in E. rewrite EL in E.
  destruct (viscous_out _ _ _ _ _ _ E) as (K & m & v & E1 & E2 & E3 & EP & ED & ES & EF).
  exists K, m, v. do 3 (split; [auto|]). cbv zeta. rewrite ES, EF, ED, EP.
  set (d := pdstrain p). clearbody d.
  split; [field|]. split; [|split].
  - unfold tr3. cbn. unfold tr3. field. auto.
  - apply m3_ext; cbn; unfold tr3; cbn; unfold tr3; field; auto.
  - rewrite tr_times, tr_dev. ring.
Qed.
Example x_C21_viscous : exists P S G p' G', s_law S = Viscous /\
  apply_law P S S 0 ex_p_loc G = Ok (p', G') /\ xx (deviator (pdstrain ex_p_loc)) = 2 / 3.
Proof.
  destruct (run_ex Viscous) as (P & S & G & p' & G' & A & B); [cbn; tauto|].
  exists P, S, G, p', G'. split; [auto|]. split; [auto|]. cbn. unfold tr3. cbn. field.
Qed.

(** ** C22 *)
Lemma msq_inner (a : M3 R) : msum (mmap nsq a) = inner a a.
Proof. unfold msum, inner. cbn. unfold nsq. unR. ring. Qed.
Lemma inner_nonneg a : 0 <= inner a a.
Proof. unfold inner. nra. Qed.
Lemma inner_times k a : inner (times k a) (times k a) = k * k * inner a a.
Proof. unfold inner. cbn. ring. Qed.
Lemma frob_times k a : 0 <= k -> frob (times k a) = k * frob a.
Proof.
  intros. unfold frob. rewrite inner_times, sqrt_mult; [|nra|apply inner_nonneg].
  rewrite sqrt_square; auto.
Qed.

(** Shear rate and deviatoric stress of a Bingham particle. *)
Lemma bingham_out P S p G p' G' : bingham P S p G = Ok (p', G') -> p_dt P <> 0 ->
  exists K gc mu_v, s_K S = Some K /\ s_gamma_c S = Some gc /\ s_mu_v S = Some mu_v /\
    pgammadot p' = frob (deviator (pdstrain p)) / p_dt P /\
    ppressure p' = ppressure p + K * (tr3 (pdstrain p) / 3) /\
    pdstress p' = pdstress p /\
    pstress p' = plus3 (plus3 (iso (ppressure p')) (pdev p')) (iso (- (mu_v * (tr3 (pdstrain p) / 3) / p_dt P))) /\
    (pgammadot p' <= gc -> exists mu0, s_mu_0 S = Some (Sc mu0) /\
       pdev p' = times (2 * mu0 / p_dt P) (deviator (pdstrain p))) /\
    (gc < pgammadot p' -> exists mu_s tau0, s_mu_s S = Some mu_s /\ s_tau_0 S = Some tau0 /\
       pdev p' = times (2 * (mu_s + tau0 / pgammadot p') / p_dt P) (deviator (pdstrain p))).
Proof.
  unfold bingham. cbv zeta. intros E Hdt.
  assert (DE : forall d : M3 R, msub d (mscale (trace d / n3)%num eye) = deviator d)
    by (intros d; apply m3_ext; cbn; unfold tr3, n3; unR; ring).
  assert (TE : forall d : M3 R, (trace d / n3)%num = tr3 d / 3) by reflexivity.
  rewrite DE, msq_inner, TE in E. cbn [nsqrt ndiv nleb Num_R] in E. fold (frob (deviator (pdstrain p))) in E.
  pbinds E. injection E as <- _. clear E4.
  apply attr_ok in E0. apply attr_ok in E1. apply attr_ok in E3. exists a, a0, a2.
  do 3 (split; [auto|]). clear DE TE.
  set (d := deviator (pdstrain p)) in *. set (t := tr3 (pdstrain p)) in *. clearbody d t.
  cbn [ppressure pdev pstress pdstress pgammadot set].
  split; [reflexivity|]. split; [reflexivity|]. split; [reflexivity|].
  split; [apply m3_ext; cbn; unR; unfold Rdiv; ring|].
  destruct (Rleb (frob d / p_dt P) a0) eqn:EB.
  - apply Rleb_true in EB. split; [|unR; intros; lra]. intros _.
    destruct (s_mu_0 S) as [[mu0|l]|]; cbn [attr bind sc_scalar] in E2; try discriminate E2.
    injection E2 as <-. exists mu0. split; [auto|]. apply m3_ext; cbn; unfold n2; unR; field; auto.
  - apply Rleb_false in EB. split; [unR; intros; lra|]. intros _.
    destruct (s_mu_s S) as [mu|]; cbn [attr bind] in E2; try discriminate E2.
    destruct (s_tau_0 S) as [tau|]; cbn [attr bind] in E2; try discriminate E2.
    injection E2 as <-. exists mu, tau. split; [auto|]. split; [auto|].
    unR. set (u := tau / _). clearbody u. apply m3_ext; cbn; unfold n2; unR; field; auto.
Qed.

Lemma div_nonneg a b : 0 <= a -> 0 < b -> 0 <= a / b.
Proof. intros Ha Hb. apply Rmult_le_pos; [auto|]. left. apply Rinv_0_lt_compat. auto. Qed.

Lemma dev_iso a b c d :
  deviator (plus3 (plus3 (iso a) (times c (deviator d))) (iso b)) = times c (deviator d).
Proof. apply m3_ext; cbn; unfold tr3; cbn; unfold tr3; field. Qed.

(** Above the critical shear rate the norm of the deviatoric stress is
    [2 (mu_s gammadot + tau_0)], at least twice the yield stress. *)
Lemma p_C22_above_yield : forall P S0 S ip p G p' G' gc, s_law S = Bingham ->
  apply_law P S0 S ip p G = Ok (p', G') -> 0 < p_dt P -> s_gamma_c S = Some gc -> 0 <= gc ->
  let gd := frob (deviator (pdstrain p)) / p_dt P in gc < gd ->
  exists mu_s tau0, s_mu_s S = Some mu_s /\ s_tau_0 S = Some tau0 /\
    deviator (pstress p') = pdev p' /\
    (0 <= mu_s -> 0 <= tau0 ->
     frob (deviator (pstress p')) = 2 * (mu_s * gd + tau0) /\ 2 * tau0 <= frob (deviator (pstress p'))).
Proof.
  intros P S0 S ip p G p' G' gc EL E Hdt EG Hgc gd Hgd. unfold apply_law in E. rewrite EL in E.
  destruct (bingham_out _ _ _ _ _ _ E) as (K & gc' & v & E1 & E2 & E3 & GD & PR & DS & ST & _ & AB); [lra|].
  replace gc' with gc in * by congruence. fold gd in GD. rewrite GD in AB.
  destruct (AB Hgd) as (mu & tau & F1 & F2 & F3). exists mu, tau. split; [auto|]. split; [auto|].
  assert (DD : deviator (pstress p') = pdev p').
  { rewrite ST, F3. apply dev_iso. }
  split; [exact DD|]. intros Hm Ht. rewrite DD, F3.
  assert (Hg : 0 < gd) by lra.
  assert (0 <= tau / gd) by (apply div_nonneg; lra).
  rewrite frob_times by (apply div_nonneg; lra).
  assert (EF : forall X, X / p_dt P * frob (deviator (pdstrain p)) = X * gd) by (intros X; unfold gd, Rdiv; ring).
  rewrite EF.
  replace (2 * (mu + tau / gd) * gd) with (2 * (mu * gd + tau)) by (field; lra).
  split; [auto|]. assert (0 <= mu * gd) by (apply Rmult_le_pos; lra). lra.
Qed.

(** Below it the response is that of a viscous fluid of viscosity [mu_0], and the
    two branches meet at [gamma_c] when [gamma_c = tau_0/(mu_0-mu_s)]: both give
    the deviator [2 (mu_s + tau_0/gamma_c) de/dt] there. *)
Lemma p_C22_below_and_continuous : forall P S0 S ip p G p' G' gc, s_law S = Bingham ->
  apply_law P S0 S ip p G = Ok (p', G') -> 0 < p_dt P -> s_gamma_c S = Some gc ->
  let gd := frob (deviator (pdstrain p)) / p_dt P in gd <= gc ->
  exists mu0, s_mu_0 S = Some (Sc mu0) /\ deviator (pstress p') = pdev p' /\
    (0 <= mu0 -> frob (deviator (pstress p')) = 2 * mu0 * gd) /\
    (forall mu_s tau0, mu0 <> mu_s -> tau0 <> 0 -> gc = tau0 / (mu0 - mu_s) -> gd = gc ->
       pdev p' = times (2 * (mu_s + tau0 / gd) / p_dt P) (deviator (pdstrain p))).
Proof.
  intros P S0 S ip p G p' G' gc EL E Hdt EG gd Hgd. unfold apply_law in E. rewrite EL in E.
  destruct (bingham_out _ _ _ _ _ _ E) as (K & gc' & v & E1 & E2 & E3 & GD & PR & DS & ST & BE & _); [lra|].
  replace gc' with gc in * by congruence. fold gd in GD. rewrite GD in BE.
  destruct (BE Hgd) as (mu0 & F1 & F2). exists mu0. split; [auto|].
  assert (DD : deviator (pstress p') = pdev p').
  { rewrite ST, F2. apply dev_iso. }
  split; [exact DD|]. split.
  - intros Hm. rewrite DD, F2, frob_times by (apply div_nonneg; lra). unfold gd. field. lra.
  - intros mu tau Hmu Htau Hgc Heq. rewrite F2. f_equal. rewrite Heq, Hgc. field. repeat split; lra.
Qed.

Example x_C22_above_yield : exists P S G p' G', s_law S = Bingham /\ 0 < p_dt P /\
  apply_law P S S 0 ex_p_loc G = Ok (p', G') /\ s_gamma_c S = Some 1 /\
  1 < frob (deviator (pdstrain ex_p_loc)) / p_dt P.
Proof.
  destruct (grid_init_ok (ex_gridp (T := R)) ex_bounds ex_proper) as (G0 & _ & HG0).
  destruct (run_law Bingham 0 ltac:(cbn; tauto) ex_p_loc G0 ex_p_located eq_refl) as (p' & G' & E).
  eexists. eexists. eexists. exists p', G'. split; [|split; [|split; [exact E|]]].
  - reflexivity.
  - cbn. unfold lit. cbn. lra.
  - split; [reflexivity|].
    assert (1 <= frob (deviator (pdstrain ex_p_loc))).
    { rewrite <- sqrt_1. apply sqrt_le_1_alt. unfold inner. cbn. unfold tr3. cbn. lra. }
    apply (Rmult_lt_reg_r (p_dt (ex_params (T := R) ex_bounds))).
    + cbn. unfold lit. cbn. lra.
    + unfold Rdiv. rewrite Rmult_assoc, Rinv_l by (cbn; unfold lit; cbn; lra). cbn [ex_params p_dt].
      unfold lit. cbn [nofZ ndiv Num_R]. lra.
Qed.

(** ** C23 *)
Lemma Rpow_one_base y : Rpow 1 y = 1.
Proof.
  unfold Rpow. destruct (Rlt_dec 0 1); [|lra]. unfold Rpower. rewrite ln_1, Rmult_0_r. apply exp_0.
Qed.

Lemma vm_out P S p G p' G' : von_mises P S p G = Ok (p', G') ->
  exists K g k s, s_K S = Some K /\ s_G S = Some g /\ s_k S = Some k /\ s_s S = Some s /\
    let de := deviator (pdstrain p) in
    let fac := Rabs (inner (pdev p) de) / (2 * (k * k)) * Rpow (frob (pdev p) / (sqrt 2 * k)) (s - 2) in
    pdev p' = plus3 (pdev p) (times (2 * g) (plus3 de (times (- fac) (pdev p)))) /\
    psigma_kk p' = psigma_kk p + 3 * K * tr3 (pdstrain p) /\
    pstress p' = pstress p /\
    plus3 (pstress p') (pdstress p') = plus3 (pdev p') (iso (psigma_kk p' / 3)) /\
    pyield p' = frob (pdev p) / (sqrt 2 * k) - 1.
Proof.
  unfold von_mises. cbv zeta. intros E.
  assert (DE : forall d : M3 R, msub d (mdivs (mscale (trace d) eye) n3) = deviator d)
    by (intros d; apply m3_ext; cbn; unfold tr3, n3; unR; field).
  assert (IE : forall a b : M3 R, msum (mmulE a b) = inner a b)
    by (intros a b; unfold msum, inner; cbn; unR; ring).
  rewrite !DE, !IE, !msq_inner in E. cbn [nsqrt nabs ndiv nmul nsub nopp npow Num_R] in E.
  fold (frob (pdev p)) in E.
  pbinds E. injection E as <- _. clear E4.
  apply attr_ok in E0. apply attr_ok in E1. apply attr_ok in E2. apply attr_ok in E3.
  exists a, a0, a1, a2. do 4 (split; [auto|]). clear DE IE.
  cbn [psigma_kk pdev pstress pdstress pyield set]. cbv zeta.
  set (d := deviator (pdstrain p)) in *. clearbody d.
  set (fac := Rabs (inner (pdev p) d) / (2 * (a1 * a1)) * Rpow (frob (pdev p) / (sqrt 2 * a1)) (a2 - 2)).
  set (sk := psigma_kk p + 3 * a * tr3 (pdstrain p)).
  split; [|split; [reflexivity|split; [reflexivity|split; [|reflexivity]]]].
  - transitivity (madd (pdev p) (mscale (2 * a0) (msub d (mscale fac (pdev p))))); [reflexivity|].
    clearbody fac. apply m3_ext; cbn; ring.
  - transitivity (plus3 (pstress p) (msub (madd (madd (pdev p) (mscale (2 * a0) (msub d (mscale fac (pdev p)))))
      (mdivs (mscale sk eye) 3)) (pstress p))); [reflexivity|].
    transitivity (plus3 (madd (pdev p) (mscale (2 * a0) (msub d (mscale fac (pdev p))))) (iso (sk / 3))); [|reflexivity].
    clearbody fac sk. apply m3_ext; cbn; field.
Qed.

Lemma tr_plus a b : tr3 (plus3 a b) = tr3 a + tr3 b.
Proof. unfold tr3; cbn; ring. Qed.

Lemma p_C23_deviator_trace_free : forall P S0 S ip p G p' G', s_law S = VonMises ->
  apply_law P S0 S ip p G = Ok (p', G') -> tr3 (pdev p) = 0 ->
  exists K, s_K S = Some K /\ tr3 (pdev p') = 0 /\
    let s' := plus3 (pstress p') (pdstress p') in
    s' = plus3 (pdev p') (iso (psigma_kk p' / 3)) /\
    tr3 s' = psigma_kk p' /\ deviator s' = pdev p' /\
    psigma_kk p' = psigma_kk p + 3 * K * tr3 (pdstrain p).
Proof.
  intros P S0 S ip p G p' G' EL E HT. unfold apply_law in E. rewrite EL in E.
  destruct (vm_out _ _ _ _ _ _ E) as (K & g & k & s & E1 & E2 & E3 & E4 & ED & EK & ES & EF & _).
  exists K. split; [auto|]. cbv zeta.
  assert (T : tr3 (pdev p') = 0).
  { rewrite ED, tr_plus, tr_times, tr_plus, tr_times, tr_dev, HT. ring. }
  split; [auto|]. split; [auto|]. rewrite EF.
  assert (T2 : tr3 (plus3 (pdev p') (iso (psigma_kk p' / 3))) = psigma_kk p').
  { rewrite tr_plus, T. unfold tr3. cbn. field. }
  split; [auto|]. split; [|auto].
  unfold deviator. rewrite T2. apply m3_ext; cbn; field.
Qed.

(** On the yield surface, straining further along the deviator ([c >= 0], plus
    any volume change) leaves the deviator where it is, for every exponent; the
    unloading direction ([c < 0]) moves it at twice the elastic rate. *)
Lemma p_C23_saturation : forall P S0 S ip p G p' G' k g c, s_law S = VonMises ->
  apply_law P S0 S ip p G = Ok (p', G') -> s_k S = Some k -> s_G S = Some g -> 0 < k ->
  frob (pdev p) = sqrt 2 * k -> deviator (pdstrain p) = times c (pdev p) ->
  pyield p' = 0 /\
  (0 <= c -> pdev p' = pdev p) /\
  (c < 0 -> pdev p' = times (1 + 4 * g * c) (pdev p)).
Proof.
  intros P S0 S ip p G p' G' k g c EL E EK EG Hk HY HC. unfold apply_law in E. rewrite EL in E.
  destruct (vm_out _ _ _ _ _ _ E) as (K & g' & k' & s & E1 & E2 & E3 & E4 & ED & _ & _ & _ & EY).
  replace k' with k in * by congruence. replace g' with g in * by congruence.
  assert (H2 : 0 < sqrt 2) by (apply sqrt_lt_R0; lra).
  assert (HU : frob (pdev p) / (sqrt 2 * k) = 1) by (rewrite HY; field; lra).
  assert (HI : inner (pdev p) (pdev p) = 2 * (k * k)).
  { rewrite <- (sqrt_sqrt (inner (pdev p) (pdev p))) by apply inner_nonneg.
    fold (frob (pdev p)). rewrite HY. pose proof (sqrt_sqrt 2 ltac:(lra)). nra. }
  cbv zeta in ED. rewrite HU, Rpow_one_base, HC in ED.
  replace (inner (pdev p) (times c (pdev p))) with (c * (2 * (k * k))) in ED
    by (rewrite <- HI; unfold inner; cbn; ring).
  assert (HF : Rabs (c * (2 * (k * k))) / (2 * (k * k)) * 1 = Rabs c).
  { rewrite Rabs_mult, (Rabs_right (2 * (k * k))) by nra. field. lra. }
  rewrite HF in ED. split; [rewrite EY, HU; ring|].
  split; intros Hc.
  - rewrite Rabs_right in ED by lra. rewrite ED. apply m3_ext; cbn; ring.
  - rewrite Rabs_left in ED by lra. rewrite ED. apply m3_ext; cbn; ring.
Qed.

Definition sheared (p : particle R) : particle R :=
  p <| pdev := mkM3 1 0 0 0 (-1) 0 0 0 0 |> <| pdstrain := mkM3 4 0 0 0 (-2) 0 0 0 1 |>.
Lemma sheared_located P p : located P p -> located P (sheared p).
Proof. exact (fun H => H). Qed.
Example x_C23_saturation : exists P S G p p' G', s_law S = VonMises /\
  apply_law P S S 0 p G = Ok (p', G') /\ s_k S = Some 1 /\ frob (pdev (T := R) p) = sqrt 2 * 1 /\
  deviator (pdstrain p) = times 3 (pdev p) /\ tr3 (pdev p) = 0.
Proof.
  destruct (grid_init_ok (ex_gridp (T := R)) ex_bounds ex_proper) as (G0 & _ & HG0).
  pose (p := sheared ex_p_loc).
  assert (HL : located ex_gridp p) by (apply sheared_located; exact ex_p_located).
  destruct (run_law VonMises 0 ltac:(cbn; tauto) p G0 HL eq_refl) as (p' & G' & E).
  eexists. eexists. eexists. exists p, p', G'. split; [|split; [exact E|]].
  - reflexivity.
  - split; [reflexivity|]. split; [|split].
    + replace (sqrt 2 * 1) with (sqrt 2) by ring. unfold frob, inner. cbn. f_equal. ring.
    + apply m3_ext; cbn; unfold tr3; cbn; field.
    + unfold tr3. cbn. ring.
Qed.

(** ** C28 *)
(** One application: mass changes only for phase 0, after [t_0], above the floor. *)
Lemma p_C28_mass : forall P S0 S ip p G p' G', s_law S = ElasticTime ->
  apply_law P S0 S ip p G = Ok (p', G') -> 0 <= pm p ->
  pm p' <= pm p /\
  (pm p' <> pm p -> ip = 0%nat /\ exists t0 rf, s_t_0 S = Some t0 /\ s_rho_f S = Some rf /\
     t0 < p_t P /\ rf * pV p < pm p /\ pm p' = 95 / 100 * pm p) /\
  (forall rf, s_rho_f S = Some rf -> pm p <= rf * pV p -> pm p' = pm p) /\
  (forall rf, s_rho_f S = Some rf -> rf * pV p < pm p -> 95 / 100 * (rf * pV p) < pm p') /\
  pV p' = pV p.
Proof.
  intros P S0 S ip p G p' G' EL E HM.
  pose proof (law_effect _ _ _ _ _ _ _ _ E) as (LF & _).
  unfold apply_law in E. rewrite EL in E. unfold elastic_time in E. cbv zeta in E. pbinds E.
  assert (EM : pm p' = a) by (injection E as <- <-; reflexivity). clear E E1 E2 E3.
  assert (EV : pV p' = pV p) by (rewrite LF; reflexivity).
  rewrite EM, EV. clear LF EM EV.
  destruct (Nat.eqb_spec ip 0).
  - pbinds E0. apply attr_ok in E. cbn [nltb Num_R] in E0. destruct (Rltb a3 (p_t P)) eqn:ET.
    + apply Rltb_true in ET. pbinds E0. apply attr_ok in E1. injection E0 as <-.
      unfold lit. cbn [nltb nmul ndiv nofZ Num_R]. destruct (Rltb (a4 * pV p) (pm p)) eqn:EF.
      * apply Rltb_true in EF. split; [lra|]. split; [|split; [|split; [|reflexivity]]].
        -- intros _. split; [auto|]. exists a3, a4. do 4 (split; [auto|]). field.
        -- intros rf Hr Hle. rewrite E1 in Hr. injection Hr as <-. lra.
        -- intros rf Hr Hlt. rewrite E1 in Hr. injection Hr as <-. lra.
      * apply Rltb_false in EF. split; [lra|]. split; [intros Q; lra|]. split; [auto|]. split; [|reflexivity].
        intros rf Hr Hlt. rewrite E1 in Hr. injection Hr as <-. lra.
    + injection E0 as <-. split; [lra|]. split; [intros Q; lra|]. split; [auto|]. split; [|reflexivity].
      intros rf Hr Hlt. lra.
  - injection E0 as <-. split; [lra|]. split; [intros Q; lra|]. split; [auto|]. split; [|reflexivity].
    intros rf Hr Hlt. lra.
Qed.

(** A particle's history: law applications to a phase, with anything in between
    that keeps its mass and volume.  The mass never grows and never falls below
    [0.95 rho_f V] once it is above [rho_f V]; at or below that it stays. *)
Lemma p_C28_mass_floor : forall (Pn : nat -> params R) S0 S ip (p p' : nat -> particle R) (G G' : nat -> grid R) rf,
  s_law S = ElasticTime -> s_rho_f S = Some rf -> 0 < rf -> 0 < pV (p 0%nat) -> 0 <= pm (p 0%nat) ->
  (forall k, apply_law (Pn k) S0 S ip (p k) (G k) = Ok (p' k, G' k)) ->
  (forall k, pm (p (k + 1)%nat) = pm (p' k) /\ pV (p (k + 1)%nat) = pV (p' k)) ->
  (forall k, 0 <= pm (p k)) /\
  (forall i j, (i <= j)%nat -> pm (p j) <= pm (p i)) /\
  (rf * pV (p 0%nat) < pm (p 0%nat) -> forall k, 95 / 100 * (rf * pV (p 0%nat)) < pm (p k)) /\
  (forall i j, (i <= j)%nat -> pm (p i) <= rf * pV (p 0%nat) -> pm (p j) = pm (p i)).
Proof.
  intros Pn S0 S ip p p' G G' rf EL EF Hrf HV HM HE HC.
  assert (V : forall k, pV (p k) = pV (p 0%nat) /\ 0 <= pm (p k)).
  { induction k as [|k [IV IM]]; [auto|]. replace (Datatypes.S k) with (k + 1)%nat by lia.
    destruct (HC k) as [C1 C2]. rewrite C1, C2.
    destruct (p_C28_mass _ _ _ _ _ _ _ _ EL (HE k) IM) as (_ & D & _ & _ & W). split; [congruence|].
    destruct (Req_dec (pm (p' k)) (pm (p k))) as [Q|Q]; [lra|].
    destruct (D Q) as (_ & t0 & r & _ & _ & _ & _ & M). rewrite M. lra. }
  assert (ST : forall k, pm (p (k + 1)%nat) <= pm (p k) /\
    (pm (p k) <= rf * pV (p 0%nat) -> pm (p (k + 1)%nat) = pm (p k)) /\
    (rf * pV (p 0%nat) < pm (p k) -> 95 / 100 * (rf * pV (p 0%nat)) < pm (p (k + 1)%nat))).
  { intros k. destruct (V k) as [IV IM]. destruct (HC k) as [C1 _]. rewrite C1.
    destruct (p_C28_mass _ _ _ _ _ _ _ _ EL (HE k) IM) as (A & _ & B & C & _).
    rewrite IV in B, C. split; [auto|]. split; [apply B, EF|apply C, EF]. }
  split; [intros k; apply V|]. split; [|split].
  - intros i j Hij. induction Hij as [|j Hij IH]; [lra|].
    replace (Datatypes.S j) with (j + 1)%nat by lia. destruct (ST j). lra.
  - intros H0 k. induction k as [|k IH].
    + assert (0 < rf * pV (p 0%nat)) by (apply Rmult_lt_0_compat; auto). lra.
    + replace (Datatypes.S k) with (k + 1)%nat by lia. destruct (ST k) as (_ & B & C).
      destruct (Rle_lt_dec (pm (p k)) (rf * pV (p 0%nat))) as [Q|Q]; [rewrite B; auto|apply C; auto].
  - intros i j Hij Hle. induction Hij as [|j Hij IH]; [reflexivity|].
    replace (Datatypes.S j) with (j + 1)%nat by lia. destruct (ST j) as (_ & B & _).
    rewrite B; [exact IH|]. rewrite IH. exact Hle.
Qed.

Definition heavy (p : particle R) : particle R := p <| pm := 3 |> <| pV := 1 |>.
Lemma heavy_located P p : located P p -> located P (heavy p).
Proof. exact (fun H => H). Qed.

(** The mass does decay on the example. *)
Example x_C28_mass_floor : exists P S G p p' G', s_law S = ElasticTime /\ s_rho_f S = Some 1 /\ 0 < pV p /\
  1 * pV p < pm p /\ apply_law P S S 0 p G = Ok (p', G') /\ pm p' = 95 / 100 * pm p.
Proof.
  destruct (grid_init_ok (ex_gridp (T := R)) ex_bounds ex_proper) as (G0 & _ & HG0).
  assert (HP : exists P : params R, pG P = ex_gridp /\ p_t P = 5)
    by (exists (ex_params ex_bounds <| p_t := 5 |>); split; reflexivity).
  destruct HP as (P & HG & HT).
  assert (Hp : exists p, located ex_gridp p /\ pm p = 3 /\ pV p = 1).
  { exists (heavy ex_p_loc). split; [|split; reflexivity]. apply heavy_located. exact ex_p_located. }
  destruct Hp as (p & HL & Hm & HV). rewrite <- HG in HL.
  pose (S := ex_solid_sc (T := R) ElasticTime).
  assert (HS : s_law S = ElasticTime /\ s_t_0 S = Some 0 /\ s_rho_f S = Some 1 /\ s_E_0 S = Some 1 /\ s_nu S = Some 0)
    by (repeat split; reflexivity).
  clearbody S. destruct HS as (S1 & S2 & S3 & S4 & S5).
  assert (E : exists p' G', apply_law P S S 0 p (wipe P G0) = Ok (p', G') /\ pm p' = 95 / 100 * 3).
  { unfold apply_law. rewrite S1. unfold elastic_time. rewrite S2, S3, S4, S5, HT, Hm, HV.
    cbn [attr bind Nat.eqb nltb Num_R nmul].
    destruct (Rltb 0 5) eqn:B; [|apply Rltb_false in B; lra]. cbn [bind].
    destruct (Rltb (1 * 1) 3) eqn:B2; [|apply Rltb_false in B2; lra].
    match goal with |- context [visualise ?Q ?MP ?fs (wipe ?Q ?G)] =>
      destruct (vis_ex Q MP fs G ltac:(rewrite HG; exact ex_proper) HL) as [G' E]; rewrite E end.
    cbn [bind]. eexists. exists G'. split; [reflexivity|]. cbn [pm set]. unfold lit. cbn. field. }
  destruct E as (p' & G' & E & EM).
  exists P, S, (wipe P G0), p, p', G'. rewrite HV, Hm.
  split; [auto|]. split; [auto|]. split; [lra|]. split; [lra|]. split; [exact E|exact EM].
Qed.

(** ** C51 *)
(** [energy] is a triple: kinetic, gravitational, elastic. *)
Lemma p_C51_kinetic : forall P sv p, 0 < pm p ->
  let k := fst (fst (energy P sv p)) in
  0 <= k /\ (k = 0 <-> vel sv p = v0) /\
  k = pm p * (vx (vel sv p) * vx (vel sv p) + vy (vel sv p) * vy (vel sv p) + vz (vel sv p) * vz (vel sv p)) / 2.
Proof.
  intros P sv p Hm. cbv zeta.
  assert (K : fst (fst (energy P sv p)) = pm p * (vx (vel sv p) * vx (vel sv p) + vy (vel sv p) * vy (vel sv p) +
    vz (vel sv p) * vz (vel sv p)) / 2).
  { unfold energy. cbn [fst]. unfold nhalf, nsq, n2, n1. unR. cbn. field. }
  rewrite K. clear K. destruct (vel sv p) as [a b c]. cbn [vx vy vz].
  assert (0 <= a * a + b * b + c * c) by nra.
  split; [|split; [split|reflexivity]].
  - apply Rmult_le_pos; [|lra]. apply Rmult_le_pos; lra.
  - intros Z. assert (Z2 : a * a + b * b + c * c = 0) by nra.
    unfold v0. cbn. f_equal; nra.
  - intros Z. injection Z as -> -> ->. cbn. field.
Qed.

(** Potential in the plane [z=0]: with gravity [g] turned by [theta], the height is
    [|x| sin theta + |y| cos theta]; for level gravity this is [|y|]. *)
Lemma p_C51_gravitational : forall P sv p, vx (px p) <> 0 -> vz (px p) = 0 ->
  let L := p_loads P in
  snd (fst (energy P sv p)) =
    - pm p * ld_g L * (Rabs (vx (px p)) * sin (ld_theta L) + Rabs (vy (px p)) * cos (ld_theta L)) /\
  (ld_theta L = 0 -> snd (fst (energy P sv p)) = - pm p * ld_g L * Rabs (vy (px p))).
Proof.
  intros P sv p Hx Hz L.
  assert (M : snd (fst (energy P sv p)) =
    - pm p * ld_g L * (Rabs (vx (px p)) * sin (ld_theta L) + Rabs (vy (px p)) * cos (ld_theta L))).
  { unfold energy. cbn [fst snd]. rewrite Hz. fold L.
    set (x := vx (px p)) in *. set (y := vy (px p)). clearbody x y.
    unfold nsq. cbn [nmul nadd ndiv nopp nabs nsin natan npow n0 Num_R].
    replace nhalf with (/ 2) by (unfold nhalf, n2, n1; cbn; unR; field).
    assert (HS : 0 < x * x + y * y).
    { assert (0 < x * x) by (destruct (Rtotal_order x 0) as [|[|]]; [nra|contradiction|nra]). nra. }
    f_equal. replace (x * x + y * y + 0 * 0) with (x * x + y * y) by ring.
    unfold Rpow. destruct (Rlt_dec 0 (x * x + y * y)); [|lra].
    rewrite Rpower_sqrt by auto. rewrite sin_plus, sin_atan, cos_atan.
    set (t := Rabs (y / x)).
    assert (Ht : Rabs x * t = Rabs y).
    { unfold t. rewrite <- Rabs_mult. f_equal. field. auto. }
    assert (HR : sqrt (x * x + y * y) = Rabs x * sqrt (1 + t²)).
    { rewrite <- sqrt_Rsqr_abs, <- sqrt_mult by (try apply Rle_0_sqr; unfold Rsqr; nra).
      f_equal. unfold t. rewrite <- Rsqr_abs. unfold Rsqr. field. auto. }
    assert (HT : 0 < sqrt (1 + t²)) by (apply sqrt_lt_R0; unfold Rsqr; nra).
    rewrite HR, <- Ht. field. lra. }
  split; [exact M|]. intros T. rewrite M, T, sin_0, cos_0. ring.
Qed.

Lemma p_C51_elastic : forall P sv p K g, 0 <= pV p -> 0 <= K -> 0 <= g ->
  hooke K g (pstrain p) (pstress p) ->
  let s := snd (energy P sv p) in
  0 <= s /\ s = pV p / 2 * (K * (tr3 (pstrain p) * tr3 (pstrain p)) +
                            2 * g * inner (deviator (pstrain p)) (deviator (pstrain p))).
Proof.
  intros P sv p K g HV HK Hg [H1 H2] s.
  assert (E : s = pV p / 2 * (K * (tr3 (pstrain p) * tr3 (pstrain p)) +
                              2 * g * inner (deviator (pstrain p)) (deviator (pstrain p)))).
  { unfold s, energy. cbn [snd]. set (e := pstrain p) in *. set (sg := pstress p) in *. clearbody e sg.
    assert (SE : sg = plus3 (times (2 * g) (deviator e)) (iso (K * tr3 e))).
    { rewrite <- H2. replace (K * tr3 e) with (tr3 sg / 3) by (rewrite H1; field). apply m3_ext; cbn; ring. }
    rewrite SE. clear SE H1 H2 s sg. unfold nhalf, n2, n1, msum, inner. cbn. unfold tr3. unR. field. }
  split; [|exact E]. rewrite E. pose proof (inner_nonneg (deviator (pstrain p))).
  apply Rmult_le_pos; [lra|]. apply Rplus_le_le_0_compat; apply Rmult_le_pos; nra.
Qed.

Example x_C51_energy : exists (P : params R) (sv : V3 R) (p : particle R), 0 < pm p /\ 0 <= pV p /\
  vel sv p <> v0 /\ vx (px p) <> 0 /\ vz (px p) = 0 /\ hooke 3 2 (pstrain p) (pstress p) /\ 0 < snd (energy P sv p).
Proof.
  exists (ex_params ex_bounds), v0,
    (ex_p_loc <| pm := 3 |> <| pV := 1 |> <| pv := Own (mkV3 1 0 0) |> <| px := mkV3 1 2 0 |>
              <| pstrain := mkM3 1 0 0 0 0 0 0 0 0 |> <| pstress := init_stress 3 2 (mkM3 1 0 0 0 0 0 0 0 0) |>).
  split; [cbn; lra|]. split; [cbn; lra|].
  split; [intros E; apply (f_equal vx) in E; cbn in E; lra|].
  split; [cbn; lra|]. split; [reflexivity|]. split; [exact (init_stress_hooke 3 2 _)|].
  unfold energy. cbn [snd set pstress pstrain pV]. unfold init_stress, msum, nhalf, n2, n3, n1. cbn. unR. lra.
Qed.
