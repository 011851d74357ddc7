(** * Strains, constitutive laws and energies: C16-C23, C28, C51.
    Statements only; the proofs are in ThmLaws.v. *)
From Coq Require Import ZArith Reals List Bool Arith Lra Lia.
From Verif Require Import State NumR Spec SpecLaws LibList LibR ModelGrid ModelConstit ModelParticle ModelMPList
  ProofsGrid ProofsMap ProofsP2G ProofsLaws ProofsSym Concrete ThmMapping.
Import ListNotations.
From Verif Require Import ThmLaws.
Local Open Scope R_scope.

Theorem C16_affine_strain : forall P G p p1 p2 p' c A,
  proper (pG P) -> grid_ok (pG P) G -> in_dom (pG P) (px p) -> 0 <= p_Mtol P ->
  length (gm G) = nodes (pG P) -> length (gq G) = nodes (pG P) ->
  (forall k, (k < nodes (pG P))%nat -> cell_corner (pG P) (px p) k ->
     p_Mtol P < nth k (gm G) 0 /\
     forall a, comp a (nth k (gq G) v0) = nth k (gm G) 0 * comp a (affine c A (node_x (pG P) k) (node_y (pG P) k))) ->
  get_reference_node P G p = Ok p1 -> get_basis_functions G p1 = Ok p2 -> update_strain P G p2 = Ok p' ->
  let dt := p_dt P in
  pdstrain p' = mkM3 (dt * xx A) (dt * (xy A + yx A) / 2) (dt * zx A / 2)
                     (dt * (xy A + yx A) / 2) (dt * yy A) (dt * zy A / 2)
                     (dt * zx A / 2) (dt * zy A / 2) 0 /\
  pstrain p' = plus3 (pstrain p) (pdstrain p').
Proof. exact p_C16_affine_strain. Qed.
Print Assumptions C16_affine_strain.

(** Translation and rotation of the plane strain nothing. *)
Theorem C16_rigid_motion : forall P G p p1 p2 p' c w,
  proper (pG P) -> grid_ok (pG P) G -> in_dom (pG P) (px p) -> 0 <= p_Mtol P ->
  length (gm G) = nodes (pG P) -> length (gq G) = nodes (pG P) ->
  (forall k, (k < nodes (pG P))%nat -> cell_corner (pG P) (px p) k ->
     p_Mtol P < nth k (gm G) 0 /\
     forall a, comp a (nth k (gq G) v0) =
       nth k (gm G) 0 * comp a (mkV3 (vx c - w * node_y (pG P) k) (vy c + w * node_x (pG P) k) (vz c))) ->
  get_reference_node P G p = Ok p1 -> get_basis_functions G p1 = Ok p2 -> update_strain P G p2 = Ok p' ->
  pdstrain p' = iso 0 /\ pstrain p' = pstrain p.
Proof. exact p_C16_rigid_motion. Qed.
Print Assumptions C16_rigid_motion.

(** Instance: C16_rigid_motion_example in PropsInst.v. *)

Example C16_affine_strain_example : exists G p1 p2 p',
  let P := ex_params ex_bounds in
  proper (pG P) /\ grid_ok (pG P) G /\ in_dom (pG P) (px (T := R) ex_p1) /\ 0 <= p_Mtol P /\
  length (gm G) = nodes (pG P) /\ length (gq G) = nodes (pG P) /\
  (forall k, (k < nodes (pG P))%nat -> cell_corner (pG P) (px ex_p1) k ->
     p_Mtol P < nth k (gm G) 0 /\
     forall a, comp a (nth k (gq G) v0) = nth k (gm G) 0 *
       comp a (affine (mkV3 1 0 0) (mkM3 0 2 0 0 0 0 0 0 0) (node_x (pG P) k) (node_y (pG P) k))) /\
  get_reference_node P G ex_p1 = Ok p1 /\ get_basis_functions G p1 = Ok p2 /\ update_strain P G p2 = Ok p' /\
  xy (pdstrain p') = 1/10.
Proof. exact x_C16_affine_strain. Qed.

Theorem C17_strain_symmetric : forall P G p p', update_strain P G p = Ok p' ->
  symmetric (pdstrain p') /\ (symmetric (pstrain p) -> symmetric (pstrain p')).
Proof. exact p_C17_strain_symmetric. Qed.
Print Assumptions C17_strain_symmetric.

(** Instance: C17_strain_symmetric_example in PropsCasesStep.v. *)

(** One update of the stress, for every law. *)
Theorem C17_stress_symmetric : forall P S0 S ip p G p1 p' G',
  update_strain P G p = Ok p1 -> update_stress P S0 S ip p1 G = Ok (p', G') ->
  symmetric (pstress p) -> symmetric (pdev p) -> symmetric (pdstress p) ->
  symmetric (pstress p') /\ symmetric (pdev p') /\ symmetric (pdstress p').
Proof. exact p_C17_stress_symmetric. Qed.
Print Assumptions C17_stress_symmetric.

Example C17_stress_symmetric_example : forall l,
  In l [Elastic; ElasticTime; VonMises; DpRate; Viscous; Bingham; KenKamrin; LinearMu; KenSimple] ->
  exists p G p1 p' G',
  update_strain (ex_params ex_bounds) G p = Ok p1 /\
  update_stress (ex_params ex_bounds) (ex_solid_sc l) (ex_solid_sc l) 0 p1 G = Ok (p', G') /\
  symmetric (pstress (T := R) p) /\ xy (pstress p) = 2 /\ symmetric (pdev p) /\ symmetric (pdstress p).
Proof. exact x_C17_stress_symmetric. Qed.

(** What the correction of particle.py:158 is: because [self.L] and [self.L_T]
    are one array, it contains twice the strain rate and never the spin. *)
Theorem C18_correction_exact_partial : forall P S0 S ip p G p1 p2 p3 G2 c A,
  proper (pG P) -> located (pG P) p ->
  length (gm G) = nodes (pG P) -> length (gq G) = nodes (pG P) ->
  (forall k, (k < nodes (pG P))%nat -> cell_corner (pG P) (px p) k ->
     p_Mtol P < nth k (gm G) 0 /\
     forall a, comp a (nth k (gq G) v0) = nth k (gm G) 0 * comp a (affine c A (node_x (pG P) k) (node_y (pG P) k))) ->
  0 <= p_Mtol P ->
  update_strain P G p = Ok p1 ->
  apply_law P S0 S ip p1 G = Ok (p2, G2) -> update_stress P S0 S ip p1 G = Ok (p3, G2) ->
  let D := mkM3 (xx A) ((xy A + yx A) / 2) (zx A / 2) ((xy A + yx A) / 2) (yy A) (zy A / 2) (zx A / 2) (zy A / 2) 0 in
  pstress p3 = plus3 (plus3 (pstress p2) (pdstress p2))
                     (times (- (2 * p_dt P)) (plus3 (mm D (pstress p2)) (mm (pstress p2) D))).
Proof. exact p_C18_correction_exact_partial. Qed.
Print Assumptions C18_correction_exact_partial.

(** Instance: C18_correction_exact_partial_example in PropsInst.v. *)

(** A spinning elastic particle keeps its stress components; an objective
    update would turn them by [W s - s W] per unit time. *)
Theorem C18_spin_refuted :
  (forall P S0 S ip p G p1 G1 p' c w K Gs,
    proper (pG P) -> located (pG P) p ->
    length (gm G) = nodes (pG P) -> length (gq G) = nodes (pG P) ->
    (forall k, (k < nodes (pG P))%nat -> cell_corner (pG P) (px p) k ->
       p_Mtol P < nth k (gm G) 0 /\
       forall a, comp a (nth k (gq G) v0) =
         nth k (gm G) 0 * comp a (mkV3 (vx c - w * node_y (pG P) k) (vy c + w * node_x (pG P) k) (vz c))) ->
    0 <= p_Mtol P -> s_law S = Elastic -> s_K S = Some K -> s_G S = Some Gs ->
    update_strain P G p = Ok p1 -> update_stress P S0 S ip p1 G = Ok (p', G1) ->
    pstress p' = pstress p) /\
  exists W s : M3 R, mtr W = times (-1) W /\ symmetric s /\ plus3 (mm W s) (mm s (mtr W)) <> iso 0.
Proof. exact p_C18_spin_refuted. Qed.
Print Assumptions C18_spin_refuted.

Theorem C19_hooke : forall P S0 S ip p G p' G', s_law S = Elastic ->
  apply_law P S0 S ip p G = Ok (p', G') ->
  exists K g, s_K S = Some K /\ s_G S = Some g /\
    tr3 (pdstress p') = 3 * K * tr3 (pdstrain p) /\
    deviator (pdstress p') = times (2 * g) (deviator (pdstrain p)) /\
    pstress p' = pstress p /\ pm p' = pm p.
Proof. exact p_C19_hooke. Qed.
Print Assumptions C19_hooke.

(** Instance: C19_hooke_example in PropsCases.v. *)

(** The increment is a linear function of the strain increment. *)
Theorem C19_linear : forall P S0 S ip p q r G1 G2 G3 p' q' r' G1' G2' G3' a b, s_law S = Elastic ->
  apply_law P S0 S ip p G1 = Ok (p', G1') -> apply_law P S0 S ip q G2 = Ok (q', G2') ->
  apply_law P S0 S ip r G3 = Ok (r', G3') ->
  pdstrain r = plus3 (times a (pdstrain p)) (times b (pdstrain q)) ->
  pdstress r' = plus3 (times a (pdstress p')) (times b (pdstress q')).
Proof. exact p_C19_linear. Qed.
Print Assumptions C19_linear.

(** Instance: C19_linear_example in PropsInst.v. *)

(** Isotropy: turning the strain increment turns the stress increment. *)
Theorem C19_isotropic : forall P S0 S ip p q G1 G2 p' q' G1' G2' Q, s_law S = Elastic -> orthogonal Q ->
  apply_law P S0 S ip p G1 = Ok (p', G1') -> apply_law P S0 S ip q G2 = Ok (q', G2') ->
  pdstrain q = turn Q (pdstrain p) -> pdstress q' = turn Q (pdstress p').
Proof. exact p_C19_isotropic. Qed.
Print Assumptions C19_isotropic.

Example C19_isotropic_example : exists P S G p' G', s_law S = Elastic /\
  apply_law P S S 0 ex_p_loc G = Ok (p', G') /\ xy (pdstrain ex_p_loc) = 2 /\
  orthogonal (mkM3 0 (-1) 0 1 0 0 0 0 1).
Proof. exact x_C19_isotropic. Qed.

Theorem C20_initial_state : forall P S0 S x y phi p K g,
  particle_init P S0 S x y phi = Ok p -> s_K S = Some K -> s_G S = Some g -> K <> 0 -> g <> 0 ->
  hooke K g (pstrain p) (pstress p) /\ symmetric (pstress p) /\ symmetric (pstrain p) /\
  ppressure p = tr3 (pstress p) / 3 /\ psigma_kk p = tr3 (pstress p) /\
  pdev p = deviator (pstress p) /\ tr3 (pdev p) = 0.
Proof. exact p_C20_initial_state. Qed.
Print Assumptions C20_initial_state.

(** The lithostatic state: vertical stress grows linearly with the depth below
    the surface and balances the weight of the material above. *)
Theorem C20_lithostatic : forall P S0 S x y phi p, p_pressure P = PLithostatic ->
  particle_init P S0 S x y phi = Ok p ->
  let depth := match top_gap (pG P) with Some g => y_M (pG P) - g - y | None => y_M (pG P) - y end in
  let th := ld_theta (p_loads P) in
  yy (pstress p) = s_rho S * (p_max_g P * cos th) * depth /\
  xy (pstress p) = s_rho S * (p_max_g P * sin th) * depth /\
  xx (pstress p) = yy (pstress p) /\ zz (pstress p) = yy (pstress p) /\
  psigmav p = yy (pstress p) /\ psigmah p = xx (pstress p).
Proof. exact p_C20_lithostatic. Qed.
Print Assumptions C20_lithostatic.

(** Instance: C20_lithostatic_example in PropsCases.v. *)

(** The compression state is isotropic with the requested pressure. *)
Theorem C20_compression : forall P S0 S x y phi p p0, p_pressure P = PCompression -> p_init_press P = Some p0 ->
  particle_init P S0 S x y phi = Ok p -> pstress p = iso (- p0) /\ ppressure p = - p0.
Proof. exact p_C20_compression. Qed.
Print Assumptions C20_compression.

(** Instance: C20_compression_example in PropsInst.v. *)

Example C20_initial_state_example : exists p : particle R,
  particle_init (ex_params ex_bounds <| p_pressure := PLithostatic |>) (ex_solid Elastic) (ex_solid Elastic) 1 1 [] = Ok p /\
  s_K (ex_solid (T := R) Elastic) = Some 3 /\ s_G (ex_solid (T := R) Elastic) = Some 2 /\
  yy (pstress p) = - 2.
Proof. exact x_C20_initial_state. Qed.

Theorem C21_viscous : forall P S0 S ip p G p' G', s_law S = Viscous ->
  apply_law P S0 S ip p G = Ok (p', G') -> p_dt P <> 0 ->
  exists K mu_s mu_v, s_K S = Some K /\ s_mu_s S = Some mu_s /\ s_mu_v S = Some mu_v /\
    let d := pdstrain p in let s' := plus3 (pstress p') (pdstress p') in
    ppressure p' - ppressure p = K * tr3 d / 3 /\
    tr3 s' / 3 = ppressure p' - mu_v * (tr3 d / 3) / p_dt P /\
    deviator s' = times (2 * mu_s) (times (/ p_dt P) (deviator d)) /\
    tr3 (pdev p') = 0.
Proof. exact p_C21_viscous. Qed.
Print Assumptions C21_viscous.

Example C21_viscous_example : exists P S G p' G', s_law S = Viscous /\
  apply_law P S S 0 ex_p_loc G = Ok (p', G') /\ xx (deviator (pdstrain ex_p_loc)) = 2 / 3.
Proof. exact x_C21_viscous. Qed.

(** Above the critical shear rate the norm of the deviatoric stress is
    [2 (mu_s gammadot + tau_0)], at least twice the yield stress. *)
Theorem C22_above_yield : forall P S0 S ip p G p' G' gc, s_law S = Bingham ->
  apply_law P S0 S ip p G = Ok (p', G') -> 0 < p_dt P -> s_gamma_c S = Some gc -> 0 <= gc ->
  let gd := frob (deviator (pdstrain p)) / p_dt P in gc < gd ->
  exists mu_s tau0, s_mu_s S = Some mu_s /\ s_tau_0 S = Some tau0 /\
    deviator (pstress p') = pdev p' /\
    (0 <= mu_s -> 0 <= tau0 ->
     frob (deviator (pstress p')) = 2 * (mu_s * gd + tau0) /\ 2 * tau0 <= frob (deviator (pstress p'))).
Proof. exact p_C22_above_yield. Qed.
Print Assumptions C22_above_yield.

(** Below it the response is that of a viscous fluid of viscosity [mu_0], and the
    two branches meet at [gamma_c] when [gamma_c = tau_0/(mu_0-mu_s)]: both give
    the deviator [2 (mu_s + tau_0/gamma_c) de/dt] there. *)
Theorem C22_below_and_continuous : forall P S0 S ip p G p' G' gc, s_law S = Bingham ->
  apply_law P S0 S ip p G = Ok (p', G') -> 0 < p_dt P -> s_gamma_c S = Some gc ->
  let gd := frob (deviator (pdstrain p)) / p_dt P in gd <= gc ->
  exists mu0, s_mu_0 S = Some (Sc mu0) /\ deviator (pstress p') = pdev p' /\
    (0 <= mu0 -> frob (deviator (pstress p')) = 2 * mu0 * gd) /\
    (forall mu_s tau0, mu0 <> mu_s -> tau0 <> 0 -> gc = tau0 / (mu0 - mu_s) -> gd = gc ->
       pdev p' = times (2 * (mu_s + tau0 / gd) / p_dt P) (deviator (pdstrain p))).
Proof. exact p_C22_below_and_continuous. Qed.
Print Assumptions C22_below_and_continuous.

(** Instance: C22_below_and_continuous_example in PropsInst.v. *)

Example C22_above_yield_example : exists P S G p' G', s_law S = Bingham /\ 0 < p_dt P /\
  apply_law P S S 0 ex_p_loc G = Ok (p', G') /\ s_gamma_c S = Some 1 /\
  1 < frob (deviator (pdstrain ex_p_loc)) / p_dt P.
Proof. exact x_C22_above_yield. Qed.

Theorem C23_deviator_trace_free : forall P S0 S ip p G p' G', s_law S = VonMises ->
  apply_law P S0 S ip p G = Ok (p', G') -> tr3 (pdev p) = 0 ->
  exists K, s_K S = Some K /\ tr3 (pdev p') = 0 /\
    let s' := plus3 (pstress p') (pdstress p') in
    s' = plus3 (pdev p') (iso (psigma_kk p' / 3)) /\
    tr3 s' = psigma_kk p' /\ deviator s' = pdev p' /\
    psigma_kk p' = psigma_kk p + 3 * K * tr3 (pdstrain p).
Proof. exact p_C23_deviator_trace_free. Qed.
Print Assumptions C23_deviator_trace_free.

(** Instance: C23_deviator_trace_free_example in PropsCases.v. *)

(** On the yield surface, straining further along the deviator ([c >= 0], plus
    any volume change) leaves the deviator where it is, for every exponent; the
    unloading direction ([c < 0]) moves it at twice the elastic rate. *)
Theorem C23_saturation : forall P S0 S ip p G p' G' k g c, s_law S = VonMises ->
  apply_law P S0 S ip p G = Ok (p', G') -> s_k S = Some k -> s_G S = Some g -> 0 < k ->
  frob (pdev p) = sqrt 2 * k -> deviator (pdstrain p) = times c (pdev p) ->
  pyield p' = 0 /\
  (0 <= c -> pdev p' = pdev p) /\
  (c < 0 -> pdev p' = times (1 + 4 * g * c) (pdev p)).
Proof. exact p_C23_saturation. Qed.
Print Assumptions C23_saturation.

Example C23_saturation_example : exists P S G p p' G', s_law S = VonMises /\
  apply_law P S S 0 p G = Ok (p', G') /\ s_k S = Some 1 /\ frob (pdev (T := R) p) = sqrt 2 * 1 /\
  deviator (pdstrain p) = times 3 (pdev p) /\ tr3 (pdev p) = 0.
Proof. exact x_C23_saturation. Qed.

(** One application: mass changes only for phase 0, after [t_0], above the floor. *)
Theorem C28_mass : forall P S0 S ip p G p' G', s_law S = ElasticTime ->
  apply_law P S0 S ip p G = Ok (p', G') -> 0 <= pm p ->
  pm p' <= pm p /\
  (pm p' <> pm p -> ip = 0%nat /\ exists t0 rf, s_t_0 S = Some t0 /\ s_rho_f S = Some rf /\
     t0 < p_t P /\ rf * pV p < pm p /\ pm p' = 95 / 100 * pm p) /\
  (forall rf, s_rho_f S = Some rf -> pm p <= rf * pV p -> pm p' = pm p) /\
  (forall rf, s_rho_f S = Some rf -> rf * pV p < pm p -> 95 / 100 * (rf * pV p) < pm p') /\
  pV p' = pV p.
Proof. exact p_C28_mass. Qed.
Print Assumptions C28_mass.

(** A particle's history: law applications to a phase, with anything in between
    that keeps its mass and volume.  The mass never grows and never falls below
    [0.95 rho_f V] once it is above [rho_f V]; at or below that it stays. *)
Theorem C28_mass_floor : forall (Pn : nat -> params R) S0 S ip (p p' : nat -> particle R) (G G' : nat -> grid R) rf,
  s_law S = ElasticTime -> s_rho_f S = Some rf -> 0 < rf -> 0 < pV (p 0%nat) -> 0 <= pm (p 0%nat) ->
  (forall k, apply_law (Pn k) S0 S ip (p k) (G k) = Ok (p' k, G' k)) ->
  (forall k, pm (p (k + 1)%nat) = pm (p' k) /\ pV (p (k + 1)%nat) = pV (p' k)) ->
  (forall k, 0 <= pm (p k)) /\
  (forall i j, (i <= j)%nat -> pm (p j) <= pm (p i)) /\
  (rf * pV (p 0%nat) < pm (p 0%nat) -> forall k, 95 / 100 * (rf * pV (p 0%nat)) < pm (p k)) /\
  (forall i j, (i <= j)%nat -> pm (p i) <= rf * pV (p 0%nat) -> pm (p j) = pm (p i)).
Proof. exact p_C28_mass_floor. Qed.
Print Assumptions C28_mass_floor.

(** The mass does decay on the example. *)
Example C28_mass_floor_example : exists P S G p p' G', s_law S = ElasticTime /\ s_rho_f S = Some 1 /\ 0 < pV p /\
  1 * pV p < pm p /\ apply_law P S S 0 p G = Ok (p', G') /\ pm p' = 95 / 100 * pm p.
Proof. exact x_C28_mass_floor. Qed.

(** [energy] is a triple: kinetic, gravitational, elastic. *)
Theorem C51_kinetic : forall P sv p, 0 < pm p ->
  let k := fst (fst (energy P sv p)) in
  0 <= k /\ (k = 0 <-> vel sv p = v0) /\
  k = pm p * (vx (vel sv p) * vx (vel sv p) + vy (vel sv p) * vy (vel sv p) + vz (vel sv p) * vz (vel sv p)) / 2.
Proof. exact p_C51_kinetic. Qed.
Print Assumptions C51_kinetic.

(** Instance: C51_kinetic_example in PropsCasesStep.v. *)

(** Potential in the plane [z=0]: with gravity [g] turned by [theta], the height is
    [|x| sin theta + |y| cos theta]; for level gravity this is [|y|]. *)
Theorem C51_gravitational : forall P sv p, vx (px p) <> 0 -> vz (px p) = 0 ->
  let L := p_loads P in
  snd (fst (energy P sv p)) =
    - pm p * ld_g L * (Rabs (vx (px p)) * sin (ld_theta L) + Rabs (vy (px p)) * cos (ld_theta L)) /\
  (ld_theta L = 0 -> snd (fst (energy P sv p)) = - pm p * ld_g L * Rabs (vy (px p))).
Proof. exact p_C51_gravitational. Qed.
Print Assumptions C51_gravitational.

(** Instance: C51_gravitational_example in PropsCasesStep.v. *)

Theorem C51_elastic : forall P sv p K g, 0 <= pV p -> 0 <= K -> 0 <= g ->
  hooke K g (pstrain p) (pstress p) ->
  let s := snd (energy P sv p) in
  0 <= s /\ s = pV p / 2 * (K * (tr3 (pstrain p) * tr3 (pstrain p)) +
                            2 * g * inner (deviator (pstrain p)) (deviator (pstrain p))).
Proof. exact p_C51_elastic. Qed.
Print Assumptions C51_elastic.

(** Instance: C51_elastic_example in PropsCasesStep.v. *)

Example C51_energy_example : exists (P : params R) (sv : V3 R) (p : particle R), 0 < pm p /\ 0 <= pV p /\
  vel sv p <> v0 /\ vx (px p) <> 0 /\ vz (px p) = 0 /\ hooke 3 2 (pstrain p) (pstress p) /\ 0 < snd (energy P sv p).
Proof. exact x_C51_energy. Qed.
