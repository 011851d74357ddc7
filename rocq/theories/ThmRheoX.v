(** * The law ken_simple never sees the shear rate: C79. *)
From Coq Require Import ZArith List Bool Arith Lia QArith Reals Lra.
From Verif Require Import State NumR NumX NumQ LibR LibList Spec SpecStep SpecLaws ModelGrid ModelConstit ModelParticle ModelMPList ModelIntegr ModelMain ProofsGrid
  ProofsMap ProofsLaws ProofsSym ProofsP2G ProofsInOut ProofsHist ProofsX Concrete ThmMapping ThmLaws ThmLawsX ThmInOut ThmHist ThmFields ThmRheo.
Import ListNotations.
Local Open Scope R_scope.

(** ** C79 *)
Lemma ken_simple_eta T (N : Num T) (P : params T) S0 S ip p G p' G' : s_law S = KenSimple -> apply_law P S0 S ip p G = Ok (p', G') ->
  pgammadot p' = pgammadot p /\
  exists mu emax, s_mu_0 S = Some (Sc mu) /\ s_eta_max S = Some emax /\
    peta p' = nmin (nan0 (n2 * nsqrt n2 * mu * nabs (ppressure p) / pgammadot p)%num) emax /\
    pdev p' = mdivs (mscale (peta p') (msub (pdstrain p) (mscale (trace (pdstrain p) / n3)%num eye))) (p_dt P) /\
    exists K, s_K S = Some K /\ let pr := (ppressure p + K * (trace (pdstrain p) / n3))%num in ppressure p' = if (n0 <? pr)%num then n0 else pr.
Proof.
  intros HL E. unfold apply_law in E. rewrite HL in E. unfold ken_simple in E. apply bind_ok in E. destruct E as (sb & _ & E).
  apply bind_ok in E. destruct E as (m0 & E0 & E). apply bind_ok in E. destruct E as (mu & E1 & E).
  apply bind_ok in E. destruct E as (emax & E2 & E). apply bind_ok in E. destruct E as (K & E3 & E).
  destruct (negb _); [discriminate E|]. pbinds E. apply okp_inj in E. destruct E as [E _].
  destruct (s_mu_0 S) as [m|]; [injection E0 as <-|discriminate]. destruct m as [m|l]; [injection E1 as <-|discriminate].
  destruct (s_eta_max S) as [m'|]; [injection E2 as <-|discriminate].
  split; [rewrite <- E; reflexivity|]. exists m, m'. do 2 (split; [reflexivity|]). split; [rewrite <- E; reflexivity|]. split; [rewrite <- E; reflexivity|].
  destruct (s_K S) as [k|]; [injection E3 as <-|discriminate]. exists k. split; [reflexivity|]. rewrite <- E. reflexivity.
Qed.
(** Two points with the same pressure and the same stored shear rate get the same viscosity, however differently
    they deform; and the stored shear rate is not updated. *)
Lemma p_C79_rate_blind : forall (T : Type) (N : Num T) (P : params T) S0 S ip ip' (p q p' q' : particle T) (G G1 G' G1' : grid T),
  s_law S = KenSimple -> apply_law P S0 S ip p G = Ok (p', G') -> apply_law P S0 S ip' q G1 = Ok (q', G1') ->
  ppressure p = ppressure q -> pgammadot p = pgammadot q ->
  peta p' = peta q' /\ pgammadot p' = pgammadot p /\ pgammadot q' = pgammadot q.
Proof.
  intros T N P S0 S ip ip' p q p' q' G G1 G' G1' HL E1 E2 HP HG.
  destruct (ken_simple_eta _ _ _ _ _ _ _ _ _ _ HL E1) as (A & mu & em & A1 & A2 & A3 & _).
  destruct (ken_simple_eta _ _ _ _ _ _ _ _ _ _ HL E2) as (B & mu' & em' & B1 & B2 & B3 & _).
  rewrite A1 in B1. injection B1 as <-. rewrite A2 in B2. injection B2 as <-. split; [|split; assumption]. rewrite A3, B3, HP, HG. reflexivity.
Qed.
Definition same_rate {T} (S : solid T) (p p' : particle T) : Prop := s_law S = KenSimple -> pgammadot p' = pgammadot p.
Lemma stable_rate T (N : Num T) : stable (T := T) same_rate (fun _ _ _ => True).
Proof.
  unfold same_rate. constructor; auto.
  - intros S p q r A B HL. rewrite (B HL), (A HL). reflexivity.
  - intros S P k p. rewrite grav_frame. destruct p; auto.
  - intros S P G p p' E. rewrite (ref_frame _ _ _ _ E). destruct p; auto.
  - intros S G p p' E. rewrite (basis_frame _ _ _ E). destruct p; auto.
  - intros P S0 S k p p1 p2 G G' E1 E2 HL. apply strain_frame in E1. unfold update_stress in E2. pbinds E2. injection E2 as <- <-.
    change (pgammadot b = pgammadot p). destruct (ken_simple_eta _ _ _ _ _ _ _ _ _ _ HL E) as (A & _). rewrite A, E1. destruct p; reflexivity.
  - intros S P G p p' E. rewrite (phi_frame _ _ _ _ E). destruct p; auto.
  - intros S P G p sv p' sv' E. rewrite (move_frame _ _ _ _ _ _ E). destruct p; auto.
  - intros S P p p' E. rewrite (rigid_frame _ _ _ E). destruct p; auto.
  - intros S P p. rewrite wrap_frame. destruct p; auto.
Qed.
(** After any number of steps the points of such a phase that were there at the start hold the shear rate they had. *)
Lemma p_C79_history : forall (T : Type) (N : Num T) uf fill (s s' : state T), counted (sL s) -> reach uf fill s s' ->
  Forall2 (fun ph ph' => s_law (ph_sol ph) = KenSimple -> exists sel kept new, subseq sel (ph_pts ph) /\ ph_pts ph' = kept ++ new /\
      Forall2 (fun p p' => pgammadot p' = pgammadot p) sel kept /\
      (inlet_right (pB (sP s)) = false -> inlet_top (pB (sP s)) = false -> new = []))
    (sL s) (sL s').
Proof.
  intros T N uf fill s s' C H. apply counted_all in C.
  pose proof (reach_ev uf fill _ _ s s' (stable_rate T N) C H) as V. cbv zeta in V.
  revert V. unfold Levolves. generalize (sL s) as L, (sL s') as L'. induction 1 as [|ph ph' L L' V _ IH]; constructor; [|exact IH].
  destruct V as (A & _ & sel & kept & new & B & D & E & F & G & I). intros HL. exists sel, kept, new.
  split; [exact B|]. split; [exact F|]. split.
  - clear - D HL. induction D as [|p q l l' H _ IH]; constructor; [exact (H HL)|exact IH].
  - intros Q1 Q2. apply I. rewrite Q1, Q2. reflexivity.
Qed.
Definition qL : list (phase Q) := map (fun ph => ph <| ph_sol := ex_solid_sc KenSimple |>) (ex_L (T := Q) KenSimple).
(** A state after one step of a phase of two points with this law. *)
Example x_C79_history : exists (G : grid Q) s', grid_init (T := Q) ex_gridp ex_bounds = Ok G /\ counted qL /\
  map (fun ph => s_law (ph_sol ph)) qL = [KenSimple] /\
  reach (fun P => p_loads P) (fun _ l => l) (mkState (ex_params ex_bounds) G qL) s' /\ (p_t (sP s') == 1 # 10)%Q.
Proof.
  eexists. eexists. split; [vm_compute; reflexivity|]. split; [intros ph [<-|[]]; reflexivity|]. split; [reflexivity|]. split.
  - eapply reach_S with (tr := []); [apply reach_0|]. vm_compute. reflexivity.
  - vm_compute. reflexivity.
Qed.
(** A point made without a prescribed flow starts with the shear rate zero. *)
Lemma p_C79_initial : forall (T : Type) (N : Num T) (P : params T) S0 S x y phi p, p_flow P = FNone ->
  particle_init P S0 S x y phi = Ok p -> pgammadot p = n0.
Proof.
  intros T N P S0 S x y phi p HF E. unfold particle_init in E. cbv zeta in E. unfold init_flow in E. rewrite HF in E. pbinds E.
  injection E as <-. cbn [pgammadot]. match goal with H : Ok _ = Ok _ |- _ => injection H as <- <- <- end. reflexivity.
Qed.
Example x_C79_initial : exists p, p_flow (ex_params (T := Q) ex_bounds) = FNone /\
  particle_init (ex_params (T := Q) ex_bounds) (ex_solid_sc KenSimple) (ex_solid_sc KenSimple) 1%Q 1%Q [] = Ok p.
Proof. eexists. split; vm_compute; reflexivity. Qed.
(** In floating point the viscosity of such a point is then [eta_max], or zero if the pressure or the friction
    coefficient is zero; the shear stress is proportional to the increment. *)
Lemma p_C79_saturated : forall (P : params (X R)) S0 S ip p p' G G' mu emax q e dt, s_law S = KenSimple -> apply_law P S0 S ip p G = Ok (p', G') ->
  pgammadot p = Fin 0 -> ppressure p = Fin q -> s_mu_0 S = Some (Sc (Fin mu)) -> 0 <= mu -> s_eta_max S = Some (Fin emax) -> 0 <= emax <= fltmax ->
  pdstrain p = F3 e -> p_dt P = Fin dt -> 0 < dt ->
  exists eta, peta p' = Fin eta /\ pdev p' = F3 (times (eta / dt) (deviator e)) /\
    (mu * Rabs q = 0 -> eta = 0) /\ (0 < mu * Rabs q -> eta = emax).
Proof.
  intros P S0 S ip p p' G G' mu emax q e dt HL E Hg Hq Hmu Hmu0 He He0 Hs Hdt Hd.
  destruct (ken_simple_eta _ _ _ _ _ _ _ _ _ _ HL E) as (_ & m & em & A1 & A2 & A3 & A4 & _).
  rewrite Hmu in A1. injection A1 as <-. rewrite He in A2. injection A2 as <-. rewrite Hq, Hg in A3.
  change (@n2 (X R) _) with (Fin 2) in A3. rewrite xsqrtF, xabsF, !xmulF, xdiv0 in A3 by lra.
  set (w := 2 * sqrt 2 * mu * Rabs q) in A3. pose proof (sqrt_lt_R0 2 ltac:(lra)) as S2. pose proof (Rabs_pos q) as Q0.
  assert (W : w = 2 * sqrt 2 * (mu * Rabs q)) by (unfold w; ring).
  assert (B : exists eta, peta p' = Fin eta /\ (mu * Rabs q = 0 -> eta = 0) /\ (0 < mu * Rabs q -> eta = emax)).
  { assert (0 <= mu * Rabs q) by (apply Rmult_le_pos; assumption). destruct (Req_EM_T (mu * Rabs q) 0) as [Z|Z].
    - rewrite W, Z, Rmult_0_r, xinf_zero in A3. exists 0. split; [|split; [auto|lra]]. rewrite A3. change (nan0 NaN) with (Fin 0). rewrite xminF. f_equal. apply Rmin_left. lra.
    - rewrite W, xinf_pos in A3 by nra. exists emax. split; [|split; [lra|auto]]. rewrite A3. change (nan0 PInf) with (Fin (fltmax (T := R))). rewrite xminF. f_equal. apply Rmin_right. lra. }
  destruct B as (eta & B & B1 & B2). exists eta. split; [exact B|]. split; [|split; assumption].
  rewrite A4, B, Hdt. destruct (strain_parts p e Hs) as [_ D]. rewrite D, F3_scale, F3_divs by lra. f_equal.
  destruct (deviator e). unfold mdivs, mscale, mmap, times. cbn. f_equal; field; lra.
Qed.
Definition xS : solid (X R) := ex_solid_sc KenSimple.
Lemma run_simple q e s : exists p' G', apply_law xP xS xS 0 (xp q e s) xG = Ok (p', G').
Proof.
  unfold apply_law. cbn [s_law xS ex_solid_sc]. unfold ken_simple.
  pose proof (xp_finite q e s) as F. destruct F as [fdt fdt0 fe fs fp frho fphi fphi0 fphil fsz fsz0 fszl].
  rewrite (mean_size_weighted xP (xp q e s)). rewrite (weighted_fin _ [1/2; 1/2] [1; 2]); [|assumption|cbn; lia|intros; rewrite fsz; apply nth_res_fin; assumption].
  cbn [bind xS ex_solid_sc s_mu_0 s_eta_max s_K attr sc_scalar].
  match goal with |- context [negb ?c] => assert (C : c = true) end.
  { rewrite frho, fs. change (nofZ 2500 <? Fin 2)%num with (Rltb 2500 2). replace (Rltb 2500 2) with false; [reflexivity|].
    symmetry. apply Rltb_false. lra. }
  rewrite C. cbn [negb]. match goal with |- context [visualise ?P ?M ?f ?G] => destruct (visualise_total 12 P M f G xG_lens) as [G' EV]; [exact (xp_nodes q e s)|rewrite EV] end.
  cbn [bind]. eauto.
Qed.
Example x_C79_rate_blind : exists (p q p' q' : particle (X R)) G' G1', s_law xS = KenSimple /\ apply_law xP xS xS 0 p xG = Ok (p', G') /\
  apply_law xP xS xS 0 q xG = Ok (q', G1') /\ ppressure p = ppressure q /\ pgammadot p = pgammadot q /\ xy (pdstrain p) = Fin 1 /\ xy (pdstrain q) = Fin 2.
Proof.
  set (z := mkM3 0 0 0 0 0 0 0 0 0). destruct (run_simple (-1) (mkM3 0 1 0 1 0 0 0 0 0) z) as (p' & G' & E).
  destruct (run_simple (-1) (mkM3 0 2 0 2 0 0 0 0 0) z) as (q' & G1' & E').
  eexists _, _, p', q', G', G1'. split; [reflexivity|]. split; [exact E|]. split; [exact E'|]. repeat split.
Qed.
Example x_C79_saturated : exists (p p' : particle (X R)) G', s_law xS = KenSimple /\ apply_law xP xS xS 0 p xG = Ok (p', G') /\
  pgammadot p = Fin 0 /\ ppressure p = Fin (-1) /\ s_mu_0 xS = Some (Sc (Fin 2)) /\ s_eta_max xS = Some (Fin 1) /\ 0 <= 1 <= fltmax (T := R) /\
  p_dt xP = Fin (1/10).
Proof.
  set (z := mkM3 0 0 0 0 0 0 0 0 0). destruct (run_simple (-1) (mkM3 0 1 0 1 0 0 0 0 0) z) as (p' & G' & E).
  eexists _, p', G'. split; [reflexivity|]. split; [exact E|]. repeat (split; [reflexivity|]). split; [|reflexivity]. split; [lra|].
  unfold fltmax. cbn [nofZ Num_R]. apply IZR_le. vm_compute. discriminate.
Qed.
(** So the law is not the constant-friction law it is meant to be: the shear stress is not bounded by the friction
    coefficient times the pressure (the larger of the two, before and after). *)
Lemma p_C79_friction_refuted : ~ forall (P : params (X R)) S0 S ip p p' G G' mu q q' d, s_law S = KenSimple -> apply_law P S0 S ip p G = Ok (p', G') ->
  pgammadot p = Fin 0 -> ppressure p = Fin q -> ppressure p' = Fin q' -> s_mu_0 S = Some (Sc (Fin mu)) -> 0 <= mu -> pdev p' = F3 d ->
  frob d / sqrt 2 <= mu * Rmax (Rabs q) (Rabs q').
Proof.
  intros H. set (z := mkM3 0 0 0 0 0 0 0 0 0). set (e := mkM3 0 1 0 1 0 0 0 0 0). destruct (run_simple (-1) e z) as (p' & G' & E).
  assert (HL : s_law xS = KenSimple) by reflexivity.
  assert (FM : 0 <= 1 <= fltmax (T := R)) by (split; [lra|]; unfold fltmax; cbn [nofZ Num_R]; apply IZR_le; vm_compute; discriminate).
  destruct (p_C79_saturated _ _ _ _ _ _ _ _ 2 1 (-1) e (1/10) HL E eq_refl eq_refl eq_refl ltac:(lra) eq_refl FM eq_refl eq_refl ltac:(lra)) as (eta & _ & ED & _ & HE).
  rewrite (HE ltac:(rewrite Rabs_left by lra; lra)) in ED. clear HE eta.
  destruct (ken_simple_eta _ _ _ _ _ _ _ _ _ _ HL E) as (_ & m & em & _ & _ & _ & _ & K & HK & EP). injection HK as <-. cbv zeta in EP.
  assert (EP' : ppressure p' = Fin (-1)).
  { rewrite EP. change (pdstrain (xp (-1) e z)) with (F3 e). change (ppressure (xp (-1) e z)) with (Fin (-1)). rewrite F3_trace.
    change (@n3 (X R) _) with (Fin 3). rewrite xdivF by lra. rewrite xmulF, xaddF.
    change (n0 <? Fin ?x)%num with (Rltb 0 x). match goal with |- context [Fin (?a + ?b)] => replace (a + b) with (-1) end.
    - rewrite (proj2 (Rltb_false 0 (-1))) by lra. reflexivity.
    - unfold trace. cbn. lra. }
  specialize (H _ _ _ _ _ _ _ _ _ _ _ _ HL E eq_refl eq_refl EP' eq_refl ltac:(cbn; lra) ED).
  rewrite frob_times, (Rabs_left (-1)), Rmax_left in H by lra.
  assert (ER : frob (deviator e) = sqrt 2). { unfold frob. f_equal. unfold inner, deviator, tr3, e. cbn. field. }
  rewrite ER in H. pose proof (sqrt_lt_R0 2 ltac:(lra)) as S2. rewrite Rabs_pos_eq in H by lra.
  replace (1 / (1 / 10) * sqrt 2 / sqrt 2) with 10 in H by (field; lra). cbn in H. lra.
Qed.
