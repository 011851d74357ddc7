(** * The steady flows a run can start with: C89 and C90. *)
From Coq Require Import ZArith Reals List Bool Arith Lra Lia String.
From Verif Require Import State NumR Spec SpecFlow LibR ModelGrid ModelConstit ModelParticle ProofsGrid Concrete ThmInOut.
Import ListNotations.
Local Open Scope R_scope.

Lemma flow_some P S0 S x y phi (p : particle R) v gd pk : particle_init P S0 S x y phi = Ok p ->
  init_flow P S0 S y (trace (pstress p) / 3) = Ok (Some v, gd, pk) -> pv p = Own v /\ pgammadot p = gd /\ ppk p = pk.
Proof.
  unfold particle_init. cbv zeta. destruct (init_state P S y) as [[s e]|]; [|discriminate]. cbn [bind].
  cbn [fst snd]. destruct (init_flow P S0 S y _) as [[[vo g] k]|] eqn:F; [|discriminate]. cbn [bind]. intros E. injection E as <-. cbn [pstress pv pgammadot ppk].
  intros E. pose proof (eq_trans (eq_sym F) E) as F'. injection F' as -> -> ->. auto.
Qed.
Ltac same_v := match goal with |- Ok (Some (mkV3 ?a _ _), _, _) = Ok (Some (mkV3 ?b _ _), _, _) => let H := fresh in assert (H : a = b); [|rewrite H; reflexivity] end.
(** [u] is the velocity along x, as a function of the height, that the points of phase [S] start with. *)
Definition starts_with P S0 S (u : R -> R) : Prop :=
  forall x y phi p, particle_init P S0 S x y phi = Ok p -> pv p = Own (mkV3 (u y) 0 0).

(** The option [steady] with a viscous material: at every height the viscous shear stress carries the weight of what lies above, up to y_M, in the
    direction of the current body force; the velocity vanishes at height zero. *)
Lemma p_C89_viscous : forall (P : params R) S0 S mu, p_flow P = FSteady -> s_law S0 = Viscous -> s_mu_s S = Some mu -> mu <> 0 ->
  exists u, starts_with P S0 S u /\ u 0 = 0 /\
  forall y, exists d, derivable_pt_lim u y d /\ mu * d = s_rho S * (p_max_g P * sin (ld_theta (p_loads P))) * (y_M (pG P) - y).
Proof.
  intros P S0 S mu HF HL HM H0.
  set (c := s_rho S * p_max_g P * sin (ld_theta (p_loads P)) / mu).
  exists (fun y => c * (y_M (pG P) * y - y * y / 2)). split; [|split].
  - intros x y phi p E. eapply (fun H => proj1 (flow_some P S0 S x y phi p _ _ _ E H)).
    unfold init_flow. rewrite HF, HL, HM. cbn [attr bind]. same_v. unfold nsq, c. unfold n2. unR. field. exact H0.
  - cbv beta; field.
  - intros y. exists (c * (y_M (pG P) - y)). split; [|unfold c; field; exact H0].
    assert (D : derivable_pt_lim (fun y => y_M (pG P) * y - y * y / 2) y (y_M (pG P) - y)).
    { replace (y_M (pG P) - y) with ((0 * y + y_M (pG P) * 1) - (((1 * y + y * 1) * 2 - 0 * (y * y)) / Rsqr 2)) by (unfold Rsqr; field).
      apply (derivable_pt_lim_minus (fun y => y_M (pG P) * y) (fun y => y * y / 2)).
      - apply (derivable_pt_lim_mult (fun _ => y_M (pG P)) (fun y => y)); [apply derivable_pt_lim_const|apply derivable_pt_lim_id].
      - apply (derivable_pt_lim_div (fun y => y * y) (fun _ => 2)); [|apply derivable_pt_lim_const|lra].
        apply (derivable_pt_lim_mult (fun y => y) (fun y => y)); apply derivable_pt_lim_id. }
    apply (derivable_pt_lim_scal _ c _ _ D).
Qed.

(** ** Tools *)
Lemma dlim_ext f g x l del : 0 < del -> (forall h, Rabs h < del -> f (x + h) = g (x + h)) -> derivable_pt_lim g x l -> derivable_pt_lim f x l.
Proof.
  intros Hd HE D eps He. destruct (D eps He) as [d Hd']. assert (Hm : 0 < Rmin d del) by (apply Rmin_glb_lt; [apply cond_pos|exact Hd]).
  exists (mkposreal _ Hm). intros h H0 Hh. cbn in Hh. rewrite HE by (pose proof (Rmin_r d del); lra).
  replace (f x) with (g x). { apply Hd'; [exact H0|]. pose proof (Rmin_l d del). lra. }
  pose proof (HE 0) as Q. rewrite Rabs_R0, Rplus_0_r in Q. symmetry. auto.
Qed.
Lemma dlim_affine a b x : derivable_pt_lim (fun y => a + b * y) x b.
Proof.
  cut (derivable_pt_lim (fun y => a + b * y) x (0 + b * 1)); [intros D; rewrite Rplus_0_l, Rmult_1_r in D; exact D|]. apply (derivable_pt_lim_plus (fun _ => a) (fun y => b * y)); [apply derivable_pt_lim_const|].
  apply (derivable_pt_lim_scal (fun y => y)). apply derivable_pt_lim_id.
Qed.
Lemma pow15 x : 0 < x -> Rpow x (3 / 2) = x * sqrt x.
Proof.
  intros H. unfold Rpow. destruct (Rlt_dec 0 x); [|lra]. replace (3 / 2) with (1 + / 2) by field. rewrite Rpower_plus, Rpower_1, Rpower_sqrt by exact H. reflexivity.
Qed.
Lemma dlim_pow15 x : 0 < x -> derivable_pt_lim (fun y => Rpow y (3 / 2)) x (3 / 2 * sqrt x).
Proof.
  intros H. apply (dlim_ext _ (fun y => Rpower y (3/2)) _ _ x H).
  - intros h Hh. apply Rabs_def2 in Hh. unfold Rpow. destruct (Rlt_dec 0 (x + h)); [reflexivity|lra].
  - replace (sqrt x) with (Rpower x (3 / 2 - 1)) by (replace (3 / 2 - 1) with (/ 2) by field; apply Rpower_sqrt, H).
    apply derivable_pt_lim_power. exact H.
Qed.
Lemma friction_inverse mu0 mu1 I0 X t : 0 < I0 -> mu0 <= t < mu1 -> X = (t - mu0) / (mu1 - t) -> rate_friction mu0 mu1 I0 (I0 * X) = t.
Proof.
  intros H0 Ht ->. unfold rate_friction. field. split; [lra|].
  replace (I0 * (mu1 - t) + I0 * (t - mu0)) with (I0 * (mu1 - mu0)) by ring. nra.
Qed.

(** The option [steady] with the mu(I) material, on a slope between the two friction angles: the velocity vanishes at height zero, the
    shear rate the points carry is the derivative of the velocity, and at every height the friction coefficient belonging to this
    shear rate, under the weight of the grains above, is the tangent of the slope. *)
Lemma p_C89_granular : forall (P : params R) S0 S sb I0 mu0 mu1 phi l, p_flow P = FSteady -> s_law S0 = Pouliquen ->
  s_bar_0 (pG P) = Some sb -> s_I_0 S = Some (Sc I0) -> s_mu_0 S = Some (Sc mu0) -> s_mu_1 S = Some mu1 -> s_packing S = Some phi -> p_l P = Some l ->
  let th := Rabs (ld_theta (p_loads P)) in let g := Rabs (p_max_g P) in
  0 < sb -> 0 < I0 -> mu0 <= tan th < mu1 -> 0 < phi -> 0 < cos th -> 0 < g ->
  exists u, starts_with P S0 S u /\ u 0 = 0 /\
    forall x y f p, particle_init P S0 S x y f = Ok p -> y < y_M (pG P) ->
    derivable_pt_lim u y (pgammadot p) /\ 0 <= pgammadot p /\
    ppk p = l * sb * sqrt (Rabs (ppressure p * s_rho S)) * pgammadot p /\
    forall rho, 0 < rho -> rate_friction mu0 mu1 I0 (inertial (pgammadot p) sb rho (overburden (phi * rho) (g * cos th) (y_M (pG P) - y))) = tan th.
Proof.
  intros P S0 S sb I0 mu0 mu1 phi l HF HL Hsb HI H0 H1 Hpk Hl th g Psb PI0 Ht Pphi Pc Pg.
  set (X := (tan th - mu0) / (mu1 - tan th)).
  set (A := sqrt (g * sb) * (2 / 3) * I0 * (tan th - mu0) / (mu1 - tan th) * sqrt (phi * cos th)).
  assert (FL : forall y pr, exists v gd pk, init_flow P S0 S y pr = Ok (Some (mkV3 v 0 0), gd, pk) /\
    v = A * (Rpow (y_M (pG P)) (3/2) - Rpow (y_M (pG P) - y) (3/2)) / Rpow sb (3/2) /\
    gd = 3 / 2 * A * sqrt (y_M (pG P) - y) / Rpow sb (3/2) /\ pk = l * sb * sqrt (Rabs (pr * s_rho S)) * Rabs gd).
  { intros y pr. unfold init_flow. rewrite HF, HL, Hsb, HI, H0, H1, Hpk, Hl. cbn [attr bind sc_scalar].
    eexists. eexists. eexists. split; [reflexivity|]. split; [reflexivity|]. split; reflexivity. }
  assert (HX : 0 <= X) by (apply Rmult_le_pos; [lra|left; apply Rinv_0_lt_compat; lra]).
  assert (HA : A = sqrt (g * sb) * (2 / 3) * I0 * X * sqrt (phi * cos th)) by (unfold A, X, Rdiv; ring).
  assert (Psq : 0 < sqrt sb) by (apply sqrt_lt_R0, Psb).
  assert (EX : X = (tan th - mu0) / (mu1 - tan th)) by reflexivity. clearbody X A.
  assert (A0 : 0 <= A).
  { rewrite HA. repeat apply Rmult_le_pos; try lra; apply sqrt_pos. }
  exists (fun y => A * (Rpow (y_M (pG P)) (3/2) - Rpow (y_M (pG P) - y) (3/2)) / Rpow sb (3/2)). split; [|split].
  - intros x y f p E. destruct (FL y (trace (pstress p) / 3)) as (v & gd & pk & F & -> & _). apply (flow_some P S0 S x y f p _ _ _ E F).
  - rewrite Rminus_0_r. unfold Rdiv. ring.
  - intros x y f p E Hy. destruct (FL y (trace (pstress p) / 3)) as (v & gd & pk & F & _ & EG & EK). destruct (flow_some P S0 S x y f p _ _ _ E F) as (_ & -> & ->).
    assert (G0 : 0 <= gd). { rewrite EG, pow15 by exact Psb. repeat apply Rmult_le_pos; try lra; [apply sqrt_pos|left; apply Rinv_0_lt_compat; nra]. }
    split; [|split; [exact G0|split]].
    + rewrite EG. set (yM := y_M (pG P)) in *.
      assert (D : derivable_pt_lim (fun y => Rpow (yM - y) (3/2)) y (3 / 2 * sqrt (yM - y) * -1)).
      { apply (derivable_pt_lim_comp (fun y => yM - y) (fun z => Rpow z (3/2))).
        - pose proof (dlim_affine yM (-1) y) as D. apply (dlim_ext _ (fun y => yM + -1 * y) _ _ 1 Rlt_0_1); [intros; ring|exact D].
        - apply dlim_pow15. lra. }
      replace (3 / 2 * A * sqrt (yM - y) / Rpow sb (3 / 2)) with (A / Rpow sb (3/2) * (0 - 3 / 2 * sqrt (yM - y) * -1)) by (unfold Rdiv; ring).
      apply (dlim_ext _ (fun y => A / Rpow sb (3/2) * (Rpow yM (3/2) - Rpow (yM - y) (3/2))) _ _ 1 Rlt_0_1); [intros; unfold Rdiv; ring|].
      apply (derivable_pt_lim_scal (fun y => Rpow yM (3/2) - Rpow (yM - y) (3/2))).
      apply (derivable_pt_lim_minus (fun _ => Rpow yM (3/2)) (fun y => Rpow (yM - y) (3/2))); [apply derivable_pt_lim_const|exact D].
    + rewrite EK, (Rabs_right gd) by lra. replace (ppressure p) with (trace (pstress p) / 3); [reflexivity|].
      clear - E. unfold particle_init in E. cbv zeta in E. destruct (init_state P S y) as [[s e]|]; [|discriminate]. cbn [bind] in E.
      cbn [fst snd] in E. destruct (init_flow P S0 S y _) as [[[vo g] k]|]; [|discriminate]. cbn [bind] in E. injection E as <-. reflexivity.
    + intros rho Hr. replace (inertial gd sb rho _) with (I0 * X); [apply friction_inverse; auto|].
      unfold inertial. rewrite Rabs_right by lra. rewrite EG, HA, pow15 by exact Psb. set (h := y_M (pG P) - y). assert (Hh : 0 < h) by (unfold h; lra).
      unfold overburden. replace (rho / (phi * rho * (g * cos th) * h)) with (/ (g * (phi * cos th) * h)).
      2:{ field. repeat split; lra. }
      assert (Pf : 0 < phi * cos th) by nra. assert (Pgf : 0 < g * (phi * cos th)) by nra.
      rewrite sqrt_inv, (sqrt_mult (g * (phi * cos th)) h), (sqrt_mult g (phi * cos th)), (sqrt_mult g sb) by lra.
      pose proof (sqrt_lt_R0 _ Pf). pose proof (sqrt_lt_R0 _ Pg). pose proof (sqrt_lt_R0 _ Hh).
      field. repeat split; lra.
Qed.
(** On such a slope, above height zero, the points start with a velocity towards positive x, whatever the signs of gravity and of the slope. *)
Lemma p_C89_forward : forall (P : params R) S0 S sb I0 mu0 mu1 phi l, p_flow P = FSteady -> s_law S0 = Pouliquen ->
  s_bar_0 (pG P) = Some sb -> s_I_0 S = Some (Sc I0) -> s_mu_0 S = Some (Sc mu0) -> s_mu_1 S = Some mu1 -> s_packing S = Some phi -> p_l P = Some l ->
  let th := Rabs (ld_theta (p_loads P)) in let g := Rabs (p_max_g P) in
  0 < sb -> 0 < I0 -> mu0 < tan th < mu1 -> 0 < phi -> 0 < cos th -> 0 < g ->
  forall x y f p, particle_init P S0 S x y f = Ok p -> 0 < y < y_M (pG P) -> exists v, pv p = Own (mkV3 v 0 0) /\ 0 < v.
Proof.
  intros P S0 S sb I0 mu0 mu1 phi l HF HL Hsb HI H0 H1 Hpk Hl th g Psb PI0 Ht Pphi Pc Pg x y f p E Hy.
  eexists. split.
  - eapply (fun H => proj1 (flow_some P S0 S x y f p _ _ _ E H)).
    unfold init_flow. rewrite HF, HL, Hsb, HI, H0, H1, Hpk, Hl. cbn [attr bind sc_scalar]. reflexivity.
  - unfold lit, n2, n3. unR. fold th g. rewrite (pow15 sb), (pow15 (y_M (pG P))), (pow15 (y_M (pG P) - y)) by lra.
    assert (Q1 : 0 < sqrt sb) by (apply sqrt_lt_R0; lra). assert (Q2 : 0 < sqrt (g * sb)) by (apply sqrt_lt_R0; nra).
    assert (Q3 : 0 < sqrt (phi * cos th)) by (apply sqrt_lt_R0; nra).
    assert (Q4 : sqrt (y_M (pG P) - y) < sqrt (y_M (pG P))) by (apply sqrt_lt_1; lra).
    assert (Q5 : 0 < sqrt (y_M (pG P) - y)) by (apply sqrt_lt_R0; lra).
    assert (Q6 : 0 < / (sb * sqrt sb)) by (apply Rinv_0_lt_compat; nra). assert (Q7 : 0 < / (mu1 - tan th)) by (apply Rinv_0_lt_compat; lra).
    unfold Rdiv. repeat apply Rmult_lt_0_compat; try lra. nra.
Qed.

(** The option [steady_poiseulle]: in a channel whose lower wall is at height zero, with a driving force that exceeds the friction at rest, but not the largest
    friction, the velocity is a function [f] of the distance from the nearer wall, up to the distance where the flow becomes a plug. It vanishes at the
    walls, and between wall and plug the friction coefficient belonging to its slope is the ratio of shear stress and pressure there. *)
Lemma p_C90_channel : forall (P : params R) S0 S sb I0 mu0 mu1 rs p0, p_flow P = FPoiseulle ->
  s_bar_0 (pG P) = Some sb -> s_I_0 S = Some (Sc I0) -> s_mu_0 S = Some (Sc mu0) -> s_mu_1 S = Some mu1 -> s_rho_s S = Some rs -> p_init_press P = Some p0 ->
  let H := y_M (pG P) in let K := Rabs (s_rho S0 * p_max_g P) in let q := Rabs p0 in
  y_m (pG P) = 0 -> 0 < H -> 0 < K -> 0 < q -> 0 < sb -> 0 < I0 -> 0 < rs -> mu0 <= K * (H / 2) / q < mu1 ->
  let plug := H / 2 - mu0 * q / K in
  exists f, starts_with P S0 S (fun y => f (Rmin (Rmin y (H - y)) plug)) /\ f 0 = 0 /\
  forall d, 0 <= d <= plug -> mu0 < mu1 -> exists gd, derivable_pt_lim f d gd /\ 0 <= gd /\
    rate_friction mu0 mu1 I0 (inertial gd sb rs q) = K * (H / 2 - d) / q.
Proof.
  intros P S0 S sb I0 mu0 mu1 rs p0 HF Hsb HI H0 H1 Hrs Hp0 H K q Hm PH PK Pq Psb PI0 Prs Hst plug.
  set (be := sqrt (Rabs (K * H / p0))).
  assert (B2 : be * be = K * H / q).
  { unfold be. rewrite sqrt_sqrt by apply Rabs_pos. unfold q, Rdiv. rewrite Rabs_mult, Rabs_inv.
    f_equal. apply Rabs_right. nra. }
  assert (Pb2 : 0 < be * be) by (rewrite B2; apply Rmult_lt_0_compat; [nra|apply Rinv_0_lt_compat; lra]).
  assert (Pbe : 0 < be). { assert (0 <= be) by apply sqrt_pos. destruct (Req_dec be 0) as [E|E]; [rewrite E in Pb2|]; nra. }
  set (b2 := be * be) in *.
  assert (EM : K * (H / 2) / q = b2 / 2) by (rewrite B2; field; lra). rewrite EM in Hst.
  set (c := H / sb * I0 / (b2 * be) * sqrt (K * H / rs)).
  set (f := fun d => - (c * (b2 * (d / H) + (mu0 - mu1) * ln (- (2 * b2 * (d / H) + 2 * mu1 - b2) / (b2 - 2 * mu1))))).
  assert (EP : plug / H = 1 / 2 - mu0 / b2) by (unfold plug; rewrite B2; field; lra).
  exists f. split; [|split].
  - intros x y phi p E.
    assert (YS : forall z, Rmin y (H - y) = H * z <-> z = (if Rlt_dec (1 / 2) (y / H) then 1 / 2 - Rabs (y / H - 1 / 2) else y / H)).
    { intros z. assert (EY : y = H * (y / H)) by (field; lra). set (w := y / H) in *. clearbody w. subst y.
      destruct (Rlt_dec (1 / 2) w).
      - rewrite Rmin_right by nra. rewrite Rabs_right by lra. split; [intros; apply (Rmult_eq_reg_l H); nra|intros ->; lra].
      - rewrite Rmin_left by nra. split; [intros; apply (Rmult_eq_reg_l H); lra|intros ->; lra]. }
    set (z := if Rlt_dec (1 / 2) (y / H) then 1 / 2 - Rabs (y / H - 1 / 2) else y / H) in *.
    eapply (fun H => proj1 (flow_some P S0 S x y phi p _ _ _ E H)).
    unfold init_flow. rewrite HF, Hsb, HI, H0, H1, Hrs, Hp0, Hm. cbn [attr bind sc_scalar]. unfold nhalf, lit, n2. unR. fold H. rewrite Rminus_0_r. fold K be.
    same_v.
    rewrite (proj2 (YS z) eq_refl). unfold Rltb. fold b2.
    replace (if if Rlt_dec (1 / 2) (y / H) then true else false then 1 / 2 - Rabs (y / H - 1 / 2) else y / H) with z
      by (unfold z; destruct (Rlt_dec (1/2) (y/H)); reflexivity).
    assert (HP : H * (1 / 2 - mu0 / b2) = plug) by (rewrite <- EP; field; lra).
    destruct (Rlt_dec z (1 / 2 - mu0 / b2)) as [L|L]; cbv iota.
    + rewrite Rmin_left by nra. unfold f. replace (H * z / H) with z by (field; lra). unfold c. ring.
    + rewrite Rmin_right by nra. unfold f. rewrite EP.
      replace (b2 * (1 / 2 - mu0 / b2)) with (b2 / 2 - mu0) by (field; lra).
      replace (- (2 * b2 * (1 / 2 - mu0 / b2) + 2 * mu1 - b2) / (b2 - 2 * mu1)) with ((mu1 - mu0) / (mu1 - b2 / 2)) by (field; repeat split; lra).
      unfold c. ring.
  - unfold f. replace (- (2 * b2 * (0 / H) + 2 * mu1 - b2) / (b2 - 2 * mu1)) with 1 by (field; lra). rewrite ln_1. field. lra.
  - intros d Hd Hmu. set (M := K * (H / 2 - d) / q). assert (EMd : M = b2 * (1 / 2 - d / H)) by (unfold M; rewrite B2; field; lra).
    assert (HMd : mu0 <= M < mu1).
    { assert (DH : 0 <= d / H) by (apply Rmult_le_pos; [lra|left; apply Rinv_0_lt_compat; lra]).
      assert (DP : d / H <= plug / H) by (apply Rmult_le_compat_r; [left; apply Rinv_0_lt_compat; lra|lra]). rewrite EP in DP.
      rewrite EMd. split; [|nra]. assert (b2 * (mu0 / b2) = mu0) by (field; lra). nra. }
    exists (c * (b2 / H) * ((M - mu0) / (mu1 - M))). split; [|split].
    + assert (DL : derivable_pt_lim (fun d => ln (- (2 * b2 * (d / H) + 2 * mu1 - b2) / (b2 - 2 * mu1))) d (/ (2 * (mu1 - M) / (2 * mu1 - b2)) * (2 * b2 / H / (2 * mu1 - b2)))).
      { apply (derivable_pt_lim_comp (fun d => - (2 * b2 * (d / H) + 2 * mu1 - b2) / (b2 - 2 * mu1)) ln).
        - apply (dlim_ext _ (fun d => 1 + 2 * b2 / H / (2 * mu1 - b2) * d) _ _ 1 Rlt_0_1); [intros; field; lra|]. apply dlim_affine.
        - replace (- (2 * b2 * (d / H) + 2 * mu1 - b2) / (b2 - 2 * mu1)) with (2 * (mu1 - M) / (2 * mu1 - b2)) by (rewrite EMd; field; lra).
          apply derivable_pt_lim_ln. apply Rmult_lt_0_compat; [lra|apply Rinv_0_lt_compat; lra]. }
      replace (c * (b2 / H) * ((M - mu0) / (mu1 - M))) with (- c * (b2 / H + (mu0 - mu1) * (/ (2 * (mu1 - M) / (2 * mu1 - b2)) * (2 * b2 / H / (2 * mu1 - b2))))) by (field; repeat split; lra).
      apply (dlim_ext _ (fun d => - c * ((0 + b2 / H * d) + (mu0 - mu1) * ln (- (2 * b2 * (d / H) + 2 * mu1 - b2) / (b2 - 2 * mu1)))) _ _ 1 Rlt_0_1).
      { intros h Hh. unfold f. set (w := ln _). unfold Rdiv. ring. }
      apply (derivable_pt_lim_scal (fun d => (0 + b2 / H * d) + (mu0 - mu1) * ln (- (2 * b2 * (d / H) + 2 * mu1 - b2) / (b2 - 2 * mu1)))).
      apply (derivable_pt_lim_plus (fun d => 0 + b2 / H * d) (fun d => (mu0 - mu1) * ln (- (2 * b2 * (d / H) + 2 * mu1 - b2) / (b2 - 2 * mu1)))); [apply dlim_affine|].
      apply (derivable_pt_lim_scal (fun d => ln (- (2 * b2 * (d / H) + 2 * mu1 - b2) / (b2 - 2 * mu1)))). exact DL.
    + assert (0 <= c). { unfold c. repeat apply Rmult_le_pos; try lra; try apply sqrt_pos; left; apply Rinv_0_lt_compat; nra. }
      apply Rmult_le_pos; [apply Rmult_le_pos; [assumption|]|]; (apply Rmult_le_pos; [lra|left; apply Rinv_0_lt_compat; lra]).
    + set (X := (M - mu0) / (mu1 - M)). assert (HX : 0 <= X) by (apply Rmult_le_pos; [lra|left; apply Rinv_0_lt_compat; lra]).
      replace (inertial _ sb rs q) with (I0 * X); [apply friction_inverse; auto|]. fold X. assert (EX := eq_refl : X = (M - mu0) / (mu1 - M)). clearbody X.
      assert (EC : c * (b2 / H) = I0 / sb * (sqrt (K * H / rs) / be)) by (unfold c, b2; field; repeat split; lra).
      assert (EQ : sqrt (K * H / rs) * sqrt (rs / q) = be).
      { rewrite <- sqrt_mult_alt by (apply Rmult_le_pos; [nra|left; apply Rinv_0_lt_compat; lra]).
        replace (K * H / rs * (rs / q)) with (be * be) by (fold b2; rewrite B2; field; lra). apply sqrt_square. lra. }
      assert (PC : 0 <= c * (b2 / H)).
      { rewrite EC. repeat apply Rmult_le_pos; try lra; try apply sqrt_pos; left; apply Rinv_0_lt_compat; lra. }
      unfold inertial. rewrite Rabs_right by (apply Rle_ge, Rmult_le_pos; assumption). rewrite EC.
      transitivity (I0 * X * (sqrt (K * H / rs) * sqrt (rs / q)) / be); [rewrite EQ; field; lra|field; lra].
Qed.

(** ** Cases *)
Definition fl_solid (l : law_name) (mu0 mu1 : R) : solid R :=
  mkSolid 2 1 l [1/2; 1/2] (Some 3) (Some 2) (Some 1) (Some 2) (Some 0) (Some (1/2)) (Some 1) (Some 1)
          (Some (Sc mu0)) (Some (Sc 1)) (Some (Sc 1)) (Some mu1) (Some 1) (Some 1) (Some 1) (Some 2) (Some 1) (Some 1) (Some 1)
          (Some 1) (Some 0) (Some 0) (Some 1) (Some 1) (Some 1) [1] (Some (1/2, 1/2)) false None.
(** Gravity -1, slope [th], lower edge of the domain at height [a], upper edge two above. *)
Definition fl_params (fl : flow_mode) (a th p0 : R) : params R :=
  ex_params ex_bounds <| pG := mkGridp 0 3 a (a + 2) 4 3 (Some 1) (Some 1) 1 2 [1; 2] (Some 1) None |>
    <| p_flow := fl |> <| p_loads := mkLoads (-1) th 0 0 |> <| p_init_press := Some p0 |> <| p_l := Some 1 |>.
Lemma fl_v fl a th p0 S0 S x y v gd pk : (forall q, init_flow (fl_params fl a th p0) S0 S y q = Ok (Some v, gd, pk q)) ->
  exists p, particle_init (fl_params fl a th p0) S0 S x y [] = Ok p /\ pv p = Own v.
Proof.
  intros F. unfold particle_init. cbv zeta. change (init_state (fl_params fl a th p0) S y) with (Ok (@m0 R _, @m0 R _)). cbn [bind fst snd]. rewrite F. cbn [bind].
  eexists. split; reflexivity.
Qed.
(** A viscous layer two high on a slope of 90 degrees. *)
Example x_C89_viscous : exists p, p_flow (fl_params FSteady 0 (PI / 2) 1) = FSteady /\ s_mu_s (fl_solid Viscous 0 1) = Some 1 /\
  particle_init (fl_params FSteady 0 (PI / 2) 1) (fl_solid Viscous 0 1) (fl_solid Viscous 0 1) 1 1 [] = Ok p /\ pv p = Own (mkV3 (-3) 0 0).
Proof.
  destruct (fl_v FSteady 0 (PI / 2) 1 (fl_solid Viscous 0 1) (fl_solid Viscous 0 1) 1 1 (mkV3 (-3) 0 0) 0 (fun _ => 0)) as (p & E & V).
  { intros q. unfold init_flow. cbn [fl_params p_flow set fl_solid s_law s_mu_s attr bind]. same_v. cbn. unR. unfold nsq. cbn. unR. rewrite sin_PI2. field. }
  exists p. split; [reflexivity|]. split; [reflexivity|]. split; assumption.
Qed.
(** The velocity vanishes at the lower edge of the domain: false if this edge is not at height zero. *)
Lemma p_C89_floor_refuted : exists (P : params R) S p v, p_flow P = FSteady /\ s_law S = Viscous /\ s_mu_s S = Some 1 /\
  particle_init P S S 1 (y_m (pG P)) [] = Ok p /\ pv p = Own v /\ vx v <> 0.
Proof.
  destruct (fl_v FSteady 1 (PI / 2) 1 (fl_solid Viscous 0 1) (fl_solid Viscous 0 1) 1 1 (mkV3 (-5) 0 0) 0 (fun _ => 0)) as (p & E & V).
  { intros q. unfold init_flow. cbn [fl_params p_flow set fl_solid s_law s_mu_s attr bind]. same_v. cbn. unR. unfold nsq. cbn. unR. rewrite sin_PI2. field. }
  exists (fl_params FSteady 1 (PI / 2) 1), (fl_solid Viscous 0 1), p, (mkV3 (-5) 0 0). repeat (split; [reflexivity|]). split; [exact E|]. split; [exact V|]. cbn. lra.
Qed.
Lemma fl_slope : let P := fl_params FSteady 0 (PI / 4) 1 in let th := Rabs (ld_theta (p_loads P)) in
  1/2 < tan th < 2 /\ 0 < cos th /\ 0 < Rabs (p_max_g P).
Proof.
  cbn. unR. pose proof PI_RGT_0. rewrite Rabs_right by lra. rewrite tan_PI4. split; [lra|]. split; [apply cos_gt_0; lra|].
  unfold Rabs. destruct (Rcase_abs _); lra.
Qed.
(** A granular layer two high on a slope of 45 degrees, friction coefficients 1/2 and 2. *)
Example x_C89_granular : exists (P : params R) S p, p_flow P = FSteady /\ s_law S = Pouliquen /\ s_bar_0 (pG P) = Some 1 /\ s_I_0 S = Some (Sc 1) /\
  s_mu_0 S = Some (Sc (1/2)) /\ s_mu_1 S = Some 2 /\ s_packing S = Some 1 /\ p_l P = Some 1 /\
  1/2 <= tan (Rabs (ld_theta (p_loads P))) < 2 /\ 0 < cos (Rabs (ld_theta (p_loads P))) /\ 0 < Rabs (p_max_g P) /\
  particle_init P S S 1 1 [] = Ok p /\ 0 < pgammadot p.
Proof.
  set (P := fl_params FSteady 0 (PI / 4) 1). set (S := fl_solid Pouliquen (1/2) 2).
  destruct fl_slope as (H1 & H2 & H3). fold P in H1, H2, H3. cbv zeta in H1, H2, H3.
  destruct (particle_init P S S 1 1 []) as [p|] eqn:E; [|discriminate]. exists P, S, p. do 8 (split; [reflexivity|]). split; [lra|]. split; [exact H2|]. split; [exact H3|]. split; [exact E|].
  destruct (p_C89_granular P S S 1 1 (1/2) 2 1 1 eq_refl eq_refl eq_refl eq_refl eq_refl eq_refl eq_refl eq_refl) as (u & _ & _ & F); try assumption; try lra.
  destruct (F 1 1 [] p E ltac:(cbn; unR; lra)) as (_ & F2 & _ & F3).
  destruct F2 as [F2|F2]; [exact F2|exfalso]. specialize (F3 1 Rlt_0_1). rewrite <- F2 in F3. unfold inertial, rate_friction in F3.
  rewrite Rabs_R0, !Rmult_0_l in F3. unfold Rdiv in F3. rewrite Rmult_0_r, Rmult_0_l, Rplus_0_r in F3. unfold Rdiv in H1. lra.
Qed.
(** The points of a steady flow start with a velocity down the slope, that is along the force of gravity: false for the mu(I) material
    if gravity is negative and the slope positive. *)
Lemma p_C89_downhill_refuted : exists (P : params R) S p v, p_flow P = FSteady /\ s_law S = Pouliquen /\
  particle_init P S S 1 1 [] = Ok p /\ pv p = Own v /\ 0 < vx v /\ p_max_g P * sin (ld_theta (p_loads P)) < 0.
Proof.
  set (P := fl_params FSteady 0 (PI / 4) 1). set (S := fl_solid Pouliquen (1/2) 2).
  destruct fl_slope as (H1 & H2 & H3). fold P in H1, H2, H3. cbv zeta in H1, H2, H3.
  destruct (particle_init P S S 1 1 []) as [p|] eqn:E; [|discriminate].
  destruct (p_C89_forward P S S 1 1 (1/2) 2 1 1 eq_refl eq_refl eq_refl eq_refl eq_refl eq_refl eq_refl eq_refl Rlt_0_1 Rlt_0_1 H1 Rlt_0_1 H2 H3 1 1 [] p E ltac:(cbn; unR; lra)) as (v & F1 & F2).
  exists P, S, p, (mkV3 v 0 0). split; [reflexivity|]. split; [reflexivity|]. split; [exact E|]. split; [exact F1|]. split; [exact F2|].
  cbn. unR. pose proof PI_RGT_0. assert (0 < sin (PI / 4)) by (apply sin_gt_0; lra). lra.
Qed.
Lemma fl_channel (P : params R) S x y sb I0 mu0 mu1 rs p0 : p_flow P = FPoiseulle -> p_pressure P = PNone ->
  s_bar_0 (pG P) = Some sb -> s_I_0 S = Some (Sc I0) -> s_mu_0 S = Some (Sc mu0) -> s_mu_1 S = Some mu1 -> s_rho_s S = Some rs -> p_init_press P = Some p0 ->
  exists p, particle_init P S S x y [] = Ok p.
Proof.
  intros E1 E2 E3 E4 E5 E6 E7 E8. unfold particle_init, init_state, init_flow. rewrite E2. cbv zeta. cbn [bind fst snd]. rewrite E1, E3, E4, E5, E6, E7, E8. cbn [attr bind sc_scalar].
  eexists. reflexivity.
Qed.
(** A channel two wide, driven above the friction at rest: shear layer up to the distance 1/2, then a plug. *)
Example x_C90_channel : exists (P : params R) S, p_flow P = FPoiseulle /\ s_bar_0 (pG P) = Some 1 /\ s_I_0 S = Some (Sc 1) /\
  s_mu_0 S = Some (Sc (1/2)) /\ s_mu_1 S = Some 2 /\ s_rho_s S = Some 2 /\ p_init_press P = Some 2 /\
  let H := y_M (pG P) in let K := Rabs (s_rho S * p_max_g P) in let q := Rabs 2 in
  y_m (pG P) = 0 /\ 0 < H /\ 0 < K /\ 0 < q /\ 1/2 <= K * (H / 2) / q < 2 /\ H / 2 - 1/2 * q / K = 1/2 /\ exists p, particle_init P S S 1 1 [] = Ok p.
Proof.
  exists (fl_params FPoiseulle 0 0 2), (fl_solid Pouliquen (1/2) 2). do 7 (split; [reflexivity|]). cbv zeta.
  assert (EK : Rabs (s_rho (fl_solid Pouliquen (1/2) 2) * p_max_g (fl_params FPoiseulle 0 0 2)) = 2) by (cbn; unR; unfold Rabs; destruct (Rcase_abs _); lra).
  rewrite EK, (Rabs_right 2) by lra. change (y_M _) with (0 + 2). change (y_m _) with 0. repeat (split; [lra|]).
  apply (fl_channel (fl_params FPoiseulle 0 0 2) (fl_solid Pouliquen (1/2) 2) 1 1 1 1 (1/2) 2 2 2); reflexivity.
Qed.
(** There is no flow where the driving force does not exceed the friction at rest: false. *)
Lemma p_C90_yield_refuted : exists (P : params R) S p v mu0 q, p_flow P = FPoiseulle /\ s_mu_0 S = Some (Sc mu0) /\ p_init_press P = Some q /\ 0 < q /\
  y_m (pG P) = 0 /\ Rabs (s_rho S * p_max_g P) * (y_M (pG P) / 2) / q < mu0 /\
  particle_init P S S 1 1 [] = Ok p /\ pv p = Own v /\ 0 < vx v.
Proof.
  set (P := fl_params FPoiseulle 0 0 4). set (S := fl_solid Pouliquen 1 2).
  assert (EK : Rabs (s_rho S * p_max_g P) = 2) by (cbn; unR; unfold Rabs; destruct (Rcase_abs _); lra).
  set (w := - (2 / 1 * 1 / (1 * 1 * 1) * (1 / 2 - 1 + (1 - 2) * ln (2 / 3))) * sqrt (2 * 2 / 2)).
  destruct (fl_v FPoiseulle 0 0 4 S S 1 1 (mkV3 w 0 0) 0 (fun _ => 0)) as (p & E & V).
  { intros q. fold P. unfold init_flow. change (p_flow P) with FPoiseulle. cbv iota zeta. unfold nhalf, lit, n2. unR. rewrite EK.
    change (s_bar_0 (pG P)) with (Some 1). change (p_init_press P) with (Some 4). change (s_mu_0 S) with (Some (Sc 1)). change (s_mu_1 S) with (Some 2).
    change (s_I_0 S) with (Some (Sc 1)). change (s_rho_s S) with (Some 2). cbn [attr bind sc_scalar]. change (y_M (pG P)) with (0 + 2). change (y_m (pG P)) with 0.
    rewrite Rplus_0_l, Rminus_0_r. unR.
    assert (EB : sqrt (Rabs (2 * 2 / 4)) = 1) by (replace (2 * 2 / 4) with 1 by field; rewrite Rabs_R1; apply sqrt_1). rewrite EB.
    unfold Rltb. destruct (Rlt_dec (1 / 2) (1 / 2)); [lra|]. destruct (Rlt_dec (1 / 2) (1 / 2 - 1 / (1 * 1))); [lra|].
    same_v. unfold w. replace ((2 - 1) / (2 - 1 * 1 / 2)) with (2 / 3) by field. replace (1 * 1 / 2 - 1) with (1 / 2 - 1) by field. reflexivity. }
  exists P, S, p, (mkV3 w 0 0), 1, 4. repeat (split; [reflexivity|]). split; [lra|]. split; [reflexivity|]. rewrite EK.
  split; [change (y_M (pG P)) with (0 + 2); lra|]. split; [exact E|]. split; [exact V|]. cbn [vx]. unfold w.
  assert (L : - (1 / 2) < ln (2 / 3)).
  { rewrite <- (ln_exp (- (1/2))). apply ln_increasing; [apply exp_pos|]. rewrite exp_Ropp. pose proof (exp_ineq1 (1/2) ltac:(lra)) as Q.
    apply (Rmult_lt_reg_l (exp (1/2))); [apply exp_pos|]. rewrite Rinv_r by (pose proof (exp_pos (1/2)); lra). lra. }
  apply Rmult_lt_0_compat; [|apply sqrt_lt_R0; lra]. replace (2 / 1 * 1 / (1 * 1 * 1)) with 2 by field. lra.
Qed.
(** The velocity vanishes at the lower edge of the domain: false if this edge is not at height zero. *)
Lemma p_C90_floor_refuted : exists (P : params R) S p v, p_flow P = FPoiseulle /\
  particle_init P S S 1 (y_m (pG P)) [] = Ok p /\ pv p = Own v /\ 0 < vx v.
Proof.
  set (P := fl_params FPoiseulle 1 0 4). set (S := fl_solid Pouliquen 0 1).
  assert (EK : Rabs (s_rho S * p_max_g P) = 2) by (cbn; unR; unfold Rabs; destruct (Rcase_abs _); lra).
  set (w := - (2 / 1 * 1 / (1 * 1 * 1) * (1 / 2 + (0 - 1) * ln 2)) * sqrt (2 * 2 / 2)).
  destruct (fl_v FPoiseulle 1 0 4 S S 1 1 (mkV3 w 0 0) 0 (fun _ => 0)) as (p & E & V).
  { intros q. fold P. unfold init_flow. change (p_flow P) with FPoiseulle. cbv iota zeta. unfold nhalf, lit, n2. unR. rewrite EK.
    change (s_bar_0 (pG P)) with (Some 1). change (p_init_press P) with (Some 4). change (s_mu_0 S) with (Some (Sc 0)). change (s_mu_1 S) with (Some 1).
    change (s_I_0 S) with (Some (Sc 1)). change (s_rho_s S) with (Some 2). cbn [attr bind sc_scalar]. change (y_M (pG P)) with (1 + 2). change (y_m (pG P)) with 1.
    replace (1 + 2 - 1) with 2 by ring. unR.
    assert (EB : sqrt (Rabs (2 * 2 / 4)) = 1) by (replace (2 * 2 / 4) with 1 by field; rewrite Rabs_R1; apply sqrt_1). rewrite EB.
    unfold Rltb. destruct (Rlt_dec (1 / 2) (1 / 2)); [lra|]. destruct (Rlt_dec (1 / 2) (1 / 2 - 0 / (1 * 1))); [lra|].
    same_v. unfold w. replace ((1 - 0) / (1 - 1 * 1 / 2)) with 2 by field. replace (1 * 1 / 2 - 0) with (1 / 2) by field. reflexivity. }
  exists P, S, p, (mkV3 w 0 0). split; [reflexivity|]. split; [exact E|]. split; [exact V|]. cbn [vx]. unfold w.
  assert (L : 1 / 2 < ln 2).
  { rewrite <- (ln_exp (1/2)). apply ln_increasing; [apply exp_pos|]. pose proof exp_le_3 as Q. replace 1 with (1/2 + 1/2) in Q at 1 by field. rewrite exp_plus in Q.
    pose proof (exp_pos (1/2)). nra. }
  apply Rmult_lt_0_compat; [|apply sqrt_lt_R0; lra]. replace (2 / 1 * 1 / (1 * 1 * 1)) with 2 by field. lra.
Qed.
