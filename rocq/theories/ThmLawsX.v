(** * Granular laws on reals with infinities and NaN *)
From Coq Require Import ZArith List Bool Arith Lia Reals Lra.
From Verif Require Import State NumR NumX LibR LibList Spec SpecLaws ModelGrid ModelConstit ModelParticle ModelMPList ModelMain ProofsGrid ProofsMap ProofsLaws ProofsHist ProofsX Concrete.
Import ListNotations.
Local Open Scope R_scope.

(** Rate of shear of a strain increment [e] over the time [dt]. *)
Definition shear_rate (e : M3 R) (dt : R) : R := 2 * frob (deviator e) / dt.
Lemma shear_rate_pos e dt : 0 < dt -> 0 <= shear_rate e dt.
Proof.
  intros Hd. unfold shear_rate, Rdiv. apply Rmult_le_pos; [|left; apply Rinv_0_lt_compat; exact Hd].
  apply Rmult_le_pos; [lra|apply sqrt_pos].
Qed.
Definition dev_of (e : M3 R) : M3 R := msub e (mscale (trace e / n3)%num eye).
Lemma dev_of_spec e : dev_of e = deviator e.
Proof. destruct e. unfold dev_of, deviator, tr3, trace. unfold msub, mscale, mmap2, mmap, eye, n3; cbn; f_equal; field. Qed.
Lemma gd_spec e dt : 0 < dt -> sqrt (msum (mmap nsq (mdivs (mscale n2 (dev_of e)) dt))) = shear_rate e dt.
Proof.
  intros Hd. rewrite dev_of_spec. unfold shear_rate, frob. set (d := deviator e).
  replace (msum _) with ((2 / dt) * (2 / dt) * inner d d).
  - rewrite sqrt_mult_alt; [|apply Rle_0_sqr]. rewrite sqrt_square; [field; lra|].
    unfold Rdiv. apply Rmult_le_pos; [lra|left; apply Rinv_0_lt_compat; exact Hd].
  - unfold inner, msum, mmap, mdivs, mscale, mmap, nsq, n2. cbn. field. lra.
Qed.
(** The strain decomposition shared by the laws, on finite numbers. *)
Lemma strain_parts (MP : particle (X R)) e : pdstrain MP = F3 e ->
  (trace (pdstrain MP) / n3)%num = Fin (tr3 e / 3) /\
  msub (pdstrain MP) (mscale (trace (pdstrain MP) / n3)%num eye) = F3 (deviator e).
Proof.
  intros ->. rewrite F3_trace. assert (Q : (Fin (trace e) / n3)%num = Fin (tr3 e / 3)).
  { change (@n3 (X R) _) with (Fin 3). rewrite xdivF by lra. reflexivity. }
  rewrite Q. split; [reflexivity|]. rewrite F3_eye, F3_scale, F3_sub. f_equal. rewrite <- dev_of_spec. reflexivity.
Qed.
Lemma rate_part e dt : 0 < dt ->
  nsqrt (msum (mmap nsq (mdivs (mscale n2 (F3 (deviator e))) (Fin dt)))) = Fin (shear_rate e dt).
Proof.
  intros Hd. change (@n2 (X R) _) with (Fin 2). rewrite F3_scale, F3_divs by lra. rewrite F3_sq, F3_sum, xsqrtF by apply msum_sq_pos.
  f_equal. rewrite <- (gd_spec e dt Hd), dev_of_spec. reflexivity.
Qed.
(** The inertial number: finite, or [+inf]/NaN at zero pressure. *)
Lemma inertia a rho p : 0 <= a -> 0 < rho ->
  (Fin a * nsqrt (Fin rho / nabs (Fin p)))%num =
  if Reqb p 0 then (if Reqb a 0 then NaN else PInf) else Fin (a * sqrt (rho / Rabs p)).
Proof.
  intros Ha Hr. rewrite xabsF. destruct (Req_EM_T p 0) as [->|Hp].
  - rewrite Rabs_R0, xdiv0, xinf_pos by exact Hr. rewrite (proj2 (Reqb_true 0 0) eq_refl).
    change (nsqrt PInf) with (@PInf R). change (Fin a * PInf)%num with (xinf_sign a false).
    destruct (Req_EM_T a 0) as [->|Q]; [rewrite xinf_zero, (proj2 (Reqb_true 0 0) eq_refl); reflexivity|].
    rewrite xinf_pos by lra. rewrite (proj2 (Reqb_false a 0) Q). reflexivity.
  - rewrite (proj2 (Reqb_false p 0) Hp). pose proof (Rabs_pos_lt p Hp) as Q. rewrite xdivF by lra. rewrite xsqrtF; [reflexivity|].
    left. apply Rdiv_lt_0_compat; assumption.
Qed.

(** ** C24 *)
(** Everything the law reads is a finite number, and the material constants have
    physical signs. *)
Record finite_mp (P : params (X R)) (MP : particle (X R)) (dt : R) (e s : M3 R) (p rho : R) (phi sz : list R) : Prop := {
  fm_dt : p_dt P = Fin dt; fm_dt0 : 0 < dt;
  fm_e : pdstrain MP = F3 e; fm_s : pstress MP = F3 s; fm_p : ppressure MP = Fin p; fm_rho : prho MP = Fin rho;
  fm_phi : pphi MP = map Fin phi; fm_phi0 : Forall (Rle 0) phi; fm_philen : length phi = ns (pG P);
  fm_sz : gs (pG P) = map Fin sz; fm_sz0 : Forall (Rle 0) sz; fm_szlen : length sz = ns (pG P) }.
Definition array (o : option (scarr (X R))) (l : list R) (n : nat) : Prop :=
  o = Some (Ar (map Fin l)) /\ length l = n /\ Forall (Rle 0) l.
(** The friction coefficient for the inertial number [I]: a finite number between
    its two limits, or NaN. *)
Lemma friction_range m0 dm i0 I : 0 <= m0 -> 0 <= dm -> 0 <= i0 -> (forall x, I = Fin x -> 0 <= x) -> I <> NInf ->
  (Fin m0 + Fin dm / (Fin i0 / I + n1))%num = NaN \/
  exists mu, (Fin m0 + Fin dm / (Fin i0 / I + n1))%num = Fin mu /\ m0 <= mu <= m0 + dm.
Proof.
  intros H0 H1 H2 HI HN. change (@n1 (X R) _) with (Fin 1). destruct I as [x| | |]; [|right|congruence|left; reflexivity].
  - specialize (HI x eq_refl). destruct (Req_EM_T x 0) as [->|Hx].
    + rewrite xdiv0. destruct (Req_EM_T i0 0) as [->|Hi]; [left; rewrite xinf_zero; reflexivity|right].
      rewrite xinf_pos by lra. exists m0. split; [|lra]. cbn. f_equal. lra.
    + right. rewrite xdivF by exact Hx. rewrite xaddF. assert (Q : 0 <= i0 / x) by (apply Rmult_le_pos; [lra|left; apply Rinv_0_lt_compat; lra]).
      rewrite xdivF by lra. rewrite xaddF. exists (m0 + dm / (i0 / x + 1)). split; [reflexivity|].
      set (z := i0 / x + 1). assert (Hz : 1 <= z) by (unfold z; lra).
      assert (0 < / z <= 1). { split; [apply Rinv_0_lt_compat; lra|]. rewrite <- Rinv_1. apply Rinv_le_contravar; lra. }
      unfold Rdiv. nra.
  - exists (m0 + dm). change (Fin i0 / PInf)%num with (Fin 0). rewrite xaddF, xdivF by lra. rewrite xaddF. split; [f_equal; field|lra].
Qed.
Lemma eta_range mu p gd emax : 0 <= gd -> 0 <= emax -> (mu = NaN \/ exists m, mu = Fin m /\ 0 <= m) ->
  exists el, nmin (nan0 (n2 * nsqrt n2 * mu * nabs (Fin p) / Fin gd)%num) (Fin emax) = Fin el /\ 0 <= el <= emax.
Proof.
  intros Hg He Hm. change (@n2 (X R) _) with (Fin 2). rewrite xsqrtF by lra. rewrite xmulF, xabsF. change (@nmul R _) with Rmult.
  assert (A : exists z, nan0 (Fin (2 * sqrt 2)%R * mu * Fin (Rabs p) / Fin gd)%num = Fin z /\ 0 <= z).
  { destruct Hm as [->|(m & -> & Hm)]; [exists 0; split; [reflexivity|lra]|].
    rewrite !xmulF. change (@nmul R _) with Rmult. set (w := 2 * sqrt 2 * m * Rabs p).
    assert (Hw : 0 <= w). { unfold w. pose proof (sqrt_pos 2). pose proof (Rabs_pos p). apply Rmult_le_pos; [|lra]. apply Rmult_le_pos; [|lra]. lra. }
    destruct (Req_EM_T gd 0) as [->|Q].
    - rewrite xdiv0. destruct (Req_EM_T w 0) as [Hw0|Hw0].
      + rewrite Hw0, xinf_zero. exists 0. split; [reflexivity|lra].
      + rewrite xinf_pos by lra. exists fltmax. split; [reflexivity|apply fltmax_pos].
    - rewrite xdivF by exact Q. exists (w / gd). split; [reflexivity|].
      apply Rmult_le_pos; [lra|left; apply Rinv_0_lt_compat; lra]. }
    destruct A as (z & -> & Hz). rewrite xminF. exists (Rmin z emax). split; [reflexivity|].
  unfold Rmin. destruct (Rle_dec z emax); lra.
Qed.

Lemma press_part p K c (b : bool) : exists p',
  (if ((n0 <? Fin p + Fin K * Fin c)%num || b)%bool then n0 else (Fin p + Fin K * Fin c)%num) = Fin p' /\
  p' <= 0 /\ (p' = 0 \/ p' = p + K * c).
Proof.
  rewrite xmulF, xaddF. destruct (n0 <? Fin (p + K * c)%R)%num eqn:Q.
  - exists 0. split; [reflexivity|]. split; [lra|left; reflexivity].
  - apply Rltb_false in Q. cbn [n0 Num_R] in Q. destruct b; cbn [orb].
    + exists 0. split; [reflexivity|]. split; [lra|left; reflexivity].
    + exists (p + K * c). split; [reflexivity|]. split; [lra|right; reflexivity].
Qed.

(** The law never aborts; the new stress is finite, is a non-tensile pressure plus
    a viscous part along the deviatoric strain increment with a viscosity between
    zero and [eta_max]; the friction coefficient is NaN or within its limits. *)
Lemma p_C24_safe : forall P S MP G dt e s p rho phi sz mu_0 delta_mu I_0 rho_s emax K rho0 n,
  finite_mp P MP dt e s p rho phi sz ->
  array (s_mu_0 S) mu_0 (ns (pG P)) -> array (s_delta_mu S) delta_mu (ns (pG P)) -> array (s_I_0 S) I_0 (ns (pG P)) ->
  s_rho_s S = Some (Fin rho_s) -> 0 < rho_s -> s_eta_max S = Some (Fin emax) -> 0 <= emax ->
  s_K S = Some (Fin K) -> s_rho S = Fin rho0 ->
  slens n G -> (forall r, (r < 4)%nat -> exists k, pyi n (nearby (pnstar MP) r (nx (pG P))) = Some k) ->
  exists MP' G' p' eta, pouliquen P S MP G = Ok (MP', G') /\
    ppressure MP' = Fin p' /\ p' <= 0 /\ (p' = 0 \/ p' = p + K * (tr3 e / 3)) /\
    peta_lim MP' = Fin eta /\ 0 <= eta <= emax /\
    madd (pstress MP) (pdstress MP') = F3 (plus3 (iso p') (times (eta / dt) (deviator e))) /\
    (pmu MP' = Some NaN \/ exists mu, pmu MP' = Some (Fin mu) /\
       wsum phi mu_0 (ns (pG P)) <= mu <= wsum phi mu_0 (ns (pG P)) + wsum phi delta_mu (ns (pG P))).
Proof.
  intros P S MP G dt e s p rho phi sz mu_0 delta_mu I_0 rho_s emax K rho0 n F [A1 [A2 A3]] [B1 [B2 B3]] [C1 [C2 C3]] ER HR EM HM EK E0 HS HN.
  destruct F as [fdt fdt0 fe fs fp frho fphi fphi0 fphil fsz fsz0 fszl]. unfold pouliquen. set (N := ns (pG P)) in *.
  rewrite (weighted_fin MP phi sz) ; [|assumption|lia|intros; rewrite fsz; apply nth_res_fin; lia].
  rewrite (weighted_fin MP phi mu_0); [|assumption|lia|intros; rewrite A1; cbn [attr bind sc_index]; apply nth_res_fin; lia].
  rewrite (weighted_fin MP phi delta_mu); [|assumption|lia|intros; rewrite B1; cbn [attr bind sc_index]; apply nth_res_fin; lia].
  rewrite (weighted_fin MP phi I_0); [|assumption|lia|intros; rewrite C1; cbn [attr bind sc_index]; apply nth_res_fin; lia].
  cbn [bind]. cbv zeta. destruct (strain_parts MP e fe) as [D1 D2]. rewrite D2, D1. rewrite fdt, (rate_part e dt fdt0).
  rewrite ER, EM, EK. cbn [attr bind]. rewrite fp, E0, frho, fs.
  pose proof (wsum_pos phi sz N fphi0 fsz0) as W0. pose proof (wsum_pos phi mu_0 N fphi0 A3) as W1.
  pose proof (wsum_pos phi delta_mu N fphi0 B3) as W2. pose proof (wsum_pos phi I_0 N fphi0 C3) as W3.
  pose proof (shear_rate_pos e dt fdt0) as G0. set (gd := shear_rate e dt) in *.
  rewrite (xmulF gd (wsum phi sz N)). rewrite (inertia (gd * wsum phi sz N) rho_s p) by (try apply Rmult_le_pos; assumption).
  set (I := if Reqb p 0 then _ else _ : X R).
  destruct (friction_range (wsum phi mu_0 N) (wsum phi delta_mu N) (wsum phi I_0 N) I W1 W2 W3) as [HF0|HF0].
  { intros x. unfold I. destruct (Reqb p 0); [destruct (Reqb _ 0); discriminate|]. intros Q; injection Q as <-.
    apply Rmult_le_pos; [apply Rmult_le_pos; assumption|apply sqrt_pos]. }
  { unfold I. destruct (Reqb p 0); [destruct (Reqb _ 0); discriminate|discriminate]. }
  all: set (mu := (Fin (wsum phi mu_0 N) + _)%num) in *.
  all: assert (HF : mu = NaN \/ exists m, mu = Fin m /\ 0 <= m) by (destruct HF0 as [Q|Q] || idtac; first [left; assumption | destruct HF0 as (m & Q1 & Q2); right; exists m; split; [exact Q1|lra]]).
  all: destruct (eta_range mu p gd emax G0 HM HF) as (el & EE & HE); rewrite EE.
  all: destruct (press_part p K (tr3 e / 3) (Fin rho <? Fin rho0 * lit 8 10)%num) as (p' & EP & HP & HP2); rewrite EP.
  all: rewrite F3_eye, !F3_scale, F3_divs by lra; rewrite F3_add, F3_sub, F3_fin; cbn [negb].
  all: match goal with |- context [visualise ?P ?M ?f ?G] => destruct (visualise_total n P M f G HS) as [G' EV]; [exact HN|rewrite EV] end; cbn [bind].
  all: eexists _, G', p', el; split; [reflexivity|]; split; [reflexivity|]; split; [exact HP|]; split; [exact HP2|]; split; [reflexivity|]; split; [exact HE|].
  all: split; [cbn [pdstress set]; rewrite F3_add; f_equal; destruct s; unfold deviator, plus3, iso, times, madd, msub, mscale, mdivs, mmap2, mmap, eye; cbn; f_equal; field; lra|].
  all: cbn [pmu set].
  - left. rewrite HF0. reflexivity.
  - right. destruct HF0 as (m & Q1 & Q2). exists m. rewrite Q1. split; [reflexivity|exact Q2].
Qed.

(** A state for the examples: the concrete particle with pressure [p] and strain
    increment [e], on a grid with twelve nodes. *)
Definition xp (p : R) (e s : M3 R) : particle (X R) :=
  ex_particle (T := X R) (Fin (1/2)) (Fin (1/2)) v0 (F3 s) <| pphi := map Fin [1/2; 1/2] |> <| ppressure := Fin p |> <| pdstrain := F3 e |>.
Definition xP : params (X R) := ex_params (T := X R) ex_bounds <| p_dt := Fin (1/10) |>.
Definition xG : grid (X R) :=
  let l := repeat (Fin 0) 12 in
  mkGrid (Fin 1) (Fin 1) l l l [] [] [] [] l [] [] [] [] [] l l l l l l l l l l l l l l l [] [] [] [].
Lemma xG_lens : slens 12 xG.
Proof. intros []; reflexivity. Qed.
Lemma xp_finite p e s : finite_mp xP (xp p e s) (1/10) e s p 2 [1/2; 1/2] [1; 2].
Proof.
  constructor; try reflexivity; try lra; (constructor; [lra|constructor; [lra|constructor]]).
Qed.
Lemma xp_nodes p e s r : (r < 4)%nat -> exists k, pyi 12 (nearby (pnstar (xp p e s)) r (nx (pG xP))) = Some k.
Proof. intros Hr. do 4 (destruct r as [|r]; [eexists; vm_compute; reflexivity|]). lia. Qed.
(** Zero pressure and zero shear rate included. *)
Example x_C24_safe : forall p e s, finite_mp xP (xp p e s) (1/10) e s p 2 [1/2; 1/2] [1; 2] /\
  slens 12 xG /\ (forall r, (r < 4)%nat -> exists k, pyi 12 (nearby (pnstar (xp p e s)) r (nx (pG xP))) = Some k) /\
  exists S : solid (X R), array (s_mu_0 S) [1/2; 1/2] 2 /\ array (s_delta_mu S) [1/2; 1/2] 2 /\ array (s_I_0 S) [1; 1] 2 /\
    s_rho_s S = Some (Fin 2) /\ s_eta_max S = Some (Fin 1) /\ s_K S = Some (Fin 3) /\ s_rho S = Fin 2.
Proof.
  intros p e s. split; [apply xp_finite|]. split; [exact xG_lens|]. split; [apply xp_nodes|].
  exists (ex_solid (T := X R) Pouliquen). assert (Q : @nhalf (X R) _ = Fin (1/2)).
  { unfold nhalf, lit. cbn [nofZ Num_X]. rewrite xdivF by (cbn; lra). reflexivity. }
  unfold array. cbn [ex_solid s_mu_0 s_delta_mu s_I_0]. rewrite Q.
  assert (H : Forall (Rle 0) [1/2; 1/2]) by (constructor; [lra|constructor; [lra|constructor]]).
  assert (H1 : Forall (Rle 0) [1; 1]) by (constructor; [lra|constructor; [lra|constructor]]).
  do 3 (split; [split; [reflexivity|split; [reflexivity|assumption]]|]). repeat (split; [reflexivity|]). reflexivity.
Qed.

(** Scalar parameters are not accepted by this law. *)
Lemma p_C24_scalar_aborts : forall T (NT : Num T) (P : params T) S MP G m, s_mu_0 S = Some (Sc m) -> (0 < ns (pG P))%nat ->
  (ns (pG P) <= length (pphi MP))%nat -> (ns (pG P) <= length (gs (pG P)))%nat -> pouliquen P S MP G = Err IndexError.
Proof.
  intros T NT P S MP G m EM HN HP HG. unfold pouliquen, weighted.
  assert (A : forall l acc, (forall i, In i l -> (i < ns (pG P))%nat) ->
    exists v, foldM (fun s i => a <- nth_res (pphi MP) i;; b <- nth_res (gs (pG P)) i;; Ok (s + a * b)%num) acc l = Ok v).
  { induction l as [|i l IH]; intros acc Hl; [eexists; reflexivity|]. cbn [foldM].
    assert (Hi : (i < ns (pG P))%nat) by (apply Hl; left; reflexivity). unfold nth_res at 1 2.
    destruct (nth_error (pphi MP) i) eqn:E1; [|apply nth_error_None in E1; lia].
    destruct (nth_error (gs (pG P)) i) eqn:E2; [|apply nth_error_None in E2; lia]. cbn [bind]. apply IH. intros j Hj. apply Hl. right; exact Hj. }
  destruct (A (seq 0 (ns (pG P))) n0) as [v Ev]; [intros i Hi; apply in_seq in Hi; lia|]. rewrite Ev. cbn [bind].
  destruct (ns (pG P)) as [|k] eqn:EN; [lia|]. cbn [seq foldM]. unfold nth_res at 1.
  destruct (pphi MP) as [|a l]; [cbn in HP; lia|]. cbn [nth_error bind]. rewrite EM. reflexivity.
Qed.

(** ** C25 *)
Definition NaN3 : M3 (X R) := mkM3 NaN NaN NaN NaN NaN NaN NaN NaN NaN.
(** The law always returns; its stress increment is finite exactly when the
    pressure is not zero and the particle shears or has Coulomb friction, and is
    entirely NaN otherwise. *)
Lemma p_C25_exact : forall P S MP G dt e s p rho phi sz mu_0 b rho_s emax K n,
  finite_mp P MP dt e s p rho phi sz ->
  s_mu_0 S = Some (Sc (Fin mu_0)) -> 0 <= mu_0 -> s_b S = Some (Fin b) -> 0 <= b ->
  s_rho_s S = Some (Fin rho_s) -> 0 < rho_s -> s_eta_max S = Some (Fin emax) -> 0 <= emax -> s_K S = Some (Fin K) ->
  slens n G -> (forall r, (r < 4)%nat -> exists k, pyi n (nearby (pnstar MP) r (nx (pG P))) = Some k) ->
  exists MP' G', linear_mu P S MP G = Ok (MP', G') /\
    (p <> 0 -> 0 < shear_rate e dt \/ 0 < mu_0 ->
       exists p' eta, p' <= 0 /\ 0 <= eta <= emax /\
         madd (pstress MP) (pdstress MP') = F3 (plus3 (iso p') (times (eta / dt) (deviator e)))) /\
    (p = 0 \/ (shear_rate e dt = 0 /\ mu_0 = 0) -> pdstress MP' = NaN3).
Proof.
  intros P S MP G dt e s p rho phi sz mu_0 b rho_s emax K n F EM0 HM0 EB HB ER HR EM HM EK HS HN.
  destruct F as [fdt fdt0 fe fs fp frho fphi fphi0 fphil fsz fsz0 fszl]. unfold linear_mu. rewrite mean_size_weighted. set (N := ns (pG P)) in *.
  rewrite (weighted_fin MP phi sz) ; [|assumption|lia|intros; rewrite fsz; apply nth_res_fin; lia].
  cbn [bind]. cbv zeta. destruct (strain_parts MP e fe) as [D1 D2]. rewrite D2, D1. rewrite fdt, (rate_part e dt fdt0).
  rewrite EM0, EB, ER, EM, EK. cbn [attr bind sc_scalar]. rewrite fp, fs.
  pose proof (wsum_pos phi sz N fphi0 fsz0) as W0. pose proof (shear_rate_pos e dt fdt0) as G0. set (gd := shear_rate e dt) in *.
  rewrite (xmulF gd (wsum phi sz N)). rewrite (inertia (gd * wsum phi sz N) rho_s p) by (try apply Rmult_le_pos; assumption).
  destruct (press_part p K (tr3 e / 3) false) as (p' & EP & HP & HP2). rewrite orb_false_r in EP. rewrite EP.
  set (eta := nmin _ (Fin emax)).
  assert (HE : (p <> 0 -> 0 < gd \/ 0 < mu_0 -> exists el, eta = Fin el /\ 0 <= el <= emax) /\ (p = 0 \/ (gd = 0 /\ mu_0 = 0) -> eta = NaN)).
  { unfold eta. clear eta. change (@n2 (X R) _) with (Fin 2). rewrite (xsqrtF 2) by lra. rewrite (xmulF 2), xabsF.
    pose proof (sqrt_lt_R0 2 ltac:(lra)) as S2. set (c := 2 * sqrt 2). assert (Hc : 0 < c) by (unfold c; lra). clearbody c.
    destruct (Req_EM_T p 0) as [Hp|Hp].
    - split; [congruence|intros _]. rewrite Hp, (proj2 (Reqb_true 0 0) eq_refl), Rabs_R0.
      assert (Q : (Fin mu_0 + Fin b * (if Reqb (gd * wsum phi sz N) 0 then NaN else PInf))%num = NaN \/
                  (Fin mu_0 + Fin b * (if Reqb (gd * wsum phi sz N) 0 then NaN else PInf))%num = PInf).
      { destruct (Reqb _ 0); [left; reflexivity|]. change (Fin b * PInf)%num with (xinf_sign b false).
        destruct (Req_EM_T b 0) as [->|Hb]; [rewrite xinf_zero; left; reflexivity|rewrite xinf_pos by lra; right; reflexivity]. }
      destruct Q as [Q|Q]; rewrite Q; [reflexivity|]. change (Fin c * PInf)%num with (xinf_sign c false). rewrite xinf_pos by exact Hc.
      change (PInf * Fin 0)%num with (xinf_sign 0 false). rewrite xinf_zero. reflexivity.
    - rewrite (proj2 (Reqb_false p 0) Hp). pose proof (Rabs_pos_lt p Hp) as Hap. rewrite xmulF, xaddF, !xmulF.
      set (i := gd * wsum phi sz N * sqrt (rho_s / Rabs p)).
      assert (Hi : 0 <= i) by (apply Rmult_le_pos; [apply Rmult_le_pos; assumption|apply sqrt_pos]).
      assert (Hbi : 0 <= b * i) by (apply Rmult_le_pos; assumption).
      destruct (Req_EM_T gd 0) as [Hg|Hg].
      + assert (Zi : i = 0) by (unfold i; rewrite Hg; ring). rewrite Hg, Zi, xdiv0.
        replace (c * (mu_0 + b * 0) * Rabs p) with (c * Rabs p * mu_0) by ring.
        destruct (Req_EM_T mu_0 0) as [Hm|Hm].
        * split; [lra|intros _]. rewrite Hm, Rmult_0_r, xinf_zero. reflexivity.
        * split; [intros _ _|intros [Q|[_ Q]]; congruence]. rewrite xinf_pos by (apply Rmult_lt_0_compat; [apply Rmult_lt_0_compat; assumption|lra]).
          exists emax. split; [reflexivity|lra].
      + split; [intros _ _|intros [Q|[Q _]]; congruence]. rewrite xdivF by exact Hg. rewrite xminF. eexists. split; [reflexivity|].
        assert (0 <= c * (mu_0 + b * i) * Rabs p / gd).
        { apply Rmult_le_pos; [|left; apply Rinv_0_lt_compat; lra]. apply Rmult_le_pos; [|lra]. apply Rmult_le_pos; lra. }
        unfold Rmin. destruct (Rle_dec _ emax); lra. }
  clearbody eta. destruct HE as [HE1 HE2].
  match goal with |- context [visualise ?P ?M ?f ?G] => destruct (visualise_total n P M f G HS) as [G' EV]; [exact HN|rewrite EV] end. cbn [bind].
  eexists _, G'. split; [reflexivity|]. cbn [pdstress set]. split.
  - intros Hp Hq. destruct (HE1 Hp Hq) as (el & -> & Hel). exists p', el. split; [exact HP|]. split; [exact Hel|].
    rewrite F3_eye, !F3_scale, F3_divs by lra. rewrite F3_add, F3_sub, F3_add. f_equal.
    destruct s; unfold deviator, plus3, iso, times, madd, msub, mscale, mdivs, mmap2, mmap, eye; cbn; f_equal; field; lra.
  - intros Hq. rewrite (HE2 Hq). destruct s; reflexivity.
Qed.
(** In particular no particle that carries no pressure yet can be computed. *)
Lemma p_C25_finite_refuted : forall P S MP G dt e s rho phi sz mu_0 b rho_s emax K n,
  finite_mp P MP dt e s 0 rho phi sz ->
  s_mu_0 S = Some (Sc (Fin mu_0)) -> 0 <= mu_0 -> s_b S = Some (Fin b) -> 0 <= b ->
  s_rho_s S = Some (Fin rho_s) -> 0 < rho_s -> s_eta_max S = Some (Fin emax) -> 0 <= emax -> s_K S = Some (Fin K) ->
  slens n G -> (forall r, (r < 4)%nat -> exists k, pyi n (nearby (pnstar MP) r (nx (pG P))) = Some k) ->
  exists MP' G', linear_mu P S MP G = Ok (MP', G') /\ pdstress MP' = NaN3.
Proof.
  intros. destruct (p_C25_exact P S MP G dt e s 0 rho phi sz mu_0 b rho_s emax K n) as (MP' & G' & E & _ & Z); auto.
  exists MP', G'. auto.
Qed.
Example x_C25_exact : forall p e s, exists S, finite_mp xP (xp p e s) (1/10) e s p 2 [1/2; 1/2] [1; 2] /\
  s_mu_0 S = Some (Sc (Fin (1/2))) /\ s_b S = Some (Fin 1) /\ s_rho_s S = Some (Fin 1) /\ s_eta_max S = Some (Fin 1) /\ s_K S = Some (Fin 3) /\
  slens 12 xG /\ (forall r, (r < 4)%nat -> exists k, pyi 12 (nearby (pnstar (xp p e s)) r (nx (pG xP))) = Some k).
Proof.
  intros p e s. exists (mkSolid (Fin 2) (Fin 1) LinearMu [Fin (1/2); Fin (1/2)] (Some (Fin 3)) None None None None None None None
    (Some (Sc (Fin (1/2)))) None None None None (Some (Fin 1)) (Some (Fin 1)) (Some (Fin 1)) None None None None None None None None None [] None false None).
  split; [apply xp_finite|]. repeat (split; [reflexivity|]). split; [exact xG_lens|apply xp_nodes].
Qed.

