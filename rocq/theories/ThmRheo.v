(** * Friction in the granular laws: C77 to C79. *)
From Coq Require Import ZArith Reals List Bool Arith Lra Lia.
From Verif Require Import State NumR NumX Spec SpecLaws LibList LibR ModelGrid ModelConstit ModelParticle ModelMPList ModelMain
  ProofsGrid ProofsMap ProofsP2G ProofsLaws ProofsHist ProofsX ProofsStep ProofsPoints Concrete ThmMapping ThmLaws ThmLawsX ThmStep ThmFields.
Import ListNotations.
Local Open Scope R_scope.

Lemma frob_nonneg a : 0 <= frob a.
Proof. apply sqrt_pos. Qed.
Lemma frob_times c a : frob (times c a) = Rabs c * frob a.
Proof.
  unfold frob. replace (inner (times c a) (times c a)) with (c * c * inner a a) by (unfold inner, times; cbn; ring).
  rewrite sqrt_mult_alt by nra. replace (c * c) with (Rsqr c) by (unfold Rsqr; ring). rewrite sqrt_Rsqr_abs. reflexivity.
Qed.
Lemma visc_dev c e dt : mdivs (mscale c (dev_of e)) dt = times (c / dt) (deviator e).
Proof. rewrite dev_of_spec. destruct (deviator e). unfold mdivs, mscale, times, mmap, mmap. cbn. f_equal; unfold Rdiv; ring. Qed.

Lemma Rmin_scal k a b : 0 <= k -> Rmin (k * a) (k * b) = k * Rmin a b.
Proof. intros Hk. unfold Rmin. destruct (Rle_dec (k * a) (k * b)), (Rle_dec a b); nra. Qed.
Lemma Rinv_sqrt_nonneg x : 0 <= / sqrt x.
Proof. destruct (sqrt_pos x) as [H|H]; [left; apply Rinv_0_lt_compat; exact H|rewrite <- H, Rinv_0; lra]. Qed.
Lemma add_back (s d : M3 R) : madd s (msub d s) = d.
Proof. destruct s, d. unfold madd, msub, mmap2. cbn. f_equal; ring. Qed.
(** The viscous part of the two laws: along the shear of the increment, with a limited viscosity. *)
Definition limited (mu p gd emax : R) : R := Rmin (2 * sqrt 2 * mu * Rabs p / gd) emax.
Lemma pouliquen_core P S (p p' : particle R) (G G' : grid R) emax : pouliquen P S p G = Ok (p', G') -> 0 < p_dt P ->
  s_eta_max S = Some emax -> exists mu, pmu p' = Some mu /\
    pdev p' = times (limited mu (ppressure p) (shear_rate (pdstrain p) (p_dt P)) emax / p_dt P) (deviator (pdstrain p)) /\
    madd (pstress p) (pdstress p') = madd (mscale (ppressure p') eye) (pdev p').
Proof.
  intros E Hd HE. unfold pouliquen in E. pbinds E. destruct (negb _); [discriminate|]. pbinds E. rewrite HE in *.
  match goal with H : attr (Some emax) = Ok _ |- _ => injection H as <- end.
  apply okp_inj in E. destruct E as [<- _]. eexists. split; [reflexivity|].
  split.
  - refine (eq_trans (visc_dev _ (pdstrain p) (p_dt P)) _). unfold limited. rewrite <- (gd_spec (pdstrain p) (p_dt P) Hd). reflexivity.
  - destruct (pstress p) eqn:ES. cbn [pdstress pdev ppressure set]. apply add_back.
Qed.
Lemma linear_core P S (p p' : particle R) (G G' : grid R) emax : linear_mu P S p G = Ok (p', G') -> 0 < p_dt P ->
  s_eta_max S = Some emax -> exists mu, pmu p' = Some mu /\
    pdev p' = times (limited mu (ppressure p) (shear_rate (pdstrain p) (p_dt P)) emax / p_dt P) (deviator (pdstrain p)) /\
    madd (pstress p) (pdstress p') = madd (mscale (ppressure p') eye) (pdev p').
Proof.
  intros E Hd HE. unfold linear_mu in E. pbinds E. rewrite HE in *.
  match goal with H : attr (Some emax) = Ok _ |- _ => injection H as <- end.
  apply okp_inj in E. destruct E as [<- _]. eexists. split; [reflexivity|].
  split.
  - refine (eq_trans (visc_dev _ (pdstrain p) (p_dt P)) _). unfold limited. rewrite <- (gd_spec (pdstrain p) (p_dt P) Hd). reflexivity.
  - apply add_back.
Qed.
(** C77.  The shear stress that the two mu(I) laws set lies along the shear of the increment, and its size is the smaller of
    the friction coefficient times the pressure from before the increment and the cap from [eta_max]. *)
Lemma p_C77_friction : forall P S0 S ip (p p' : particle R) (G G' : grid R) emax, s_law S = Pouliquen \/ s_law S = LinearMu ->
  apply_law P S0 S ip p G = Ok (p', G') -> 0 < p_dt P -> s_eta_max S = Some emax -> 0 <= emax ->
  0 < frob (deviator (pdstrain p)) ->
  exists mu c, pmu p' = Some mu /\ pdev p' = times c (deviator (pdstrain p)) /\
    (0 <= mu -> 0 <= c /\
      frob (pdev p') / sqrt 2 = Rmin (mu * Rabs (ppressure p)) (emax * frob (deviator (pdstrain p)) / (sqrt 2 * p_dt P))) /\
    plus3 (pstress p) (pdstress p') = plus3 (iso (ppressure p')) (pdev p').
Proof.
  intros P S0 S ip p p' G G' emax HL E Hd HE H0 HF.
  assert (X : exists mu, pmu p' = Some mu /\
    pdev p' = times (limited mu (ppressure p) (shear_rate (pdstrain p) (p_dt P)) emax / p_dt P) (deviator (pdstrain p)) /\
    madd (pstress p) (pdstress p') = madd (mscale (ppressure p') eye) (pdev p')).
  { unfold apply_law in E. destruct HL as [HL|HL]; rewrite HL in E; [eapply pouliquen_core|eapply linear_core]; eauto. }
  destruct X as (mu & EM & ED & ES). exists mu. eexists. split; [exact EM|]. split; [exact ED|]. split.
  - intros Hm. pose proof (Rabs_pos (ppressure p)) as Hp. pose proof (sqrt_lt_R0 2 ltac:(lra)) as S2.
    assert (HG : 0 < shear_rate (pdstrain p) (p_dt P)) by (unfold shear_rate; apply Rdiv_lt_0_compat; lra).
    assert (HL0 : 0 <= limited mu (ppressure p) (shear_rate (pdstrain p) (p_dt P)) emax).
    { unfold limited. apply Rmin_glb; [|exact H0]. apply Rmult_le_pos; [|left; apply Rinv_0_lt_compat; exact HG].
      apply Rmult_le_pos; [|exact Hp]. apply Rmult_le_pos; lra. }
    assert (HC : 0 <= limited mu (ppressure p) (shear_rate (pdstrain p) (p_dt P)) emax / p_dt P).
    { apply Rmult_le_pos; [exact HL0|left; apply Rinv_0_lt_compat; exact Hd]. }
    split; [exact HC|]. rewrite ED, frob_times, Rabs_pos_eq by exact HC. unfold limited, shear_rate.
    set (F := frob (deviator (pdstrain p))) in *. set (q := Rabs (ppressure p)) in *.
    assert (A1 : mu * q = 2 * sqrt 2 * mu * q / (2 * F / p_dt P) * (F / (sqrt 2 * p_dt P))).
    { replace (2 * sqrt 2 * mu * q / (2 * F / p_dt P) * (F / (sqrt 2 * p_dt P))) with (mu * q * (sqrt 2 / sqrt 2)) by (field; lra). field; lra. }
    rewrite A1. replace (emax * F / (sqrt 2 * p_dt P)) with (emax * (F / (sqrt 2 * p_dt P))) by (unfold Rdiv; ring).
    assert (K : 0 <= F / (sqrt 2 * p_dt P)) by (apply Rmult_le_pos; [lra|left; apply Rinv_0_lt_compat; nra]).
    rewrite (Rmult_comm _ (F / _)), (Rmult_comm emax). rewrite Rmin_scal by exact K. field. lra.
  - destruct (pdev p'), (pstress p), (pdstress p'). unfold madd, mscale, mmap2, mmap, eye in ES. cbn in ES. unfold plus3, iso. cbn.
    injection ES as -> -> -> -> -> -> -> -> ->. f_equal; ring.
Qed.
Lemma weighted_R (MP : particle R) b n get w : weighted MP n get = Ok w -> (forall i x, (i < n)%nat -> get i = Ok x -> x = nth i b 0) ->
  w = wsum (pphi MP) b n.
Proof.
  intros E Hg. unfold weighted, wsum in *. change (@n0 R _) with 0 in E.
  assert (A : forall m acc k w, (k + m <= n)%nat ->
    foldM (fun s i => a <- nth_res (pphi MP) i;; b <- get i;; Ok (s + a * b)%num) acc (seq k m) = Ok w ->
    w = acc + fsum m (fun i => nth (k + i) (pphi MP) 0 * nth (k + i) b 0)).
  { clear - Hg. induction m as [|m IH]; intros acc k w Hk E.
    - injection E as <-. cbn. lra.
    - cbn [seq foldM] in E. apply bind_ok in E. destruct E as (w1 & E1 & E). pbinds E1. injection E1 as <-.
      match goal with H : nth_res _ k = Ok _ |- _ => apply (nth_res_ok _ _ _ 0) in H; destruct H as [_ <-] end.
      match goal with H : get k = Ok _ |- _ => apply Hg in H; [subst|lia] end.
      apply IH in E; [|lia]. rewrite E. cbn [nadd nmul Num_R].
      assert (S1 : fsum (Datatypes.S m) (fun i => nth (k + i) (pphi MP) 0 * nth (k + i) b 0) =
        nth k (pphi MP) 0 * nth k b 0 + fsum m (fun i => nth (Datatypes.S k + i) (pphi MP) 0 * nth (Datatypes.S k + i) b 0)).
      { clear. induction m as [|m IH]; [cbn; rewrite Nat.add_0_r; lra|].
        cbn [fsum] in IH |- *. rewrite IH. replace (Datatypes.S k + m)%nat with (k + Datatypes.S m)%nat by lia. lra. }
      rewrite S1. lra. }
  apply A in E; [|lia]. rewrite E, Rplus_0_l. reflexivity.
Qed.
(** The friction coefficient: rising with the inertial number [I] from the sum of [phi mu_0] towards the sum of
    [phi (mu_0 + delta_mu)] (pouliquen), or without bound (linear_mu).  The inertial number is taken at the pressure from before the increment. *)
Lemma p_C77_mu : forall P S0 S ip (p p' : particle R) (G G' : grid R) rho_s, apply_law P S0 S ip p G = Ok (p', G') -> 0 < p_dt P ->
  s_rho_s S = Some rho_s ->
  (s_law S = Pouliquen \/ s_law S = LinearMu ->
     pI p' = shear_rate (pdstrain p) (p_dt P) * wsum (pphi p) (gs (pG P)) (ns (pG P)) * sqrt (rho_s / Rabs (ppressure p))) /\
  (forall m0 dm I0, s_law S = Pouliquen -> s_mu_0 S = Some (Ar m0) -> s_delta_mu S = Some (Ar dm) -> s_I_0 S = Some (Ar I0) ->
     0 < pI p' -> 0 <= wsum (pphi p) I0 (ns (pG P)) ->
     pmu p' = Some (wsum (pphi p) m0 (ns (pG P)) +
                    wsum (pphi p) dm (ns (pG P)) * (pI p' / (pI p' + wsum (pphi p) I0 (ns (pG P)))))) /\
  (forall m0 b, s_law S = LinearMu -> s_mu_0 S = Some (Sc m0) -> s_b S = Some b -> pmu p' = Some (m0 + b * pI p')).
Proof.
  intros P S0 S ip p p' G G' rho_s E Hd HR. unfold apply_law in E. rewrite <- (gd_spec (pdstrain p) (p_dt P) Hd).
  split; [|split].
  - intros [HL|HL]; rewrite HL in E.
    + unfold pouliquen in E. pbinds E. destruct (negb _); [discriminate|]. pbinds E. rewrite HR in *.
      match goal with H : attr (Some rho_s) = Ok _ |- _ => injection H as <- end.
      match goal with H : weighted p (ns (pG P)) (fun i => nth_res (gs (pG P)) i) = Ok ?a |- _ =>
        apply (weighted_R p (gs (pG P))) in H; [|intros i x _ Q; apply (nth_res_ok _ _ _ 0) in Q; symmetry; apply Q]; rewrite <- H end.
      apply okp_inj in E. destruct E as [<- _]. reflexivity.
    + unfold linear_mu in E. rewrite mean_size_weighted in E. pbinds E. rewrite HR in *.
      match goal with H : attr (Some rho_s) = Ok _ |- _ => injection H as <- end.
      match goal with H : weighted p (ns (pG P)) (fun i => nth_res (gs (pG P)) i) = Ok ?a |- _ =>
        apply (weighted_R p (gs (pG P))) in H; [|intros i x _ Q; apply (nth_res_ok _ _ _ 0) in Q; symmetry; apply Q]; rewrite <- H end.
      apply okp_inj in E. destruct E as [<- _]. reflexivity.
  - intros m0 dm I0 HL H1 H2 H3 HI HI0. rewrite HL in E. unfold pouliquen in E. rewrite H1, H2, H3, HR in E. pbinds E. destruct (negb _); [discriminate|]. pbinds E.
    match goal with H : attr (Some rho_s) = Ok _ |- _ => injection H as <- end.
    repeat match goal with H : weighted p (ns (pG P)) (fun i => b <- attr (Some (Ar ?l)) ;; sc_index b i) = Ok ?a |- _ =>
        apply (weighted_R p l) in H; [|intros i x _ Q; apply (nth_res_ok _ _ _ 0) in Q; symmetry; apply Q]; rewrite <- H in *; clear H end.
    apply okp_inj in E. destruct E as [E _]. rewrite <- E in HI |- *. clear E.
    cbn [pI pmu set] in HI |- *. f_equal.
    match goal with |- (?m + ?d / (?i0 / ?i + n1))%num = _ => set (I := i) in *; change (m + d / (i0 / I + 1) = m + d * (I / (I + i0))) end.
    clearbody I. field. lra.
  - intros m0 b HL H1 H2. rewrite HL in E. unfold linear_mu in E. rewrite H1, H2, HR in E. pbinds E.
    match goal with H : attr (Some rho_s) = Ok _ |- _ => injection H as <- end.
    match goal with H : attr (Some b) = Ok _ |- _ => injection H as <- end.
    match goal with H : attr (Some (Sc m0)) = Ok _ |- _ => injection H as <- end.
    match goal with H : sc_scalar (Sc m0) = Ok _ |- _ => injection H as <- end.
    apply okp_inj in E. destruct E as [<- _]. reflexivity.
Qed.

Definition sheared (pr : R) (e : M3 R) : particle R := ex_p_loc <| ppressure := pr |> <| pdstrain := e |>.
Lemma sheared_located pr e : located ex_gridp (sheared pr e).
Proof. exact ex_p_located. Qed.
Lemma dev_pos (e : M3 R) : xy e <> 0 -> 0 < frob (deviator e).
Proof.
  intros H. apply sqrt_lt_R0. unfold inner, deviator. cbn. assert (0 < xy e * xy e) by nra.
  pose proof (Rle_0_sqr (xx e - tr3 e / 3)). pose proof (Rle_0_sqr (yy e - tr3 e / 3)). pose proof (Rle_0_sqr (zz e - tr3 e / 3)).
  pose proof (Rle_0_sqr (xz e)). pose proof (Rle_0_sqr (yx e)). pose proof (Rle_0_sqr (yz e)). pose proof (Rle_0_sqr (zx e)). pose proof (Rle_0_sqr (zy e)).
  unfold Rsqr in *. lra.
Qed.
Lemma run_linear pr e : xy e <> 0 -> exists G p' G' mu, apply_law (ex_params ex_bounds) (ex_solid_sc LinearMu) (ex_solid_sc LinearMu) 0 (sheared pr e) G = Ok (p', G') /\
  pmu p' = Some mu /\ 2 <= mu.
Proof.
  intros He. destruct (grid_init_ok (ex_gridp (T := R)) ex_bounds ex_proper) as (G0 & _ & HG0).
  destruct (run_law LinearMu 0 ltac:(cbn; tauto) (sheared pr e) G0 (sheared_located pr e) eq_refl) as (p' & G' & E).
  eexists _, p', G', _. split; [exact E|]. 
  pose proof (p_C77_mu _ _ _ _ _ _ _ _ _ E ltac:(cbn; lra) eq_refl) as (A & _ & B).
  rewrite (B _ _ eq_refl eq_refl eq_refl). split; [reflexivity|]. rewrite (A (or_intror eq_refl)).
  match goal with |- 2 <= _ + _ * (?a * ?b * ?c) => assert (0 <= a) by (apply shear_rate_pos; cbn; lra);
    assert (0 <= b) by (cbn; lra); assert (0 <= c) by apply sqrt_pos; assert (0 <= a * b * c) by (apply Rmult_le_pos; [apply Rmult_le_pos|]; assumption) end.
  match goal with H : 0 <= ?z |- 2 <= _ + _ * ?z => revert H; generalize z end. intros z Hz. cbn. lra.
Qed.
Example x_C77_friction : exists P S (p p' : particle R) (G G' : grid R) emax mu, s_law S = LinearMu /\
  apply_law P S S 0 p G = Ok (p', G') /\ 0 < p_dt P /\ s_eta_max S = Some emax /\ 0 <= emax /\
  0 < frob (deviator (pdstrain p)) /\ pmu p' = Some mu /\ 0 <= mu.
Proof.
  set (e := mkM3 1 2 0 2 0 0 0 0 0). destruct (run_linear (-1) e ltac:(cbn; lra)) as (G & p' & G' & mu & E & EM & HM).
  eexists _, _, _, p', G, G', _, mu. split; [|split; [exact E|]]; [reflexivity|]. split; [cbn; lra|]. split; [reflexivity|].
  split; [cbn; lra|]. split; [apply dev_pos; cbn; lra|]. split; [exact EM|lra].
Qed.
Example x_C77_mu : exists P S (p p' : particle R) (G G' : grid R) rho_s, s_law S = LinearMu /\
  apply_law P S S 0 p G = Ok (p', G') /\ 0 < p_dt P /\ s_rho_s S = Some rho_s /\ s_mu_0 S = Some (Sc 2) /\ s_b S = Some 1.
Proof.
  set (e := mkM3 1 2 0 2 0 0 0 0 0). destruct (run_linear (-1) e ltac:(cbn; lra)) as (G & p' & G' & mu & E & EM & HM).
  eexists _, _, _, p', G, G', _. split; [|split; [exact E|]]; [reflexivity|]. split; [cbn; lra|]. repeat (split; [reflexivity|]). reflexivity.
Qed.
Lemma linear_pressure P S MP (G : grid R) p' G' S0 ip K : forall (HL : s_law S = LinearMu) (HK : s_K S = Some K), apply_law P S0 S ip MP G = Ok (p', G') ->
  ppressure p' = Rmin 0 (ppressure MP + K * (tr3 (pdstrain MP) / 3)).
Proof.
  intros HL HK E. unfold apply_law in E. rewrite HL in E. unfold linear_mu in E. rewrite HK in E. pbinds E. apply okp_inj in E. destruct E as [E _].
  match goal with H : attr (Some _) = Ok _ |- _ => injection H as <- end.
  clear - E. assert (EP : ppressure p' = (if Rltb 0 (ppressure MP + K * (tr3 (pdstrain MP) / 3)) then 0 else ppressure MP + K * (tr3 (pdstrain MP) / 3)))
    by (rewrite <- E; reflexivity).
  rewrite EP. unfold Rltb, Rmin. destruct (Rlt_dec _ _), (Rle_dec _ _); lra.
Qed.
(** The coefficient multiplies the pressure from before the increment: a point that expands so far that its pressure
    is cut to zero keeps a shear stress. *)
Lemma p_C77_new_pressure_refuted : ~ forall P S0 S ip (p p' : particle R) (G G' : grid R) emax mu,
  s_law S = LinearMu -> apply_law P S0 S ip p G = Ok (p', G') -> 0 < p_dt P -> s_eta_max S = Some emax -> 0 <= emax ->
  pmu p' = Some mu -> 0 <= mu -> frob (pdev p') / sqrt 2 <= mu * Rabs (ppressure p').
Proof.
  intros H. set (e := mkM3 3 2 0 2 0 0 0 0 0). destruct (run_linear (-1) e ltac:(cbn; lra)) as (G & p' & G' & mu & E & EM & HM).
  assert (HL : s_law (ex_solid_sc (T := R) LinearMu) = LinearMu) by reflexivity.
  specialize (H _ _ _ _ _ _ _ _ _ _ HL E ltac:(cbn; lra) eq_refl ltac:(cbn; lra) EM ltac:(lra)).
  assert (HD : 0 < frob (deviator (pdstrain (sheared (-1) e)))) by (apply dev_pos; cbn; lra).
  destruct (p_C77_friction _ _ _ _ _ _ _ _ _ (or_intror HL) E ltac:(cbn; lra) eq_refl ltac:(cbn; lra) HD) as (mu' & c & EM' & _ & F & _).
  rewrite EM in EM'. injection EM' as <-. destruct (F ltac:(lra)) as [_ F']. rewrite F' in H. clear F F'.
  assert (EP : ppressure p' = 0).
  { rewrite (linear_pressure _ _ _ _ _ _ _ _ 3 HL eq_refl E). apply Rmin_left. unfold tr3, e; cbn. lra. }
  rewrite EP, Rabs_R0, Rmult_0_r in H. revert H. apply Rlt_not_le. apply Rmin_pos.
  - cbn [sheared ppressure set]. rewrite Rabs_left by lra. lra.
  - apply Rdiv_lt_0_compat; [apply Rmult_lt_0_compat; [cbn; lra|exact HD]|]. apply Rmult_lt_0_compat; [apply sqrt_lt_R0; lra|cbn; lra].
Qed.

(** ** C78 *)
(** ken_kamrin: with the pressure [q] after the increment (positive in tension) and the shear rate, not less than
    [sqrt 2 / 100000], the shear stress is along the shear of the increment. Where the cap of the viscosity is not
    negative, the size of the shear stress is the friction coefficient times [q], or the cap times the shear rate,
    whichever is smaller. *)
Lemma p_C78_friction : forall P S0 S ip (p p' : particle R) (G G' : grid R) K ms m2 I0, s_law S = KenKamrin ->
  apply_law P S0 S ip p G = Ok (p', G') -> 0 < p_dt P -> s_K S = Some K -> s_mu_s S = Some ms -> s_mu_2 S = Some m2 ->
  s_I_0 S = Some (Sc I0) -> 0 <= ms <= m2 -> 0 <= I0 ->
  let q := ppressure p + K * (tr3 (pdstrain p) / 3) in
  let H := y_M (pG P) - y_m (pG P) in
  let cap := 250 * prho p * p_max_g P * (H * H * H) in
  let gd := Rmax (shear_rate (pdstrain p) (p_dt P)) (sqrt 2 / 100000) in
  ppressure p' = q /\
  exists mu, ms <= mu <= m2 /\
    pdev p' = times (2 / p_dt P * Rmin (Rmax (mu * q / gd) 0) cap) (deviator (pdstrain p)) /\
    (0 <= cap -> sqrt 2 / 100000 <= shear_rate (pdstrain p) (p_dt P) ->
     frob (pdev p') = Rmin (Rmax (mu * q) 0) (cap * shear_rate (pdstrain p) (p_dt P))).
Proof.
  intros P S0 S ip p p' G G' K ms m2 I0 HL E Hd HK H1 H2 H3 Hm HI q H cap gd. unfold apply_law in E. rewrite HL in E.
  unfold ken_kamrin in E. rewrite HK, H1, H2, H3 in E. pbinds E.
  repeat match goal with Q : attr (Some _) = Ok _ |- _ => injection Q as <- end.
  match goal with Q : sc_scalar (Sc _) = Ok _ |- _ => injection Q as <- end.
  apply okp_inj in E. destruct E as [E _]. split; [rewrite <- E; reflexivity|].
  assert (ED : exists mu, ms <= mu <= m2 /\ pdev p' =
    mscale (Rmin (Rmax (mu * q / (sqrt 2 * Rmax (sqrt (1 / 2 * msum (mmap nsq (mdivs (mscale n2 (dev_of (pdstrain p))) (p_dt P))))) (1 / 100000))) 0) cap)
      (mdivs (mscale n2 (dev_of (pdstrain p))) (p_dt P))).
  { eexists. split; [|rewrite <- E; reflexivity].
    match goal with |- _ <= nan0 (_ + _ / (nan0 (_ / ?i) + n1))%num <= _ => assert (HI' : 0 <= i) end.
    { apply Rmult_le_pos; [|apply Rinv_sqrt_nonneg]. apply Rmult_le_pos; [apply Rmult_le_pos; [apply sqrt_pos|cbn; lra]|].
      apply Rle_trans with (1 / 100000); [lra|apply Rmax_r]. }
    match goal with |- _ <= nan0 (_ + _ / (nan0 (_ / ?i) + n1))%num <= _ => revert HI'; generalize i; intros I HI'; change (ms <= ms + (m2 - ms) / (I0 / I + 1) <= m2) end.
    assert (A : 0 <= I0 / I). { destruct HI' as [HI'|<-]; [apply Rmult_le_pos; [lra|left; apply Rinv_0_lt_compat; exact HI']|]. unfold Rdiv. rewrite Rinv_0. lra. }
    assert (B : 0 < / (I0 / I + 1) <= 1). { split; [apply Rinv_0_lt_compat; lra|]. rewrite <- Rinv_1. apply Rinv_le_contravar; lra. }
    unfold Rdiv at 1 3. nra. }
  destruct ED as (mu & Hmu & ED). exists mu. split; [exact Hmu|]. clear E E6. pose proof (sqrt_lt_R0 2 ltac:(lra)) as S2.
  assert (EG : sqrt 2 * Rmax (sqrt (1 / 2 * msum (mmap nsq (mdivs (mscale n2 (dev_of (pdstrain p))) (p_dt P))))) (1 / 100000) = gd).
  { rewrite sqrt_mult_alt by lra. rewrite (gd_spec _ _ Hd). replace (1 / 2) with (/ 2) by lra. rewrite sqrt_inv.
    rewrite <- RmaxRmult by lra. unfold gd. f_equal; field; lra. }
  rewrite EG in ED. set (eta := Rmin _ _) in *.
  assert (ED' : pdev p' = times (2 / p_dt P * eta) (deviator (pdstrain p))).
  { rewrite ED, dev_of_spec. destruct (deviator (pdstrain p)). unfold mscale, mdivs, mmap, times. cbn. f_equal; field; lra. }
  split; [exact ED'|]. intros HC HG. assert (Eg : gd = shear_rate (pdstrain p) (p_dt P)) by (apply Rmax_left; exact HG).
  assert (HS : 0 < gd) by lra. clear EG.
  assert (He : 0 <= eta) by (apply Rmin_glb; [apply Rmax_r|exact HC]).
  assert (Hd2 : 0 < 2 / p_dt P) by (apply Rdiv_lt_0_compat; lra).
  rewrite ED', frob_times, Rabs_pos_eq by nra.
  replace (2 / p_dt P * eta * frob (deviator (pdstrain p))) with (gd * eta) by (rewrite Eg; unfold shear_rate; field; lra).
  unfold eta. rewrite <- Rmin_scal by lra. rewrite <- Eg. rewrite (Rmult_comm cap). f_equal. rewrite <- RmaxRmult by lra. rewrite Rmult_0_r. f_equal. field. lra.
Qed.

Lemma inner_times c (a : M3 R) : inner (times c a) a = c * (frob a * frob a).
Proof. unfold frob. rewrite sqrt_sqrt; [destruct a; unfold inner, times; cbn; ring|]. destruct a; unfold inner; cbn. nra. Qed.
Definition ken_params (g : R) : params R := ex_params ex_bounds <| p_max_g := g |>.
Lemma run_ken g pr e : exists G p' G', apply_law (ken_params g) (ex_solid_sc KenKamrin) (ex_solid_sc KenKamrin) 0 (sheared pr e) G = Ok (p', G').
Proof.
  destruct (grid_init_ok (ex_gridp (T := R)) ex_bounds ex_proper) as (G0 & _ & HG0). exists (wipe (ken_params g) G0).
  pose proof (sheared_located pr e) as HL. unfold apply_law. cbn [s_law ex_solid_sc]. unfold ken_kamrin.
  cbn [ex_solid_sc s_K s_mu_s s_mu_2 s_mu_v s_I_0 attr bind sc_scalar].
  match goal with |- context [visualise ?P ?MP ?fs (wipe ?P ?G)] => destruct (vis_ex P MP fs G ex_proper HL) as [G' E']; rewrite E'; cbn [bind] end.
  eauto.
Qed.
Lemma frob_shear (e : M3 R) : Rabs (xy e) <= frob (deviator e).
Proof.
  rewrite <- sqrt_Rsqr_abs. apply sqrt_le_1_alt. unfold inner, deviator, Rsqr. cbn.
  pose proof (Rle_0_sqr (xx e - tr3 e / 3)). pose proof (Rle_0_sqr (yy e - tr3 e / 3)). pose proof (Rle_0_sqr (zz e - tr3 e / 3)).
  pose proof (Rle_0_sqr (xz e)). pose proof (Rle_0_sqr (yx e)). pose proof (Rle_0_sqr (yz e)). pose proof (Rle_0_sqr (zx e)). pose proof (Rle_0_sqr (zy e)).
  unfold Rsqr in *. lra.
Qed.
Example x_C78_friction : exists P S (p p' : particle R) (G G' : grid R) I0, s_law S = KenKamrin /\
  apply_law P S S 0 p G = Ok (p', G') /\ 0 < p_dt P /\ s_mu_s S = Some 1 /\ s_mu_2 S = Some 1 /\ s_I_0 S = Some (Sc I0) /\ 0 <= I0 /\
  0 < 250 * prho p * p_max_g P /\ 0 < y_M (pG P) - y_m (pG P) /\ sqrt 2 / 100000 <= shear_rate (pdstrain p) (p_dt P) /\ ppressure p = 1.
Proof.
  set (e := mkM3 1 2 0 2 0 0 0 0 0). destruct (run_ken 1 1 e) as (G & p' & G' & E).
  eexists _, _, _, p', G, G', _. split; [|split; [exact E|]]; [reflexivity|]. split; [cbn; lra|]. split; [reflexivity|]. split; [reflexivity|].
  split; [reflexivity|]. split; [cbn; lra|]. split; [cbn; lra|]. split; [cbn; lra|]. split; [|reflexivity].
  pose proof (frob_shear e) as F. change (xy e) with 2 in F. rewrite Rabs_pos_eq in F by lra.
  change (pdstrain (sheared 1 e)) with e. unfold shear_rate. change (p_dt (ken_params 1)) with (1 / 10).
  assert (sqrt 2 <= 2). { rewrite <- (sqrt_square 2) at 2 by lra. apply sqrt_le_1_alt. lra. }
  lra.
Qed.
(** With a cap that is not negative, a point that is not in tension has no shear stress. *)
Lemma p_C78_compressed : forall P S0 S ip (p p' : particle R) (G G' : grid R) K ms m2 I0, s_law S = KenKamrin ->
  apply_law P S0 S ip p G = Ok (p', G') -> 0 < p_dt P -> s_K S = Some K -> s_mu_s S = Some ms -> s_mu_2 S = Some m2 ->
  s_I_0 S = Some (Sc I0) -> 0 <= ms <= m2 -> 0 <= I0 -> 0 <= prho p -> 0 <= p_max_g P -> y_m (pG P) <= y_M (pG P) ->
  ppressure p' <= 0 -> pdev p' = mkM3 0 0 0 0 0 0 0 0 0.
Proof.
  intros P S0 S ip p p' G G' K ms m2 I0 HL E Hd HK H1 H2 H3 Hm HI Hr Hg Hy HQ.
  destruct (p_C78_friction _ _ _ _ _ _ _ _ _ _ _ _ HL E Hd HK H1 H2 H3 Hm HI) as (EQ & mu & Hmu & ED & _). rewrite EQ in HQ.
  rewrite ED. set (q := ppressure p + _) in *. set (gd := Rmax _ (_ / _)).
  assert (G0 : 0 < gd). { apply Rlt_le_trans with (sqrt 2 / 100000); [pose proof (sqrt_lt_R0 2 ltac:(lra)); lra|apply Rmax_r]. }
  assert (A : mu * q / gd <= 0). { unfold Rdiv. assert (0 < / gd) by (apply Rinv_0_lt_compat; exact G0). assert (mu * q <= 0) by nra. nra. }
  rewrite (Rmax_right _ _ A), Rmin_left.
  - destruct (deviator _). unfold times. cbn. f_equal; ring.
  - apply Rmult_le_pos; [apply Rmult_le_pos; [lra|exact Hg]|]. apply Rmult_le_pos; [apply Rmult_le_pos|]; lra.
Qed.
Example x_C78_compressed : exists P S (p p' : particle R) (G G' : grid R), s_law S = KenKamrin /\
  apply_law P S S 0 p G = Ok (p', G') /\ 0 < p_dt P /\ 0 < prho p /\ 0 < p_max_g P /\ y_m (pG P) < y_M (pG P) /\
  ppressure p' < 0 /\ 0 < frob (deviator (pdstrain p)).
Proof.
  set (e := mkM3 1 2 0 2 0 0 0 0 0). destruct (run_ken 1 (-9) e) as (G & p' & G' & E).
  assert (HL : s_law (ex_solid_sc (T := R) KenKamrin) = KenKamrin) by reflexivity.
  destruct (p_C78_friction _ _ _ _ _ _ _ _ 3 1 1 1 HL E ltac:(cbn; lra) eq_refl eq_refl eq_refl eq_refl ltac:(lra) ltac:(lra)) as (EQ & _).
  eexists _, _, _, p', G, G'. split; [|split; [exact E|]]; [reflexivity|]. split; [cbn; lra|]. split; [cbn; lra|]. split; [cbn; lra|]. split; [cbn; lra|].
  split; [|apply dev_pos; cbn; lra]. rewrite EQ. unfold tr3, e. cbn. lra.
Qed.
(** With gravity of the sign that the shipped inputs use (negative), the viscosity is the negative cap, whatever the
    pressure and the rate: the shear stress feeds the motion. *)
Lemma p_C78_gravity : forall P S0 S ip (p p' : particle R) (G G' : grid R) K ms m2 I0, s_law S = KenKamrin ->
  apply_law P S0 S ip p G = Ok (p', G') -> 0 < p_dt P -> s_K S = Some K -> s_mu_s S = Some ms -> s_mu_2 S = Some m2 ->
  s_I_0 S = Some (Sc I0) -> 0 <= ms <= m2 -> 0 <= I0 -> 0 < prho p -> p_max_g P < 0 -> y_m (pG P) < y_M (pG P) ->
  let H := y_M (pG P) - y_m (pG P) in
  let cap := 250 * prho p * p_max_g P * (H * H * H) in
  cap < 0 /\ pdev p' = times (2 / p_dt P * cap) (deviator (pdstrain p)) /\
  (0 < frob (deviator (pdstrain p)) -> inner (pdev p') (deviator (pdstrain p)) < 0).
Proof.
  intros P S0 S ip p p' G G' K ms m2 I0 HL E Hd HK H1 H2 H3 Hm HI Hr Hg Hy H cap.
  destruct (p_C78_friction _ _ _ _ _ _ _ _ _ _ _ _ HL E Hd HK H1 H2 H3 Hm HI) as (EQ & mu & Hmu & ED & _). fold H in ED. fold cap in ED.
  assert (HC : cap < 0). { unfold cap. assert (0 < H) by (unfold H; lra). assert (0 < H * H * H) by (apply Rmult_lt_0_compat; [apply Rmult_lt_0_compat|]; assumption).
    assert (250 * prho p * p_max_g P < 0) by nra. nra. }
  rewrite Rmin_right in ED. 2: { apply Rle_trans with 0; [lra|apply Rmax_r]. }
  split; [exact HC|]. split; [exact ED|]. intros F. rewrite ED, inner_times.
  assert (0 < 2 / p_dt P) by (apply Rdiv_lt_0_compat; lra). assert (0 < frob (deviator (pdstrain p)) * frob (deviator (pdstrain p))) by (apply Rmult_lt_0_compat; exact F).
  assert (2 / p_dt P * cap < 0) by nra. nra.
Qed.
Example x_C78_gravity : exists P S (p p' : particle R) (G G' : grid R), s_law S = KenKamrin /\
  apply_law P S S 0 p G = Ok (p', G') /\ 0 < p_dt P /\ 0 < prho p /\ p_max_g P < 0 /\ y_m (pG P) < y_M (pG P) /\
  0 < frob (deviator (pdstrain p)).
Proof.
  set (e := mkM3 1 2 0 2 0 0 0 0 0). destruct (run_ken (-10) (-9) e) as (G & p' & G' & E).
  eexists _, _, _, p', G, G'. split; [|split; [exact E|]]; [reflexivity|]. split; [cbn; lra|]. split; [cbn; lra|]. split; [cbn; lra|]. split; [cbn; lra|].
  apply dev_pos; cbn; lra.
Qed.
(** So the shear stress of ken_kamrin does not always oppose the shear. *)
Lemma p_C78_dissipates_refuted : ~ forall P S0 S ip (p p' : particle R) (G G' : grid R), s_law S = KenKamrin ->
  apply_law P S0 S ip p G = Ok (p', G') -> 0 < p_dt P -> 0 < prho p -> y_m (pG P) < y_M (pG P) -> 0 <= inner (pdev p') (deviator (pdstrain p)).
Proof.
  intros H. set (e := mkM3 1 2 0 2 0 0 0 0 0). destruct (run_ken (-10) (-9) e) as (G & p' & G' & E).
  assert (HL : s_law (ex_solid_sc (T := R) KenKamrin) = KenKamrin) by reflexivity.
  specialize (H _ _ _ _ _ _ _ _ HL E ltac:(cbn; lra) ltac:(cbn; lra) ltac:(cbn; lra)).
  destruct (p_C78_gravity _ _ _ _ _ _ _ _ 3 1 1 1 HL E ltac:(cbn; lra) eq_refl eq_refl eq_refl eq_refl ltac:(lra) ltac:(lra) ltac:(cbn; lra) ltac:(cbn; lra) ltac:(cbn; lra)) as (_ & _ & F).
  specialize (F ltac:(apply dev_pos; cbn; lra)). apply (Rlt_not_le _ _ F H).
Qed.
