(** * What the laws do with changes of volume, and with the time step: C129, C130, C131. *)
From Coq Require Import ZArith List Bool Arith Lia Reals Lra.
From RecordUpdate Require Import RecordUpdate.
From Verif Require Import State NumR LibR LibList Spec SpecLaws ModelGrid ModelConstit ModelParticle ModelMPList ModelMain ProofsGrid ProofsMap ProofsLaws ProofsHist Concrete ThmMapping ThmLaws.
Import ListNotations.
Local Existing Instance Num_R.
Local Open Scope R_scope.

(** The stress after the law, before the correction for the motion. *)
Definition after (p' : particle R) : M3 R := plus3 (pstress p') (pdstress p').
Definition mean3 (s : M3 R) : R := tr3 s / 3.
Definition fluids : list law_name := [Viscous; Bingham; KenKamrin].
(** bingham writes the stress itself and never touches the increment, which is
    zero from the start. *)
Definition untouched (So : solid R) (p : particle R) : Prop := s_law So = Bingham -> pdstress p = mkM3 0 0 0 0 0 0 0 0 0.

Lemma fluid_form (P : params R) K mu_v eta (p q : particle R) : p_dt P <> 0 -> let d := pdstrain p in
  ppressure q = ppressure p + K * (tr3 d / 3) -> pdev q = times eta (deviator d) ->
  after q = msub (madd (mscale (ppressure q) eye) (pdev q)) (mdivs (mscale (mu_v * (tr3 d / 3)) eye) (p_dt P)) ->
  tr3 (pdev q) = 0 /\ (exists eta, pdev q = times eta (deviator d)) /\
  after q = plus3 (times (ppressure q - mu_v * (tr3 d / 3) / p_dt P) (mkM3 1 0 0 0 1 0 0 0 1)) (pdev q).
Proof.
  intros Hdt d HP HD HA. split; [rewrite HD; unfold tr3; cbn; unfold tr3; field|]. split; [eauto|]. rewrite HA. clear HA HP. set (t := tr3 d / 3). clearbody t. destruct (pdev q). apply m3_ext; cbn; unR; field; exact Hdt.
Qed.
Lemma fluid_out P S0 So ip p G p' G' : In (s_law So) fluids -> apply_law P S0 So ip p G = Ok (p', G') -> untouched So p -> p_dt P <> 0 ->
  exists K mu_v, s_K So = Some K /\ s_mu_v So = Some mu_v /\ ppressure p' = ppressure p + K * (tr3 (pdstrain p) / 3) /\
    tr3 (pdev p') = 0 /\ (exists eta, pdev p' = times eta (deviator (pdstrain p))) /\
    after p' = plus3 (times (ppressure p' - mu_v * (tr3 (pdstrain p) / 3) / p_dt P) (mkM3 1 0 0 0 1 0 0 0 1)) (pdev p').
Proof.
  intros HL E HU Hdt.
  assert (DV : msub (pdstrain p) (mscale (trace (pdstrain p) / n3)%num eye) = deviator (pdstrain p)).
  { destruct (pdstrain p). apply m3_ext; cbn; unfold tr3; cbn; unR; change (@n3 R _) with 3; field. }
  assert (TR : (trace (pdstrain p) / n3)%num = tr3 (pdstrain p) / 3) by reflexivity.
  assert (MD : forall k (a : M3 R), mdivs (mscale k a) (p_dt P) = times (k / p_dt P) a) by (intros k []; apply m3_ext; cbn; unR; field; exact Hdt).
  assert (AF : forall a b : M3 R, plus3 b (msub a b) = a) by (intros [] []; apply m3_ext; cbn; unR; ring).
  assert (A0 : forall a : M3 R, plus3 a (mkM3 0 0 0 0 0 0 0 0 0) = a) by (intros []; apply m3_ext; cbn; ring).
  destruct HL as [EL|[EL|[EL|[]]]]; unfold apply_law in E; rewrite <- EL in E.
  - unfold viscous in E. rewrite DV, TR in E. cbv zeta in E. pbinds E. repeat match goal with H : attr _ = Ok _ |- _ => apply attr_ok in H end. injection E as <- <-.
    do 2 eexists. split; [eassumption|]. split; [eassumption|]. split; [reflexivity|]. eapply (fluid_form P _ _ _ p); [exact Hdt|reflexivity|apply MD|]. unfold after. cbn [pstress pdstress set]. apply AF.
  - unfold bingham in E. rewrite DV, TR in E. cbv zeta in E. pbinds E.
    match goal with H : (if _ then _ else _) = Ok ?d |- _ => assert (EE : exists eta, d = times eta (deviator (pdstrain p))) end.
    { match goal with H : (if ?b then _ else _) = Ok ?d |- _ => destruct b; pbinds H; injection H as <-; rewrite MD; eauto end. }
    destruct EE as [eta EE]. repeat match goal with H : attr _ = Ok _ |- _ => apply attr_ok in H end. injection E as <- <-.
    do 2 eexists. split; [eassumption|]. split; [eassumption|]. split; [reflexivity|]. eapply (fluid_form P _ _ _ p); [exact Hdt|reflexivity|exact EE|]. unfold after. cbn [pstress pdstress set].
    rewrite (HU (eq_sym EL)). apply A0.
  - unfold ken_kamrin in E. rewrite DV, TR in E. cbv zeta in E. pbinds E. repeat match goal with H : attr _ = Ok _ |- _ => apply attr_ok in H end. injection E as <- <-.
    do 2 eexists. split; [eassumption|]. split; [eassumption|]. split; [reflexivity|]. eapply (fluid_form P _ _ _ p); [exact Hdt|reflexivity| |].
    + cbn [pdev set]. rewrite MD. match goal with |- mscale ?e (times ?k _) = times ?et _ => unify et (e * k); generalize e, k end. intros e k.
      destruct (deviator (pdstrain p)). apply m3_ext; cbn; unR; ring.
    + unfold after. cbn [pstress pdstress set]. apply AF.
Qed.

(** ** C129: the bulk modulus *)
(** Without bulk viscosity, a change of volume changes the mean stress of the
    three fluids by a third of K times the change. *)
Lemma p_C129_third : forall P S0 So ip p G p' G' K, In (s_law So) fluids -> apply_law P S0 So ip p G = Ok (p', G') -> untouched So p -> p_dt P <> 0 ->
  s_K So = Some K -> s_mu_v So = Some 0 -> mean3 (after p') = ppressure p' /\ ppressure p' - ppressure p = K * tr3 (pdstrain p) / 3.
Proof.
  intros P S0 So ip p G p' G' K HL E HU Hdt HK HV. destruct (fluid_out _ _ _ _ _ _ _ _ HL E HU Hdt) as (K' & v & EK & EV & EP & ET & _ & EA).
  replace K' with K in * by congruence. replace v with 0 in * by congruence. split; [|rewrite EP; field]. rewrite EA. unfold mean3. revert ET. generalize (pdev p'). intros [] ET. unfold tr3 in *. cbn in *. unfold Rdiv in *. lra.
Qed.
(** So K is not the bulk modulus of every law: an elastic solid with the same K
    answers the same strain with three times the mean stress. *)
Lemma p_C129_bulk_refuted : forall P S0 Se Sf ie jf p q G1 G2 p' q' G1' G2' K, s_law Se = Elastic -> In (s_law Sf) fluids -> s_K Se = Some K -> s_K Sf = Some K -> s_mu_v Sf = Some 0 ->
  apply_law P S0 Se ie p G1 = Ok (p', G1') -> apply_law P S0 Sf jf q G2 = Ok (q', G2') -> untouched Sf q -> p_dt P <> 0 -> pdstrain p = pdstrain q -> mean3 (pstress q) = ppressure q ->
  mean3 (after p') - mean3 (pstress p) = 3 * (mean3 (after q') - mean3 (pstress q)) /\
  (mean3 (after p') - mean3 (pstress p) = mean3 (after q') - mean3 (pstress q) <-> K * tr3 (pdstrain p) = 0).
Proof.
  intros P S0 Se Sf ie jf p q G1 G2 p' q' G1' G2' K HE HF KE KF HV E1 E2 HU Hdt HD HQ.
  destruct (p_C129_third _ _ _ _ _ _ _ _ _ HF E2 HU Hdt KF HV) as [A B]. destruct (p_C19_hooke _ _ _ _ _ _ _ _ HE E1) as (K' & g & EK & _ & T & _ & PS & _). replace K' with K in * by congruence.
  assert (C : mean3 (after p') - mean3 (pstress p) = K * tr3 (pdstrain p)).
  { unfold mean3, after. rewrite PS. unfold tr3 in *. cbn. lra. }
  rewrite C, A, HQ, B, <- HD. split; [field|]. split; intros; lra.
Qed.

(** ** C130: the bulk viscosity *)
(** The work of the stress beyond the pressure on the strain of the step. *)
Definition viscous_work (p p' : particle R) : R := inner (after p') (pdstrain p) - ppressure p' * tr3 (pdstrain p).
Lemma inner_dev_iso k (a d : M3 R) : tr3 a = 0 -> inner (plus3 (times k (mkM3 1 0 0 0 1 0 0 0 1)) a) d = k * tr3 d + inner a (deviator d).
Proof. destruct a, d. unfold tr3, inner, deviator, tr3. cbn. intros H. replace xx with (- (yy + zz)) by lra. field. Qed.
(** The shear viscosity takes energy out of the motion, the bulk viscosity puts
    energy into it. *)
Lemma p_C130_work : forall P S0 So ip p G p' G' mu_s mu_v, s_law So = Viscous -> apply_law P S0 So ip p G = Ok (p', G') -> p_dt P <> 0 -> s_mu_s So = Some mu_s -> s_mu_v So = Some mu_v ->
  viscous_work p p' = 2 * mu_s * inner (deviator (pdstrain p)) (deviator (pdstrain p)) / p_dt P - mu_v * (tr3 (pdstrain p)) ^ 2 / (3 * p_dt P).
Proof.
  intros P S0 So ip p G p' G' mu_s mu_v HL E Hdt HS HV. assert (HF : In (s_law So) fluids) by (rewrite HL; cbn; auto). assert (HU : untouched So p) by (intros Q; congruence).
  destruct (fluid_out _ _ _ _ _ _ _ _ HF E HU Hdt) as (K & v & EK & EV & EP & ET & _ & EA). replace v with mu_v in * by congruence.
  destruct (p_C21_viscous _ _ _ _ _ _ _ _ HL E Hdt) as (K2 & m2 & v2 & _ & EM & _ & _ & _ & ED & _). replace m2 with mu_s in * by congruence. cbv zeta in ED. fold (after p') in ED.
  unfold viscous_work. rewrite EA, inner_dev_iso by exact ET.
  assert (DD : deviator (after p') = pdev p'). { rewrite EA. revert ET. generalize (pdev p'). intros [] T. unfold tr3 in T. cbn in T. apply m3_ext; cbn; unfold tr3; cbn; lra. }
  rewrite <- DD, ED. unfold inner. cbn. unfold tr3. cbn. field. exact Hdt.
Qed.
(** A pure change of volume: the viscous stress of any of the three fluids does
    negative work -- it drives the motion it should resist. *)
Lemma p_C130_dissipates_refuted : forall P S0 So ip p G p' G' mu_v, In (s_law So) fluids -> apply_law P S0 So ip p G = Ok (p', G') -> untouched So p -> 0 < p_dt P -> s_mu_v So = Some mu_v -> 0 < mu_v ->
  (exists e, e <> 0 /\ pdstrain p = times e (mkM3 1 0 0 0 1 0 0 0 1)) -> viscous_work p p' < 0.
Proof.
  intros P S0 So ip p G p' G' mu_v HL E HU Hdt HV Hv (e & He & HD).
  assert (Nd : p_dt P <> 0) by lra. destruct (fluid_out _ _ _ _ _ _ _ _ HL E HU Nd) as (K & v & EK & EV & EP & ET & (eta & EE) & EA). replace v with mu_v in * by congruence.
  unfold viscous_work. rewrite EA, inner_dev_iso by exact ET. rewrite EE, HD.
  assert (T3 : tr3 (times e (mkM3 1 0 0 0 1 0 0 0 1)) = 3 * e) by (unfold tr3; cbn; ring). assert (I0 : forall k, inner (times k (deviator (times e (mkM3 1 0 0 0 1 0 0 0 1)))) (deviator (times e (mkM3 1 0 0 0 1 0 0 0 1))) = 0) by (intros k; unfold inner, deviator; rewrite T3; cbn; field).
  rewrite I0, T3. assert (X : 0 < mu_v / p_dt P) by (apply Rdiv_lt_0_compat; lra). assert (E2 : 0 < e * e) by nra.
  replace ((ppressure p' - mu_v * (3 * e / 3) / p_dt P) * (3 * e) + 0 - ppressure p' * (3 * e)) with (- (3 * (mu_v / p_dt P * (e * e)))) by (field; lra). pose proof (Rmult_lt_0_compat _ _ X E2). lra.
Qed.
(** Where mu_v exceeds K dt, a point without stress that is compressed is under
    tension afterwards, whatever it is compressed by. *)
Lemma p_C130_compressed_refuted : forall P S0 So ip p G p' G' K mu_v, In (s_law So) fluids -> apply_law P S0 So ip p G = Ok (p', G') -> untouched So p -> 0 < p_dt P -> s_K So = Some K -> s_mu_v So = Some mu_v ->
  ppressure p = 0 -> tr3 (pdstrain p) < 0 -> (0 < mean3 (after p') <-> K * p_dt P < mu_v).
Proof.
  intros P S0 So ip p G p' G' K mu_v HL E HU Hdt HK HV H0 Ht. assert (Nd : p_dt P <> 0) by lra.
  destruct (fluid_out _ _ _ _ _ _ _ _ HL E HU Nd) as (K' & v & EK & EV & EP & ET & _ & EA). replace v with mu_v in * by congruence. replace K' with K in * by congruence.
  assert (M : mean3 (after p') = (mu_v - K * p_dt P) * (- tr3 (pdstrain p) / 3 / p_dt P)).
  { rewrite EA, EP, H0. unfold mean3. revert ET. generalize (pdev p'), (tr3 (pdstrain p)). intros [] t T. unfold tr3 in *. cbn in *.
    replace ((0 + K * (t / 3) - mu_v * (t / 3) / p_dt P) * 1 + xx + ((0 + K * (t / 3) - mu_v * (t / 3) / p_dt P) * 1 + yy) + ((0 + K * (t / 3) - mu_v * (t / 3) / p_dt P) * 1 + zz)) with (3 * (K * (t / 3) - mu_v * (t / 3) / p_dt P) + (xx + yy + zz)) by ring. rewrite T. field. exact Nd. }
  rewrite M. assert (X : 0 < - tr3 (pdstrain p) / 3 / p_dt P) by (repeat apply Rdiv_lt_0_compat; lra). split; intros H; [|apply Rmult_lt_0_compat; lra].
  destruct (Rlt_dec (K * p_dt P) mu_v) as [|N]; [assumption|]. assert ((mu_v - K * p_dt P) * (- tr3 (pdstrain p) / 3 / p_dt P) <= 0) by (apply Rmult_le_0_r || nra); lra.
Qed.

(** ** C131: the drainage of elastic_time *)
(** A point of the first phase after [t_0] loses a twentieth of its mass in
    every step, until it is down to the mass of the fluid. *)
Lemma p_C131_loss : forall (Pn : nat -> params R) S0 So (p p' : nat -> particle R) (G G' : nat -> grid R) rf t0 n,
  s_law So = ElasticTime -> s_rho_f So = Some rf -> s_t_0 So = Some t0 -> (forall k, t0 < p_t (Pn k)) -> 0 <= pm (p 0%nat) ->
  (forall k, apply_law (Pn k) S0 So 0 (p k) (G k) = Ok (p' k, G' k)) ->
  (forall k, pm (p (k + 1)%nat) = pm (p' k) /\ pV (p (k + 1)%nat) = pV (p' k)) ->
  (forall k, (k < n)%nat -> rf * pV (p 0%nat) < (95 / 100) ^ k * pm (p 0%nat)) ->
  pm (p n) = (95 / 100) ^ n * pm (p 0%nat).
Proof.
  intros Pn S0 So p p' G G' rf t0 n EL EF ET Ht HM HE HC HB.
  enough (K : pm (p n) = (95 / 100) ^ n * pm (p 0%nat) /\ pV (p n) = pV (p 0%nat)) by apply K.
  induction n as [|n IH]; [split; [cbn; ring|reflexivity]|]. destruct IH as [IM IV]; [intros k Hk; apply HB; lia|].
  destruct (HC n) as [C1 C2]. replace (Datatypes.S n) with (n + 1)%nat by lia. rewrite C1, C2.
  specialize (HB n ltac:(lia)). rewrite <- IM in HB. rewrite <- IV in HB. pose proof (HE n) as E.
  assert (N0 : 0 <= pm (p n)) by (rewrite IM; apply Rmult_le_pos; [apply pow_le; lra|exact HM]).
  destruct (p_C28_mass _ _ _ _ _ _ _ _ EL E N0) as (_ & _ & _ & _ & V).
  unfold apply_law in E. rewrite EL in E. unfold elastic_time in E. cbn [Nat.eqb] in E. rewrite ET, EF in E. cbn [attr bind] in E.
  cbn [nltb Num_R] in E. replace (Rltb t0 (p_t (Pn n))) with true in E by (symmetry; apply Rltb_true, Ht). cbn [bind] in E.
  replace (Rltb (rf * pV (p n))%num (pm (p n))) with true in E by (symmetry; apply Rltb_true; exact HB). pbinds E. injection E as E _.
  split; [|congruence]. rewrite <- E. transitivity (pm (p n) * (95 / 100)); [reflexivity|]. rewrite IM, pow_add. ring.
Qed.
(** So what has drained after a time depends on the steps that made it up: two
    runs of the same point that reach the same time in different numbers of
    steps leave different masses. *)
Lemma p_C131_timestep_refuted : forall (Pn Qn : nat -> params R) S0 So (p p' q q' : nat -> particle R) (G G' H H' : nat -> grid R) rf t0 n m,
  s_law So = ElasticTime -> s_rho_f So = Some rf -> s_t_0 So = Some t0 -> (forall k, t0 < p_t (Pn k) /\ t0 < p_t (Qn k)) ->
  (forall k, apply_law (Pn k) S0 So 0 (p k) (G k) = Ok (p' k, G' k)) -> (forall k, pm (p (k + 1)%nat) = pm (p' k) /\ pV (p (k + 1)%nat) = pV (p' k)) ->
  (forall k, apply_law (Qn k) S0 So 0 (q k) (H k) = Ok (q' k, H' k)) -> (forall k, pm (q (k + 1)%nat) = pm (q' k) /\ pV (q (k + 1)%nat) = pV (q' k)) ->
  p 0%nat = q 0%nat -> 0 < pm (p 0%nat) -> (forall k, (k < max n m)%nat -> rf * pV (p 0%nat) < (95 / 100) ^ k * pm (p 0%nat)) ->
  INR n * p_dt (Pn 0%nat) = INR m * p_dt (Qn 0%nat) -> p_dt (Pn 0%nat) <> p_dt (Qn 0%nat) -> (0 < n)%nat -> 0 < p_dt (Pn 0%nat) ->
  pm (p n) <> pm (q m).
Proof.
  intros Pn Qn S0 So p p' q q' G G' H H' rf t0 n m EL EF ET Ht EP CP EQ CQ E0 HM HB HT HD Hn Hdt.
  assert (NM : n <> m) by (intros ->; apply HD; apply (Rmult_eq_reg_l (INR m)); [exact HT|apply not_0_INR; lia]).
  rewrite (p_C131_loss Pn S0 So p p' G G' rf t0 n EL EF ET (fun k => proj1 (Ht k)) ltac:(lra) EP CP) by (intros k Hk; apply HB; lia).
  rewrite (p_C131_loss Qn S0 So q q' H H' rf t0 m EL EF ET (fun k => proj2 (Ht k)) ltac:(rewrite <- E0; lra) EQ CQ) by (intros k Hk; rewrite <- E0; apply HB; lia). rewrite <- E0.
  intros Q. apply Rmult_eq_reg_r in Q; [|lra].
  assert (D : forall a b, (a < b)%nat -> (95 / 100) ^ b < (95 / 100) ^ a).
  { intros a b L. replace b with (a + (b - a))%nat by lia. rewrite pow_add. assert (0 < (95 / 100) ^ a) by (apply pow_lt; lra).
    assert ((95 / 100) ^ (b - a) < 1); [|nra]. destruct (b - a)%nat as [|c] eqn:Ec; [lia|]. apply pow_lt_1_compat; [lra|lia]. }
  destruct (Nat.lt_ge_cases n m) as [L|L]; [specialize (D n m L)|specialize (D m n ltac:(lia))]; lra.
Qed.

(** ** Concrete cases *)
Definition oil (l : law_name) (mu_v : R) : solid R :=
  mkSolid n2 n1 l [nhalf; nhalf]
          (Some 3) (Some n2) (Some n1) (Some n2) (Some n0) (Some nhalf) (Some n1) (Some mu_v)
          (Some (Sc n2)) (Some (Sc n1)) (Some (Sc n1))
          (Some n1) (Some n1) (Some n1) (Some n1)
          (Some n2) (Some n1) (Some n1) (Some n1)
          (Some n1) (Some n0) (Some 0) (Some 1)
          (Some n1) (Some n1) [n1] (Some (nhalf, nhalf)) false None.
Definition squeezed (e m V : R) (p : particle R) : particle R := p <| pstress := mkM3 0 0 0 0 0 0 0 0 0 |> <| pdstress := mkM3 0 0 0 0 0 0 0 0 0 |> <| ppressure := 0 |> <| pdstrain := times e (mkM3 1 0 0 0 1 0 0 0 1) |> <| pm := m |> <| pV := V |>.
Lemma squeezed_located e m V P p : located P p -> located P (squeezed e m V p).
Proof. exact (fun H => H). Qed.
Lemma squeezed_ex e m V : exists p, located ex_gridp p /\ pstress p = mkM3 0 0 0 0 0 0 0 0 0 /\ pdstress p = mkM3 0 0 0 0 0 0 0 0 0 /\ ppressure p = 0 /\ pdstrain p = times e (mkM3 1 0 0 0 1 0 0 0 1) /\ pm p = m /\ pV p = V.
Proof. exists (squeezed e m V ex_p_loc). split; [apply squeezed_located; exact ex_p_located|]. repeat (split; [reflexivity|]). reflexivity. Qed.
Lemma oil_params_ex : exists P : params R, pG P = ex_gridp /\ p_t P = 1 /\ p_dt P = 1 / 10.
Proof. exists (ex_params ex_bounds <| p_t := 1 |>). split; [reflexivity|]. split; [reflexivity|]. cbn. unfold lit. cbn. unR. lra. Qed.
Lemma oil_runs l v ip : In l (Elastic :: ElasticTime :: fluids) -> forall P p G, pG P = ex_gridp -> located ex_gridp p -> exists p' G', apply_law P (oil l v) (oil l v) ip p (wipe P G) = Ok (p', G').
Proof.
  intros Hl P p G HG HL. rewrite <- HG in HL. assert (HP : proper (pG P)) by (rewrite HG; exact ex_proper). clear HG.
  unfold apply_law. cbn [s_law oil].
  repeat (destruct Hl as [<-|Hl]); try contradiction.
  - unfold elastic. cbn [oil s_K s_G attr bind]. match goal with |- context [visualise ?P ?MP ?fs (wipe ?P ?G)] => destruct (vis_ex P MP fs G HP HL) as [G' E]; rewrite E; cbn [bind] end. eauto.
  - unfold elastic_time. cbn [oil s_t_0 s_rho_f s_E_0 s_nu attr bind]. destruct (Nat.eqb ip 0); [destruct (_ <? _)%num|]; cbn [bind]; match goal with |- context [visualise ?P ?MP ?fs (wipe ?P ?G)] => destruct (vis_ex P MP fs G HP HL) as [G' E]; rewrite E; cbn [bind] end; eauto.
  - unfold viscous. cbn [oil s_K s_mu_s s_mu_v attr bind]. match goal with |- context [visualise ?P ?MP ?fs (wipe ?P ?G)] => destruct (vis_ex P MP fs G HP HL) as [G' E]; rewrite E; cbn [bind] end. eauto.
  - unfold bingham. cbn [oil s_K s_mu_s s_mu_v s_gamma_c s_mu_0 s_tau_0 attr bind sc_scalar]. destruct (_ <=? _)%num; cbn [bind]; match goal with |- context [visualise ?P ?MP ?fs (wipe ?P ?G)] => destruct (vis_ex P MP fs G HP HL) as [G' E]; rewrite E; cbn [bind] end; eauto.
  - unfold ken_kamrin. cbn [oil s_K s_mu_s s_mu_2 s_mu_v s_I_0 attr bind sc_scalar]. match goal with |- context [visualise ?P ?MP ?fs (wipe ?P ?G)] => destruct (vis_ex P MP fs G HP HL) as [G' E]; rewrite E; cbn [bind] end. eauto.
Qed.
Lemma some_grid : exists G : grid R, True.
Proof. destruct (grid_init_ok (ex_gridp (T := R)) ex_bounds ex_proper) as (G0 & _). exists G0. exact I. Qed.
(** A solid and the three fluids with K = 3, compressed by the same amount. *)
Example x_C129_bulk_refuted : forall l, In l fluids -> exists P p G p' q' G1 G2,
  s_law (oil Elastic 0) = Elastic /\ In (s_law (oil l 0)) fluids /\ s_K (oil l 0) = Some 3 /\ s_mu_v (oil l 0) = Some 0 /\ untouched (oil l 0) p /\ p_dt P <> 0 /\ mean3 (pstress p) = ppressure p /\
  apply_law P (oil Elastic 0) (oil Elastic 0) 0 p G = Ok (p', G1) /\ apply_law P (oil l 0) (oil l 0) 0 p G = Ok (q', G2) /\ 3 * tr3 (pdstrain p) <> 0.
Proof.
  intros l Hl. destruct some_grid as [G0 _]. destruct oil_params_ex as (P & HG & _ & HD). destruct (squeezed_ex (-1) 1 1) as (p & HL & E1 & E2 & E3 & E4 & _).
  destruct (oil_runs Elastic 0 0 ltac:(cbn; auto) P p G0 HG HL) as (p' & G1 & F1). destruct (oil_runs l 0 0 ltac:(cbn in *; tauto) P p G0 HG HL) as (q' & G2 & F2).
  exists P, p, (wipe P G0), p', q', G1, G2. rewrite E1, E3, E4, HD. split; [reflexivity|]. split; [exact Hl|]. split; [reflexivity|]. split; [reflexivity|]. split; [intros _; exact E2|].
  split; [lra|]. split; [unfold mean3, tr3; cbn; field|]. split; [exact F1|]. split; [exact F2|]. cbn. unfold tr3. cbn. lra.
Qed.
(** The three fluids with K = 3 and mu_v = 1 in steps of 1/10. *)
Example x_C130_compressed_refuted : forall l, In l fluids -> exists P p G p' G',
  In (s_law (oil l 1)) fluids /\ apply_law P (oil l 1) (oil l 1) 0 p G = Ok (p', G') /\ untouched (oil l 1) p /\ 0 < p_dt P /\ s_mu_v (oil l 1) = Some 1 /\
  (exists e, e <> 0 /\ pdstrain p = times e (mkM3 1 0 0 0 1 0 0 0 1)) /\ s_K (oil l 1) = Some 3 /\ ppressure p = 0 /\ tr3 (pdstrain p) < 0 /\ 3 * p_dt P < 1.
Proof.
  intros l Hl. destruct some_grid as [G0 _]. destruct oil_params_ex as (P & HG & _ & HD). destruct (squeezed_ex (-1) 1 1) as (p & HL & E1 & E2 & E3 & E4 & _).
  destruct (oil_runs l 1 0 ltac:(cbn in *; tauto) P p G0 HG HL) as (q' & G2 & F2).
  exists P, p, (wipe P G0), q', G2. rewrite E3, E4, HD.
  split; [exact Hl|]. split; [exact F2|]. split; [intros _; exact E2|]. split; [lra|]. split; [reflexivity|]. split; [exists (-1); split; [lra|reflexivity]|]. split; [reflexivity|]. split; [reflexivity|]. split; [cbn; unfold tr3; cbn; lra|lra].
Qed.
(** A point ten times as heavy as the fluid, after [t_0]. *)
Example x_C131_timestep_refuted : exists (P : params R) (p p' : nat -> particle R) (G G' : nat -> grid R), (forall k, pm (p (k + 1)%nat) = pm (p' k) /\ pV (p (k + 1)%nat) = pV (p' k)) /\
  (forall k, apply_law P (oil ElasticTime 0) (oil ElasticTime 0) 0 (p k) (G k) = Ok (p' k, G' k)) /\ s_rho_f (oil ElasticTime 0) = Some 1 /\ s_t_0 (oil ElasticTime 0) = Some 0 /\
  0 < p_t P /\ 0 < pm (p 0%nat) /\ (forall k, (k < 2)%nat -> 1 * pV (p 0%nat) < (95 / 100) ^ k * pm (p 0%nat)).
Proof.
  destruct some_grid as [G0 _]. destruct oil_params_ex as (P & HG & HT & _). exists P. set (W := wipe P G0).
  destruct (squeezed_ex 0 10 1) as (p0 & HL & _ & _ & _ & _ & HM & HV).
  set (f := fun q : particle R => match apply_law P (oil ElasticTime 0) (oil ElasticTime 0) 0 q W with Ok (q', _) => q' | Err _ => q end).
  set (g := fun q : particle R => match apply_law P (oil ElasticTime 0) (oil ElasticTime 0) 0 q W with Ok (_, G') => G' | Err _ => W end).
  assert (SL : forall m, located ex_gridp (p0 <| pm := m |>)) by (intros m; exact HL).
  set (p := fix p (k : nat) : R := match k with 0%nat => 10 | S k => pm (f (p0 <| pm := p k |>)) end).
  exists (fun k => p0 <| pm := p k |>), (fun k => f (p0 <| pm := p k |>)), (fun _ => W), (fun k => g (p0 <| pm := p k |>)).
  assert (RUN : forall q, exists q' G', apply_law P (oil ElasticTime 0) (oil ElasticTime 0) 0 (p0 <| pm := q |>) W = Ok (q', G')) by (intros q; apply oil_runs; [cbn; auto|exact HG|apply SL]).
  split; [|split; [|split; [reflexivity|split; [reflexivity|split; [lra|split]]]]].
  - intros k. replace (k + 1)%nat with (S k) by lia. split; [reflexivity|]. change (pV (p0 <| pm := p (S k) |>)) with (pV p0). destruct (RUN (p k)) as (q' & G' & E). unfold f. rewrite E.
    pose proof (law_effect _ _ _ _ _ _ _ _ E) as (LF & _). exact (eq_sym (f_equal pV LF)).
  - intros k. destruct (RUN (p k)) as (q' & G' & E). unfold f, g. rewrite E. reflexivity.
  - change (0 < 10). lra.
  - intros k Hk. change (1 * pV p0 < (95 / 100) ^ k * 10). rewrite HV. destruct k as [|[|k]]; [cbn [pow]|cbn [pow]|lia]; lra.
Qed.
