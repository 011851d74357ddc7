(** * What the fields of the laws show: C108. *)
From Coq Require Import ZArith Reals List Bool Arith Lra Lia.
From Verif Require Import State NumR Spec SpecLaws LibList LibR ModelGrid ModelConstit ModelParticle ModelMPList ModelMain
  ProofsGrid ProofsMap ProofsP2G ProofsLaws ProofsHist ProofsStep ProofsPoints Concrete ThmMapping ThmLaws ThmStep ThmFields.
Import ListNotations.
Local Open Scope R_scope.

(** The stress the law asks for, before the rotation term is taken off. *)
Definition asked (p' : particle R) : M3 R := plus3 (pstress p') (pdstress p').
Definition minus3 (a b : M3 R) : M3 R := plus3 a (times (-1) b).

Lemma traceless (e : M3 R) : tr3 (msub e (mscale (trace e / n3) eye)) = 0.
Proof. destruct e. unfold tr3. cbn. unfold n3. cbn. unR. unfold trace. cbn. unR. unfold n3, n2. cbn. unR. field. Qed.
Lemma traceless_scaled k d (e : M3 R) : tr3 e = 0 -> tr3 (mdivs (mscale k e) d) = 0.
Proof. destruct e. unfold tr3. cbn. unR. intros H. unfold Rdiv. replace (k * xx * / d + k * yy * / d + k * zz * / d) with (k * / d * (xx + yy + zz)) by ring. rewrite H. ring. Qed.
Lemma asked_dev c (d s t : M3 R) : tr3 d = 0 -> t = msub (madd (mscale c eye) d) s -> deviator (plus3 s t) = d.
Proof. intros H ->. destruct d, s. unfold tr3 in H. cbn in H. unfold deviator, plus3, tr3. cbn. unR. f_equal; lra. Qed.
Lemma asked_mean c (d s t : M3 R) : tr3 d = 0 -> t = msub (madd (mscale c eye) d) s -> tr3 (plus3 s t) / 3 = c.
Proof. intros H ->. destruct d, s. unfold tr3 in *. cbn in *. unR. lra. Qed.
Lemma asked_dev_v c w dt (d s t : M3 R) : tr3 d = 0 -> t = msub (msub (madd (mscale c eye) d) (mdivs (mscale w eye) dt)) s ->
  deviator (plus3 s t) = d /\ tr3 (plus3 s t) / 3 = c - w / dt.
Proof.
  intros H ->. destruct d, s. unfold tr3 in H. cbn in H. unfold deviator, plus3, tr3. cbn. unR. unfold Rdiv in *. split; [f_equal|]; lra.
Qed.
Lemma stress_dev_v c w dt (d : M3 R) : tr3 d = 0 ->
  deviator (msub (madd (mscale c eye) d) (mdivs (mscale w eye) dt)) = d /\ tr3 (msub (madd (mscale c eye) d) (mdivs (mscale w eye) dt)) / 3 = c - w / dt.
Proof. intros H. destruct d. unfold tr3 in H. cbn in H. unfold deviator, plus3, tr3. cbn. unR. unfold Rdiv in *. split; [f_equal|]; lra. Qed.
Lemma trace_tr3 (e : M3 R) : trace e / n3 = tr3 e / 3.
Proof. destruct e. unfold tr3, trace, n3, n2. cbn. unR. lra. Qed.
Lemma iso_third (k : R) : mdivs (mscale k eye) n3 = mscale (k / 3) eye.
Proof. apply m3_ext; cbn; unfold n3, n2; cbn; unR; field. Qed.
Lemma scaled2 k (e : M3 R) d : tr3 e = 0 -> tr3 (mscale k (mdivs (mscale n2 e) d)) = 0.
Proof. intros H. pose proof (traceless_scaled n2 d e H) as X. destruct (mdivs (mscale n2 e) d). unfold tr3 in *. cbn in *. unR. rewrite <- !Rmult_plus_distr_l, X. ring. Qed.

(** The pressure, deviatoric stress and rate of deviatoric stress that a law shows are those of the stress it asks for;
    the pressure of the viscous laws leaves out the bulk viscosity. *)
Lemma p_C108_stress : forall P S0 S ip (p p' : particle R) (G G' : grid R), apply_law P S0 S ip p G = Ok (p', G') ->
  (s_law S = VonMises -> tr3 (pdev p) = 0 -> tr3 (pdev p') = 0 /\
     shown (p_dt P) VonMises Fdev p' = frob (deviator (asked p')) /\
     shown (p_dt P) VonMises Fdevdot p' = frob (minus3 (deviator (asked p')) (pdev p)) / p_dt P) /\
  (s_law S = Viscous \/ s_law S = KenKamrin -> exists mu_v, s_mu_v S = Some mu_v /\
     shown (p_dt P) (s_law S) Fdev p' = frob (deviator (asked p')) /\
     shown (p_dt P) (s_law S) Fpressure p' = tr3 (asked p') / 3 + mu_v * (tr3 (pdstrain p) / 3) / p_dt P) /\
  (s_law S = Bingham -> exists mu_v, s_mu_v S = Some mu_v /\
     shown (p_dt P) Bingham Fdev p' = frob (deviator (pstress p')) /\
     shown (p_dt P) Bingham Fpressure p' = tr3 (pstress p') / 3 + mu_v * (tr3 (pdstrain p) / 3) / p_dt P) /\
  (s_law S = Pouliquen \/ s_law S = LinearMu \/ (s_law S = KenSimple /\ 2500 < prho p) ->
     shown (p_dt P) (s_law S) Fdev p' = frob (deviator (asked p')) / sqrt 2 /\
     shown (p_dt P) (s_law S) Fpressure p' = tr3 (asked p') / 3 /\ shown (p_dt P) (s_law S) Fpressure p' <= 0).
Proof.
  intros P S0 S ip p p' G G' E. unfold apply_law in E. split; [|split; [|split]].
  - intros EL. rewrite EL in E. unfold von_mises in E. pbinds E. apply okp_inj in E. destruct E as [<- _]. intros T.
    cbn [shown pdev pdev_d asked set pstress pdstress]. clear - T.
    match goal with |- context [mscale ?g (msub (msub ?e ?i) (mscale ?f ?d))] => generalize g f; intros gg ff; set (E := e); set (D := d) in * end.
    assert (TE : tr3 (msub E (mdivs (mscale (trace E) eye) n3)) = 0).
    { clear. destruct E. unfold tr3, trace. cbn. unfold n3, n2. cbn. unR. field. }
    assert (TD : tr3 (mscale gg (msub (msub E (mdivs (mscale (trace E) eye) n3)) (mscale ff D))) = 0).
    { revert TE T. generalize (msub E (mdivs (mscale (trace E) eye) n3)). intros X TE T. destruct X, D. unfold tr3 in *. cbn in *. unR.
      rewrite <- !Rmult_plus_distr_l. replace (xx - ff * xx0 + (yy - ff * yy0) + (zz - ff * zz0)) with ((xx + yy + zz) - ff * (xx0 + yy0 + zz0)) by ring. rewrite TE, T. ring. }
    set (DD := mscale gg _) in *. clearbody DD. cbn [asked pstress pdstress set].
    match goal with |- context [mscale (psigma_kk p + ?y)%num eye] => set (kk := (psigma_kk p + y)%num) end. clearbody kk. clear - T TD. unfold asked. cbn [pstress pdstress pdev set].
    assert (X : forall s0, deviator (plus3 s0 (msub (madd (madd D DD) (mdivs (mscale kk eye) n3)) s0)) = madd D DD).
    { intros s0. rewrite iso_third. destruct D, DD, s0. unfold tr3 in *. cbn in *. unfold deviator, plus3, tr3. cbn. apply m3_ext; cbn; unR; lra. }
    rewrite X. split; [|split].
    + destruct D, DD. unfold tr3 in *. cbn in *. unR. lra.
    + reflexivity.
    + do 2 f_equal. destruct D, DD. unfold minus3, plus3, times. cbn. unR. f_equal; lra.
  - intros EL. assert (HV : s_law S = Viscous -> exists mu_v, s_mu_v S = Some mu_v /\
       shown (p_dt P) (s_law S) Fdev p' = frob (deviator (asked p')) /\
       shown (p_dt P) (s_law S) Fpressure p' = tr3 (asked p') / 3 + mu_v * (tr3 (pdstrain p) / 3) / p_dt P).
    { clear EL. intros EL. rewrite EL in *. unfold viscous in E. pbinds E. apply okp_inj in E. destruct E as [<- _].
      match goal with H : attr (s_mu_v S) = Ok ?m |- _ => exists m; split; [destruct (s_mu_v S); [injection H as ->; reflexivity|discriminate]|] end.
      cbn [shown ppressure pdev set].
      match goal with |- context [asked ?q] => destruct (asked_dev_v _ _ _ _ (pstress p) (pdstress q) (traceless_scaled _ _ _ (traceless (pdstrain p))) eq_refl) as [A1 A2] end.
      unfold asked. cbn [pstress pdstress set] in *. rewrite A1, A2. split; [reflexivity|]. rewrite trace_tr3. unR. ring. }
    destruct EL as [EL|EL]; [exact (HV EL)|]. clear HV. rewrite EL in *. unfold ken_kamrin in E. pbinds E. apply okp_inj in E. destruct E as [<- _].
    match goal with H : attr (s_mu_v S) = Ok ?m |- _ => exists m; split; [destruct (s_mu_v S); [injection H as ->; reflexivity|discriminate]|] end.
    cbn [shown ppressure pdev set].
    match goal with |- context [asked ?q] => destruct (asked_dev_v _ _ _ _ (pstress p) (pdstress q) (scaled2 _ _ _ (traceless (pdstrain p))) eq_refl) as [A1 A2] end.
    unfold asked. cbn [pstress pdstress set] in *. rewrite A1, A2. split; [reflexivity|]. rewrite trace_tr3. unR. ring.
  - intros EL. rewrite EL in E. unfold bingham in E. pbinds E. apply okp_inj in E. destruct E as [<- _].
    match goal with H : attr (s_mu_v S) = Ok ?m |- _ => exists m; split; [destruct (s_mu_v S); [injection H as ->; reflexivity|discriminate]|] end.
    cbn [shown ppressure pdev set pstress].
    match goal with |- context [madd (mscale ?c eye) ?d] => assert (TD : tr3 d = 0) end.
    { match goal with H : (if ?b then _ else _) = Ok ?d |- tr3 ?d = 0 => destruct b; pbinds H; injection H as <-; apply traceless_scaled, traceless end. }
    match goal with |- context [msub (madd (mscale ?c eye) ?d) (mdivs (mscale ?w eye) ?dt)] => destruct (stress_dev_v c w dt d TD) as [A1 A2] end.
    rewrite A1, A2. split; [reflexivity|]. rewrite trace_tr3. unR. ring.
  - intros [EL|[EL|[EL HR]]]; rewrite EL in *.
    + unfold pouliquen in E. pbinds E. destruct (negb _); [discriminate E|]. pbinds E. apply okp_inj in E. destruct E as [<- _].
      cbn [shown ppressure pdev set].
      match goal with |- context [asked ?q] => pose proof (asked_dev _ _ (pstress p) (pdstress q) (traceless_scaled _ _ _ (traceless (pdstrain p))) eq_refl) as A1;
         pose proof (asked_mean _ _ (pstress p) (pdstress q) (traceless_scaled _ _ _ (traceless (pdstrain p))) eq_refl) as A2 end.
      unfold asked. cbn [pstress pdstress set] in *. rewrite A1, A2. split; [reflexivity|]. split; [reflexivity|].
      destruct (orb _ _) eqn:C; [apply Rle_refl|]. apply orb_false_iff in C. destruct C as [C _]. apply Rltb_false in C. exact C.
    + unfold linear_mu in E. pbinds E. apply okp_inj in E. destruct E as [<- _].
      cbn [shown ppressure pdev set].
      match goal with |- context [asked ?q] => pose proof (asked_dev _ _ (pstress p) (pdstress q) (traceless_scaled _ _ _ (traceless (pdstrain p))) eq_refl) as A1;
         pose proof (asked_mean _ _ (pstress p) (pdstress q) (traceless_scaled _ _ _ (traceless (pdstrain p))) eq_refl) as A2 end.
      unfold asked. cbn [pstress pdstress set] in *. rewrite A1, A2. split; [reflexivity|]. split; [reflexivity|].
      match goal with |- (if ?c then _ else _) <= 0 => destruct c eqn:C end; [apply Rle_refl|]. apply Rltb_false in C. exact C.
    + unfold ken_simple in E. pbinds E.
      match type of E with context [if (nofZ 2500 <? prho p)%num then _ else _] => assert (B : (nofZ 2500 <? prho p)%num = true) by (cbn; apply Rltb_true; cbn; lra); rewrite B in E end.
      destruct (negb _); [discriminate E|]. pbinds E. apply okp_inj in E. destruct E as [<- _].
      cbn [shown ppressure pdev set].
      match goal with |- context [asked ?q] => pose proof (asked_dev _ _ (pstress p) (pdstress q) (traceless_scaled _ _ _ (traceless (pdstrain p))) eq_refl) as A1;
         pose proof (asked_mean _ _ (pstress p) (pdstress q) (traceless_scaled _ _ _ (traceless (pdstrain p))) eq_refl) as A2 end.
      unfold asked. cbn [pstress pdstress set] in *. rewrite A1, A2. split; [reflexivity|]. split; [reflexivity|].
      match goal with |- (if ?c then _ else _) <= 0 => destruct c eqn:C end; [apply Rle_refl|]. apply Rltb_false in C. exact C.
Qed.
(** Four materials with a stress, a strain and a time step. *)
Example x_C108_stress : forall l, In l [VonMises; Viscous; KenKamrin; Bingham; LinearMu] ->
  exists P S (p p' : particle R) (G G' : grid R), s_law S = l /\ apply_law P S S 0 p G = Ok (p', G') /\ tr3 (pdev p) = 0 /\
  0 < frob (deviator (pdstrain p)) /\ tr3 (pdstrain p) = 1.
Proof.
  intros l Hl. destruct (grid_init_ok (ex_gridp (T := R)) ex_bounds ex_proper) as (G0 & _ & HG0).
  destruct (run_law l 0 ltac:(cbn in *; tauto) ex_p_loc G0 ex_p_located eq_refl) as (p' & G' & E).
  eexists _, _, _, p', _, G'. split; [|split; [exact E|]]; [reflexivity|]. split; [unfold tr3; cbn; lra|]. split; [|unfold tr3; cbn; lra].
  unfold frob. apply sqrt_lt_R0. unfold inner, deviator, tr3. cbn. lra.
Qed.

Lemma FD3 (e : M3 R) : msub e (mscale (trace e / n3) eye) = deviator e.
Proof. rewrite trace_tr3. unfold deviator. apply m3_ext; cbn; unR; lra. Qed.
Lemma rate2 (e : M3 R) d : 0 < d -> sqrt (nhalf * msum (mmap nsq (mdivs (mscale n2 e) d)))%num = sqrt 2 * frob e / d.
Proof.
  intros Hd. unfold frob. rewrite <- sqrt_mult_alt by lra. rewrite <- (sqrt_square d) at 2 by lra. rewrite <- sqrt_div_alt by nra.
  f_equal. unfold inner, msum, nhalf, nsq, n2. destruct e. cbn. unR. unfold nsq. cbn. unR. field. lra.
Qed.
(** The shear rates shown: the three elastic laws show the deviatoric strain increment over the time step; ken_kamrin
    shows its strain rate, cut off below, divided by the time step once more. *)
Lemma p_C108_rate : forall P S0 S ip (p p' : particle R) (G G' : grid R), apply_law P S0 S ip p G = Ok (p', G') -> 0 < p_dt P ->
  (s_law S = Elastic \/ s_law S = ElasticTime \/ s_law S = VonMises ->
     shown (p_dt P) (s_law S) Fgammadot p' = frob (deviator (pdstrain p)) / p_dt P) /\
  (s_law S = KenKamrin ->
     shown (p_dt P) KenKamrin Fgammadot p' = Rmax (sqrt 2 * frob (deviator (pdstrain p)) / p_dt P) (1 / 100000) / p_dt P).
Proof.
  intros P S0 S ip p p' G G' E Hd. pose proof (p_C76_values _ _ _ _ _ _ _ _ E) as (V1 & V2 & _). split.
  - intros [EL|[EL|EL]]; rewrite EL; cbn [shown].
    + destruct (V1 (or_introl EL)) as (_ & _ & _ & ->). reflexivity.
    + destruct (V2 EL) as (_ & _ & _ & ->). reflexivity.
    + destruct (V1 (or_intror EL)) as (_ & _ & _ & ->). reflexivity.
  - intros EL. unfold apply_law in E. rewrite EL in E. unfold ken_kamrin in E. pbinds E. apply okp_inj in E. destruct E as [<- _].
    cbn [shown pgammadot set]. rewrite FD3. f_equal. rewrite <- rate2 by exact Hd. reflexivity.
Qed.
Lemma p_C108_rate_refuted : ~ forall P S0 S ip (p p' : particle R) (G G' : grid R), apply_law P S0 S ip p G = Ok (p', G') -> 0 < p_dt P ->
  s_law S = KenKamrin -> 1 / 100000 <= sqrt 2 * frob (deviator (pdstrain p)) / p_dt P ->
  shown (p_dt P) KenKamrin Fgammadot p' = sqrt 2 * frob (deviator (pdstrain p)) / p_dt P.
Proof.
  intros H. destruct (grid_init_ok (ex_gridp (T := R)) ex_bounds ex_proper) as (G0 & _ & HG0).
  destruct (run_law KenKamrin 0 ltac:(cbn; tauto) ex_p_loc G0 ex_p_located eq_refl) as (p' & G' & E).
  assert (HD : 0 < p_dt (ex_params (T := R) ex_bounds)) by (cbn; unR; lra).
  pose proof (proj2 (p_C108_rate _ _ _ _ _ _ _ _ E HD) eq_refl) as A. specialize (H _ _ _ _ _ _ _ _ E HD eq_refl).
  rewrite A in H. clear A E. set (f := sqrt 2 * frob _) in *.
  assert (F : 1 <= f).
  { unfold f, frob. rewrite <- sqrt_mult_alt by lra. rewrite <- sqrt_1. apply sqrt_le_1_alt. unfold inner, deviator, tr3. cbn. lra. }
  assert (D10 : p_dt (ex_params (T := R) ex_bounds) = 1 / 10) by (cbn; unR; lra). rewrite D10 in H.
  assert (G : 1 / 100000 <= f / (1 / 10)) by (replace (f / (1/10)) with (10 * f) by field; lra). specialize (H G). rewrite Rmax_left in H by exact G.
  replace (f / (1/10)) with (10 * f) in H by field. replace (10 * f / (1/10)) with (100 * f) in H by field. lra.
Qed.

Lemma regauged p a b P : located P p -> located P (p <| pgammadot := a |> <| ppressure := b |>).
Proof. exact (fun H => H). Qed.
(** Loose grains (ken_simple at a density of at most 2500) have no stress, but the field shows the one of dense grains. *)
Lemma p_C108_loose : forall P S0 S ip (p p' : particle R) (G G' : grid R), apply_law P S0 S ip p G = Ok (p', G') ->
  s_law S = KenSimple -> prho p <= 2500 -> exists mu emax, s_mu_0 S = Some (Sc mu) /\ s_eta_max S = Some emax /\
  asked p' = times 0 (asked p') /\
  pdev p' = times (Rmin (2 * sqrt 2 * mu * Rabs (ppressure p) / pgammadot p) emax / p_dt P) (deviator (pdstrain p)) /\
  shown (p_dt P) KenSimple Fdev p' = frob (pdev p') / sqrt 2.
Proof.
  intros P S0 S ip p p' G G' E EL HR. unfold apply_law in E. rewrite EL in E. unfold ken_simple in E. pbinds E.
  assert (B : (nofZ 2500 <? prho p)%num = false) by (apply Rltb_false; exact HR). rewrite B in E.
  destruct (negb _); [discriminate E|]. pbinds E. apply okp_inj in E. destruct E as [<- _].
  match goal with M : sc_scalar ?q = Ok ?m, M0 : attr (s_mu_0 S) = Ok ?q, MM : attr (s_eta_max S) = Ok ?e |- _ => exists m, e;
    split; [destruct (s_mu_0 S); [injection M0 as ->|discriminate]; destruct q; [injection M as ->; reflexivity|discriminate]|];
    split; [destruct (s_eta_max S); [injection MM as ->; reflexivity|discriminate]|] end.
  split; [|split; [|reflexivity]].
  - unfold asked. cbn [pstress pdstress set]. generalize (pstress p). intros s0. destruct s0. unfold plus3, times. cbn. unR. f_equal; ring.
  - cbn [pdev set]. rewrite FD3. generalize (deviator (pdstrain p)). intros d. destruct d. apply m3_ext; unfold times; cbn; unR; unfold Rdiv; ring.
Qed.
Lemma p_C108_loose_refuted : ~ forall P S0 S ip (p p' : particle R) (G G' : grid R), apply_law P S0 S ip p G = Ok (p', G') ->
  s_law S = KenSimple -> shown (p_dt P) KenSimple Fdev p' = frob (deviator (asked p')) / sqrt 2.
Proof.
  intros H. destruct (grid_init_ok (ex_gridp (T := R)) ex_bounds ex_proper) as (G0 & _ & HG0).
  assert (HX : exists p : particle R, located ex_gridp p /\ pphi p = [1/2; 1/2] /\ ppressure p = -1 /\ pgammadot p = 1 /\ prho p = 2 /\
     pdstrain p = mkM3 1 2 0 2 0 0 0 0 0).
  { exists (ex_p_loc <| pgammadot := 1 |> <| ppressure := -1 |>). split; [apply regauged, ex_p_located|]. repeat split. }
  destruct HX as (p & HL & F1 & F2 & F3 & F4 & F5).
  assert (SM : s_mu_0 (ex_solid_sc (T := R) KenSimple) = Some (Sc 2) /\ s_eta_max (ex_solid_sc (T := R) KenSimple) = Some 1) by (split; reflexivity).
  assert (SL : s_law (ex_solid_sc (T := R) KenSimple) = KenSimple) by reflexivity.
  assert (SD : p_dt (ex_params (T := R) ex_bounds) = 1 / 10) by (cbn; unR; lra).
  destruct (run_law KenSimple 0 ltac:(cbn; tauto) p G0 HL F1) as (p' & G' & E).
  revert E SM SL SD. generalize (ex_params (T := R) ex_bounds) (ex_solid_sc (T := R) KenSimple). intros P S E [SM1 SM2] SL SD.
  specialize (H _ _ _ _ _ _ _ _ E SL).
  destruct (p_C108_loose _ _ _ _ _ _ _ _ E SL) as (mu & emax & X1 & X2 & A & D & Y); [rewrite F4; lra|].
  rewrite SM1 in X1. injection X1 as <-. rewrite SM2 in X2. injection X2 as <-. rewrite Y in H. rewrite F2, F3, F5, SD in D.
  assert (S2 : 1 <= sqrt 2) by (rewrite <- sqrt_1 at 1; apply sqrt_le_1_alt; lra).
  rewrite Rmin_right in D.
  2:{ rewrite Rabs_left by lra. replace (2 * sqrt 2 * 2 * - (-1) / 1) with (4 * sqrt 2) by field. lra. }
  assert (D1 : 1 <= frob (pdev p')).
  { rewrite D. unfold frob. rewrite <- sqrt_1 at 1. apply sqrt_le_1_alt. unfold inner, times, deviator, tr3. cbn. lra. }
  assert (Z : frob (deviator (asked p')) = 0).
  { rewrite A. generalize (asked p'). intros a. unfold frob. match goal with |- sqrt ?x = 0 => assert (X : x = 0) by (destruct a; unfold inner, deviator, tr3, times; cbn; field); rewrite X; apply sqrt_0 end. }
  rewrite Z in H. assert (0 < frob (pdev p') / sqrt 2) by (apply Rdiv_lt_0_compat; lra). unfold Rdiv in H at 2. rewrite Rmult_0_l in H. lra.
Qed.

(** The viscosity shown for the grains of pouliquen is the one before it is cut off; the stress uses the smaller one. *)
Lemma p_C108_viscosity : forall P S0 S ip (p p' : particle R) (G G' : grid R), apply_law P S0 S ip p G = Ok (p', G') ->
  s_law S = Pouliquen -> exists emax, s_eta_max S = Some emax /\
  pdev p' = times (Rmin (shown (p_dt P) Pouliquen Feta p') emax / p_dt P) (deviator (pdstrain p)).
Proof.
  intros P S0 S ip p p' G G' E EL. unfold apply_law in E. rewrite EL in E. unfold pouliquen in E. pbinds E.
  destruct (negb _); [discriminate E|]. pbinds E. apply okp_inj in E. destruct E as [<- _].
  match goal with MM : attr (s_eta_max S) = Ok ?e |- _ => exists e; split; [destruct (s_eta_max S); [injection MM as ->; reflexivity|discriminate]|] end.
  cbn [shown peta pdev set]. rewrite !FD3.
  match goal with |- mdivs (mscale (nmin (nan0 ?e) ?m) ?d) _ = _ => generalize e m d end. intros e m d. apply m3_ext; unfold times; cbn; unR; unfold Rdiv; ring.
Qed.
Definition grain_solid : solid R :=
  mkSolid 2 1 Pouliquen [1/2; 1/2] (Some 3) (Some 2) (Some 1) (Some 2) (Some 0) (Some (1/2)) (Some 1) (Some 1)
    (Some (Ar [2; 2])) (Some (Ar [1; 1])) (Some (Ar [1; 1])) (Some 1) (Some 1) (Some 1) (Some 1) (Some 2) (Some 1) (Some 1) (Some 1)
    (Some 1) (Some 0) (Some 0) (Some 1) (Some 1) (Some 1) [1] (Some (1/2, 1/2)) false None.
Lemma run_grains (p : particle R) G : located ex_gridp p -> pphi p = [1/2; 1/2] ->
  exists p' G', apply_law (ex_params ex_bounds) grain_solid grain_solid 0 p (wipe (ex_params ex_bounds) G) = Ok (p', G').
Proof.
  intros HL Hphi. unfold apply_law. cbn [s_law grain_solid]. unfold pouliquen, weighted. rewrite Hphi.
  cbn [ex_params pG ex_gridp ns gs seq foldM nth_res nth_error bind grain_solid s_rho_s s_mu_0 s_delta_mu s_I_0 s_eta_max s_K attr sc_index negb mallfin nfin Num_R andb].
  change (pG (ex_params (T := R) ex_bounds)) with (ex_gridp (T := R)).
  run_vis HL. eauto.
Qed.
Example x_C108_viscosity : exists P S (p p' : particle R) (G G' : grid R), s_law S = Pouliquen /\ apply_law P S S 0 p G = Ok (p', G') /\
  tr3 (pdstrain p) = 1.
Proof.
  destruct (grid_init_ok (ex_gridp (T := R)) ex_bounds ex_proper) as (G0 & _ & HG0).
  destruct (run_grains ex_p_loc G0 ex_p_located eq_refl) as (p' & G' & E).
  eexists _, _, _, p', _, G'. split; [|split; [exact E|]]; [reflexivity|]. unfold tr3. cbn. lra.
Qed.
Example x_C108_loose : exists P S (p p' : particle R) (G G' : grid R), s_law S = KenSimple /\ apply_law P S S 0 p G = Ok (p', G') /\
  prho p <= 2500 /\ 0 < p_dt P.
Proof.
  destruct (grid_init_ok (ex_gridp (T := R)) ex_bounds ex_proper) as (G0 & _ & HG0).
  destruct (run_law KenSimple 0 ltac:(cbn; tauto) ex_p_loc G0 ex_p_located eq_refl) as (p' & G' & E).
  eexists _, _, _, p', _, G'. split; [|split; [exact E|]]; [reflexivity|]. split; cbn; unR; lra.
Qed.
