(** * Shear stress without motion: C138. *)
From Coq Require Import ZArith List Bool Arith Lia Reals Lra.
From RecordUpdate Require Import RecordUpdate.
From Verif Require Import State NumR LibR LibList Spec SpecLaws ModelGrid ModelConstit ModelParticle ModelMPList ModelMain ProofsGrid ProofsMap ProofsLaws ProofsHist Concrete ThmMapping ThmLaws ThmFields ThmRheo ThmBulk ThmMemory.
Import ListNotations.
Local Existing Instance Num_R.
Local Open Scope R_scope.

Definition flowing : list law_name := fluids ++ grains.
Lemma ken_simple_core P S (p p' : particle R) (G G' : grid R) : ken_simple P S p G = Ok (p', G') -> 0 < p_dt P ->
  exists c, pdev p' = times c (deviator (pdstrain p)) /\
    (madd (pstress p) (pdstress p') = madd (mscale (ppressure p') eye) (pdev p') \/ madd (pstress p) (pdstress p') = iso 0).
Proof.
  intros E Hd. unfold ken_simple in E. pbinds E. destruct (negb _); [discriminate|]. pbinds E. apply okp_inj in E. destruct E as [<- _].
  eexists. split; [exact (visc_dev _ (pdstrain p) (p_dt P))|]. cbn [pdstress pdev ppressure pstress set]. destruct (_ <? _)%num.
  - left. apply add_back.
  - right. destruct (pstress p). unfold iso, madd, mopp, mmap, mmap2. cbn. f_equal; unR; ring.
Qed.
Lemma times_zero c : times c (mkM3 0 0 0 0 0 0 0 0 0) = mkM3 0 0 0 0 0 0 0 0 0.
Proof. unfold times. cbn. rewrite !Rmult_0_r. reflexivity. Qed.
Lemma flowing_out P S0 So ip p G p' G' : In (s_law So) flowing -> apply_law P S0 So ip p G = Ok (p', G') -> untouched So p -> 0 < p_dt P ->
  deviator (pdstrain p) = mkM3 0 0 0 0 0 0 0 0 0 -> exists c, after p' = iso c.
Proof.
  intros HL E HU Hdt HD.
  assert (II : forall c, plus3 (times c (mkM3 1 0 0 0 1 0 0 0 1)) (mkM3 0 0 0 0 0 0 0 0 0) = iso c) by (intros c; unfold iso, plus3, times; cbn; f_equal; ring).
  assert (IM : forall c, madd (mscale c eye) (mkM3 0 0 0 0 0 0 0 0 0) = iso c) by (intros c; unfold iso, madd, mscale, mmap, mmap2, eye; cbn; f_equal; unR; ring).
  apply in_app_or in HL. destruct HL as [HL|HL].
  - destruct (fluid_out _ _ _ _ _ _ _ _ HL E HU ltac:(lra)) as (K & v & _ & _ & _ & _ & (eta & EE) & EA).
    rewrite EE, HD, times_zero, II in EA. eauto.
  - assert (PS : pstress p' = pstress p) by (destruct (law_effect _ _ _ _ _ _ _ _ E) as (_ & _ & _ & _ & X); apply X; destruct HL as [<- |[<- |[<- |[]]]]; discriminate).
    unfold after. rewrite PS. change (plus3 (pstress p) (pdstress p')) with (madd (pstress p) (pdstress p')).
    assert (C : exists c, pdev p' = times c (deviator (pdstrain p)) /\ (madd (pstress p) (pdstress p') = madd (mscale (ppressure p') eye) (pdev p') \/ madd (pstress p) (pdstress p') = iso 0)).
    { unfold apply_law in E. destruct HL as [L|[L|[L|[]]]]; rewrite <- L in E.
      - assert (X : exists emax, s_eta_max So = Some emax) by (pose proof E as E2; unfold pouliquen in E2; pbinds E2; destruct (s_eta_max So); [eauto|discriminate]).
        destruct X as [emax X]. destruct (pouliquen_core _ _ _ _ _ _ _ E Hdt X) as (mu & _ & A & B). eauto.
      - assert (X : exists emax, s_eta_max So = Some emax) by (pose proof E as E2; unfold linear_mu in E2; pbinds E2; destruct (s_eta_max So); [eauto|discriminate]).
        destruct X as [emax X]. destruct (linear_core _ _ _ _ _ _ _ E Hdt X) as (mu & _ & A & B). eauto.
      - exact (ken_simple_core _ _ _ _ _ _ E Hdt). }
    destruct C as (c & EC & [EA|EA]); [|eauto]. rewrite EC, HD, times_zero, IM in EA. eauto.
Qed.

(** ** C138 *)
(** A point that is at rest for one step has lost all of its shear stress,
    whatever its friction or its yield stress, and whatever stress it had. *)
Lemma p_C138_rest_refuted : forall P S0 So ip p G p' G', In (s_law So) flowing -> update_stress P S0 So ip p G = Ok (p', G') -> untouched So p -> 0 < p_dt P ->
  pdstrain p = mkM3 0 0 0 0 0 0 0 0 0 -> pL p = mkM3 0 0 0 0 0 0 0 0 0 -> deviator (pstress p') = mkM3 0 0 0 0 0 0 0 0 0.
Proof.
  intros P S0 So ip p G p' G' HL E HU Hdt HD HZ. unfold update_stress in E. pbinds E.
  match goal with H : apply_law _ _ _ _ _ _ = Ok (?q, ?g) |- _ => rename H into E1; rename q into p1 end.
  destruct (flowing_out _ _ _ _ _ _ _ _ HL E1 HU Hdt) as [c EC]. { rewrite HD. unfold deviator, tr3. cbn. f_equal; field. }
  assert (L1 : pL p1 = mkM3 0 0 0 0 0 0 0 0 0) by (destruct (law_effect _ _ _ _ _ _ _ _ E1) as (F & _); unfold law_frame in F; rewrite F; exact HZ).
  apply okp_inj in E. destruct E as [<- _]. cbn [pstress set]. rewrite L1.
  assert (X : forall a b d : M3 R, madd a (msub b (mmuls (madd (mm (mkM3 0 0 0 0 0 0 0 0 0) d) (mm d (mkM3 0 0 0 0 0 0 0 0 0))) (p_dt P))) = plus3 a b)
    by (intros [] [] []; apply m3_ext; cbn; unR; ring).
  rewrite X. change (plus3 (pstress p1) (pdstress p1)) with (after p1). rewrite EC. unfold deviator, tr3, iso. cbn. f_equal; field.
Qed.
(** To carry a shear stress, a granular material has to creep: at least at the
    rate that the limit on the viscosity demands. *)
Lemma p_C138_creep : forall P S0 So ip (p p' : particle R) (G G' : grid R) emax mu, s_law So = Pouliquen \/ s_law So = LinearMu -> apply_law P S0 So ip p G = Ok (p', G') -> 0 < p_dt P ->
  s_eta_max So = Some emax -> 0 < emax -> 0 < frob (deviator (pdstrain p)) -> pmu p' = Some mu -> 0 <= mu ->
  frob (deviator (after p')) / emax <= frob (deviator (pdstrain p)) / p_dt P.
Proof.
  intros P S0 So ip p p' G G' emax mu HL E Hdt HE H0 HF HM Hmu.
  destruct (p_C77_friction P S0 So ip p p' G G' emax HL E Hdt HE ltac:(lra) HF) as (mu' & c & EM & ED & EB & EA).
  assert (mu' = mu) by congruence. subst mu'. destruct (EB Hmu) as [Hc EF].
  assert (PS : pstress p' = pstress p) by (destruct (law_effect _ _ _ _ _ _ _ _ E) as (_ & _ & _ & _ & X); apply X; destruct HL as [-> | ->]; discriminate).
  assert (DD : deviator (after p') = pdev p').
  { unfold after. rewrite PS, EA, ED. destruct (pdstrain p). unfold deviator, plus3, iso, times, tr3. cbn. f_equal; field. }
  rewrite DD. assert (S2 : 0 < sqrt 2) by (apply sqrt_lt_R0; lra).
  assert (B : frob (pdev p') / sqrt 2 <= emax * frob (deviator (pdstrain p)) / (sqrt 2 * p_dt P)) by (rewrite EF; apply Rmin_r).
  apply (Rmult_le_reg_r (emax / sqrt 2)); [apply Rdiv_lt_0_compat; lra|].
  replace (frob (pdev p') / emax * (emax / sqrt 2)) with (frob (pdev p') / sqrt 2) by (field; lra).
  replace (frob (deviator (pdstrain p)) / p_dt P * (emax / sqrt 2)) with (emax * frob (deviator (pdstrain p)) / (sqrt 2 * p_dt P)) by (field; lra). exact B.
Qed.
(** A sheared point at rest, with friction or viscosity of any kind. *)
Example x_C138_rest_refuted : forall l, In l [Viscous; Bingham; KenKamrin; LinearMu; KenSimple] -> exists P So p G p' G',
  In (s_law So) flowing /\ update_stress P So So 0 p G = Ok (p', G') /\ untouched So p /\ 0 < p_dt P /\
  pdstrain p = mkM3 0 0 0 0 0 0 0 0 0 /\ pL p = mkM3 0 0 0 0 0 0 0 0 0 /\ pstress p = mkM3 (-3) 1 0 1 (-3) 0 0 0 (-3).
Proof.
  intros l Hl. destruct some_grid as [G0 _].
  assert (AX : exists p : particle R, located ex_gridp p /\ pphi p = [1/2; 1/2] /\ pdstress p = mkM3 0 0 0 0 0 0 0 0 0 /\ pdstrain p = mkM3 0 0 0 0 0 0 0 0 0 /\ pL p = mkM3 0 0 0 0 0 0 0 0 0 /\ pstress p = mkM3 (-3) 1 0 1 (-3) 0 0 0 (-3)).
  { exists (ex_p_loc <| pdstress := mkM3 0 0 0 0 0 0 0 0 0 |> <| pdstrain := mkM3 0 0 0 0 0 0 0 0 0 |> <| pL := mkM3 0 0 0 0 0 0 0 0 0 |> <| pstress := mkM3 (-3) 1 0 1 (-3) 0 0 0 (-3) |>).
    split; [exact ex_p_located|]. split; [reflexivity|]. repeat (split; [reflexivity|]). reflexivity. }
  destruct AX as (p & L & F & Z & D & HL & HS).
  assert (Hr : In l [Elastic; ElasticTime; VonMises; DpRate; Viscous; Bingham; KenKamrin; LinearMu; KenSimple]) by (cbn in *; intuition auto).
  destruct (run_law l 0 Hr p G0 L F) as (p' & G' & E).
  exists (ex_params ex_bounds), (ex_solid_sc l), p, (wipe (ex_params ex_bounds) G0). do 2 eexists.
  split; [cbn in *; intuition auto|]. split; [unfold update_stress; rewrite E; cbn [bind]; reflexivity|]. split; [intros _; exact Z|]. split; [cbn; unfold lit; cbn; unR; lra|]. auto.
Qed.
Example x_C138_creep : exists P So (p p' : particle R) (G G' : grid R) emax mu, s_law So = LinearMu /\
  apply_law P So So 0 p G = Ok (p', G') /\ 0 < p_dt P /\ s_eta_max So = Some emax /\ 0 < emax /\
  0 < frob (deviator (pdstrain p)) /\ pmu p' = Some mu /\ 0 <= mu.
Proof.
  set (e := mkM3 1 2 0 2 0 0 0 0 0). destruct (run_linear (-1) e ltac:(cbn; lra)) as (G & p' & G' & mu & E & EM & HM).
  eexists _, _, _, p', G, G', _, mu. split; [|split; [exact E|]]; [reflexivity|]. split; [cbn; lra|]. split; [reflexivity|].
  split; [cbn; lra|]. split; [apply dev_pos; cbn; lra|]. split; [exact EM|lra].
Qed.
