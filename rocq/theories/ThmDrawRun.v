(** * The pictures after a step: C119, C121. *)
From Coq Require Import ZArith Reals List Bool Arith Lra Lia.
From RecordUpdate Require Import RecordUpdate.
From Verif Require Import State NumR Spec SpecLaws SpecStep LibList LibR ModelGrid ModelConstit ModelParticle ModelMPList
  ModelIntegr ModelMain ModelSave ModelDraw ProofsGrid ProofsMap ProofsP2G ProofsWalls ProofsLaws ProofsHist ProofsStep ProofsPoints Concrete
  ThmMapping ThmLaws ThmStep ThmFields ThmShown ThmFrac ProofsSave ThmSave ThmDraw.
Import ListNotations.
Local Existing Instance Num_R.
Local Open Scope R_scope.

Lemma stress_strain_slens P L (G : grid R) L' G' : cyclic_lr (pB P) = false -> slens (nodes (pG P)) G -> stress_strain P L G = Ok (L', G') -> slens (nodes (pG P)) G'.
Proof.
  intros Hc HS E. unfold stress_strain in E. pbinds E. rewrite Hc in E. injection E as <- <-.
  match goal with E : points _ _ _ = Ok _ |- _ => apply (points_acc2 _ (slens (nodes (pG P))) (fun _ => 0) (fun _ _ _ => 0)) in E; [tauto|exact HS|] end.
  intros j ph p G1 p' G1' _ _ HS1 X. change (stress_one P a j ph p G1 = Ok (p', G1')) in X.
  destruct (stress_one_rel _ _ _ _ _ _ _ _ X) as (_ & _ & XL & _). split; [apply XL; exact HS1|ring].
Qed.
Lemma unsorted_kept P L (G G' : grid R) : p2g_lens P G -> p_seg P = false -> p2g_all P L G = Ok G' -> g_sbar G' = g_sbar G /\ g_pk G' = g_pk G.
Proof.
  intros HL Hs E. unfold p2g_all in E. pbinds E. rewrite Hs in E. cbv zeta in E. injection E as <-. cbn [g_sbar g_pk set].
  match goal with H : forM _ _ _ _ = Ok (_, ?g) |- _ => rename g into G1; rename H into EF end.
  destruct (p2g_loop_spec P L G _ G1 HL EF) as (F & _). unfold frame_loop in F. rewrite F. split; reflexivity.
Qed.
(** After a step without segregation and joined ends every array of the grid has a number for every node. *)
Lemma step_fields uf fill (s s' : state R) : proper (pG (sP s)) -> grid_ok (pG (sP s)) (sG s) ->
  all_live (sL s) (fun _ p => in_dom (pG (sP s)) (px p)) -> p_seg (sP s) = false -> cyclic_lr (pB (sP s)) = false -> time_march uf fill s = Ok s' ->
  let n := nodes (pG (sP s)) in let G := sG s' in
  slens n G /\ length (gm G) = n /\ length (gq G) = n /\ length (gV G) = n /\ length (g_sbar G) = n /\ length (g_pk G) = n /\
  length (g_gradpk G) = n /\ length (g_dphi G) = n.
Proof.
  intros HP HG HD Hs Hc E n G.
  destruct (march_any uf fill s s' HP HG HD E) as (_ & _ & _ & _ & _ & _ & _ & _ & _ & _ & _ & EV & _ & LM & LQ & _).
  destruct (march_stages uf fill s s' HP HG HD Hs Hc E)
    as (S0 & L1 & L3 & L4 & L5 & G1 & G3 & G4 & G5 & G6 & _ & _ & _ & _ & EP & FP & ES & _ & _ & _ & EF & LF & EB & _ & _ & EM & _ & EG & _ & _).
  set (P := sP s <| p_loads := uf (sP s) |>) in *.
  destruct (unsorted_kept P L3 _ G1 (wipe_lens P (sG s)) Hs EP) as [K1 K2].
  assert (SL1 : slens n G1).
  { intros g. unfold frame_all in FP. rewrite FP. replace (sget g _) with (sget g (wipe (sP s) (sG s))) by (destruct g; reflexivity).
    rewrite wipe_sget. apply repeat_length. }
  pose proof (stress_strain_slens P L3 G1 L4 G3 Hc SL1 ES) as SL3.
  destruct (stress_strain_rel P L3 G1 L4 G3 ES) as [_ F3]. unfold vis_frame in F3.
  destruct (force_loop_spec P L4 G3 G4 LF EF) as (F4 & _). unfold frame_f in F4.
  pose proof (BCs_frame _ _ _ _ EB) as F5. unfold force_frame in F5.
  destruct (um_shape P G5 G6 EM) as [F6 _].
  assert (SG : forall f, sget f G6 = sget f G3).
  { intros f. rewrite (momentum_sget _ _ _ f EM), (force_sget _ _ f F5), F4. destruct f; reflexivity. }
  assert (W : length (g_sbar G6) = n /\ length (g_pk G6) = n /\ length (g_gradpk G6) = n /\ length (g_dphi G6) = n).
  { rewrite F6. cbn [g_sbar g_pk g_gradpk g_dphi set]. rewrite F5. cbn [g_sbar g_pk g_gradpk g_dphi set]. rewrite F4. cbn [g_sbar g_pk g_gradpk g_dphi set].
    rewrite F3. cbn [g_sbar g_pk g_gradpk g_dphi set]. rewrite K1, K2. unfold frame_all in FP. rewrite FP. cbn [g_sbar g_pk g_gradpk g_dphi set].
    unfold wipe. destruct (p_seg P), (p_seg (sP s)); cbn [g_sbar g_pk g_gradpk g_dphi set]; rewrite ?repeat_length; auto. }
  split; [|split; [exact LM|split; [exact LQ|split; [unfold G; rewrite EV; apply HG|unfold G; rewrite EG; exact W]]]].
  intros f. unfold G. rewrite EG.
  assert (Q : f = Fgammadot \/ sget f (calculate_gammadot fill P G6) = sget f G6) by (destruct f; first [left; reflexivity|right; reflexivity]).
  destruct Q as [-> | ->]; [|rewrite SG; apply SL3].
  unfold calculate_gammadot, calculate_gradient. cbn [sget f_gammadot set]. rewrite zipw_length, !map_length, seq_length. apply Nat.min_id.
Qed.

Lemma panel_total (P : gridp R) (m z : list R) : length m = nodes P -> length z = nodes P -> exists D, panel P m z = Ok D.
Proof.
  intros H1 H2. destruct (reshape_spec P (zipw ndiv z m) 0) as (D & E & _); [rewrite zipw_length, H1, H2; unfold nodes; lia|].
  unfold panel. rewrite E. eexists. reflexivity.
Qed.
Lemma panels_total (P : gridp R) (m : list R) l : length m = nodes P -> (forall t z, In (t, z) l -> length z = nodes P) ->
  exists Ds, mapM (fun tz : title * list R => D <- panel P m (snd tz) ;; Ok (fst tz, D)) l = Ok Ds.
Proof.
  intros HM H. induction l as [|[t z] l IH]; [eexists; reflexivity|]. cbn [mapM fst snd].
  destruct (panel_total P m z HM) as (D & ->); [apply (H t); left; reflexivity|]. cbn [bind].
  destruct IH as (Ds & ->); [intros; eapply H; right; eassumption|]. eexists. reflexivity.
Qed.
Lemma raws_total (P : gridp R) l : (forall t z, In (t, z) l -> length z = nodes P) ->
  exists Ds, mapM (fun tz : title * list R => D <- reshape P (snd tz) ;; Ok (fst tz, map (map (@Some R)) D)) l = Ok Ds.
Proof.
  intros H. induction l as [|[t z] l IH]; [eexists; reflexivity|]. cbn [mapM fst snd].
  destruct (reshape_spec P z 0) as (D & -> & _); [rewrite (H t z) by (left; reflexivity); reflexivity|]. cbn [bind].
  destruct IH as (Ds & ->); [intros; eapply H; right; eassumption|]. eexists. reflexivity.
Qed.
(** After a step of a run without segregation and joined ends the picture of the continuum can be drawn, for any law; the flow
    laws need the parameter [eta_max]. *)
Lemma p_C119_draws : forall uf fill (s s' : state R) So, proper (pG (sP s)) -> grid_ok (pG (sP s)) (sG s) ->
  all_live (sL s) (fun _ p => in_dom (pG (sP s)) (px p)) -> p_seg (sP s) = false -> cyclic_lr (pB (sP s)) = false -> time_march uf fill s = Ok s' ->
  (s_law So = Bingham \/ s_law So = Pouliquen \/ s_law So = LinearMu \/ (exists u, s_law So = UnknownLaw u) -> s_eta_max So <> None) ->
  exists Ds, draw_continuum (sP s') So (sG s') = Ok Ds.
Proof.
  intros uf fill s s' So HP HG HD Hs Hc E HE. destruct (step_fields uf fill s s' HP HG HD Hs Hc E) as (SL & L1 & L2 & L3 & L4 & L5 & L6 & L7).
  assert (EP : pG (sP s') = pG (sP s)).
  { destruct (march_stages uf fill s s' HP HG HD Hs Hc E) as (? & ? & ? & ? & ? & ? & ? & ? & ? & ? & _ & _ & _ & _ & _ & _ & _ & _ & _ & _ & _ & _ & _ & _ & _ & _ & -> & _). reflexivity. }
  rewrite <- EP in *. set (n := nodes (pG (sP s'))) in *. set (G := sG s') in *.
  assert (LG : length (f_gammadot G) = n) by exact (SL Fgammadot).
  assert (LP : length (f_pressure G) = n) by exact (SL Fpressure). assert (LD : length (f_dev G) = n) by exact (SL Fdev).
  assert (LX : length (f_mu G) = n) by exact (SL Fmu). assert (LE : length (f_eta G) = n) by exact (SL Feta). assert (LI : length (f_I G) = n) by exact (SL FI).
  assert (LY : length (f_yield G) = n) by exact (SL Fyield). assert (LV : length (f_sigmav G) = n) by exact (SL Fsigmav). assert (LH : length (f_sigmah G) = n) by exact (SL Fsigmah).
  assert (LDD : length (f_devdot G) = n) by exact (SL Fdevdot).
  assert (LGG : length (grad_gammadot (sP s')) = n) by (unfold grad_gammadot; apply repeat_length).
  unfold draw_continuum. destruct (family_of (s_law So)) eqn:FM.
  - eexists. reflexivity.
  - apply panels_total; [exact L1|]. intros t z H. cbn [combine In] in H. repeat (destruct H as [H|H]; [injection H as _ <-; rewrite ?zipw_length, ?map_length, ?zipw_length; fold n; lia|]). destruct H.
  - destruct (s_eta_max So) as [em|] eqn:EE.
    2:{ exfalso. apply HE; [|reflexivity]. destruct (s_law So); cbn in FM; try discriminate FM; eauto. }
    cbn [attr bind]. apply panels_total; [exact L1|]. intros t z H. cbn [combine In] in H.
    repeat (destruct H as [H|H]; [injection H as _ <-; rewrite ?zipw_length, ?map_length, ?zipw_length, ?map_length; fold n; lia|]). destruct H.
  - apply panels_total; [exact L1|]. intros t z H. cbn [combine In] in H.
    repeat (destruct H as [H|H]; [injection H as _ <-; rewrite ?zipw_length, ?map_length, ?zipw_length; fold n; lia|]). destruct H.
  - apply raws_total. intros t z H. cbn [combine In] in H.
    repeat (destruct H as [H|H]; [injection H as _ <-; rewrite ?zipw_length, ?map_length, ?zipw_length; fold n; lia|]). destruct H.
Qed.

(** A material for the law bingham. *)
Definition mud (eta_max : option R) : solid R :=
  mkSolid 2 1 Bingham [1 / 2; 1 / 2]
          (Some 3) (Some 2) (Some 1) (Some 2) (Some 0) (Some (1 / 2)) (Some 1) (Some 1)
          (Some (Sc 1)) None None None None None eta_max
          (Some 2) (Some 1) (Some 1) (Some 1)
          (Some 1) (Some 0) (Some 0) (Some 1)
          (Some 1) (Some 1) [1] (Some (1 / 2, 1 / 2)) false None.
Lemma ex_start uf fill (So : solid R) : In So [ex_solid Elastic; ex_solid VonMises; ex_solid Viscous; ex_solid DpRate; mud (Some 1); mud None] ->
  exists s s' : state R, ready s /\ shut (sP s) /\ sL s = [mkPhase So 2 v0 [ex_p1; ex_p2]] /\ pG (sP s) = ex_gridp /\ time_march uf fill s = Ok s' /\ 0 < nth 0 (gm (sG s')) 0.
Proof.
  intros Hl. destruct (grid_init_ok ex_gridp ex_box ex_proper) as (G & EG & OK).
  assert (HR : ready (mkState (ex_params ex_box) G [mkPhase So 2 v0 [ex_p1; ex_p2]])).
  { constructor; cbn [start sP sG sL ex_params pG pB p_intruder_v p_v0 p_aniso p_seg pdx ex_gridp p_check].
    - exact ex_proper.
    - exact OK.
    - intros ph [<-|[]]. reflexivity.
    - intros ph p [<-|[]] C. split; [apply (ex_dom Elastic (ex_phase Elastic) p (or_introl eq_refl) C)|]. discriminate.
    - exists So. split; [reflexivity|]. intros ph [<-|[]]. cbn [ph_sol].
      unfold equipped, has. repeat (destruct Hl as [<-|Hl]; [cbn; repeat split; (discriminate || eexists; reflexivity)|]). destruct Hl.
    - intros ph [<-|[]]. cbn [ph_sol]. repeat (destruct Hl as [<-|Hl]; [discriminate|]). destruct Hl.
    - discriminate.
    - left; reflexivity.
    - reflexivity.
    - split; reflexivity.
    - discriminate. }
  destruct (march_total uf fill _ HR) as [s' E]. eexists. exists s'.
  split; [exact HR|]. split; [repeat split; reflexivity|]. split; [reflexivity|]. split; [reflexivity|]. split; [exact E|].
  pose proof (wiped_mass uf fill _ s' (rd_proper _ HR) OK (fun ph p A B => proj1 (rd_dom _ HR ph p A B)) E 0%nat) as W. cbv zeta in W. rewrite W by (cbn; lia). clear W E HR Hl.
  cbn [cyclic_lr pB sP ex_params ex_box sL]. unfold psum, live, Rsum. cbn [map fold_right firstn ph_n ph_pts].
  assert (H2 : 0 <= pm (ex_p2 (T := R)) * hat (pG (ex_params ex_box)) (px ex_p2) 0) by (apply Rmult_le_pos; [cbn; unR; lra|apply hat_nonneg]).
  assert (H1 : 0 < pm (ex_p1 (T := R)) * hat (pG (ex_params ex_box)) (px ex_p1) 0).
  { apply Rmult_lt_0_compat; [cbn; unR; lra|]. unfold hat, node_x, node_y, cell_w, cell_h, col, row, tent.
    cbn [nx ny x_m x_M y_m y_M pG ex_params ex_gridp ex_p1 ex_particle px vx vy Nat.modulo Nat.divmod Nat.div fst snd Nat.sub INR]. unfold nhalf, n3, n2. cbn [nofZ Num_R n0 n1 nadd ndiv]. unR.
unfold lit. cbn [nofZ Num_R ndiv]. unR.
    match goal with |- 0 < Rmax 0 (1 - Rabs ?a) * Rmax 0 (1 - Rabs ?b) => replace a with (1 / 2) by field; replace b with (1 / 2) by field end.
    rewrite Rabs_pos_eq by lra. rewrite Rmax_right by lra. lra. }
  lra.
Qed.
Example x_C119_draws : forall uf fill So, In So [ex_solid Elastic; ex_solid VonMises; ex_solid Viscous; ex_solid DpRate; mud (Some 1)] ->
  exists (s s' : state R) ps, proper (pG (sP s)) /\ grid_ok (pG (sP s)) (sG s) /\ all_live (sL s) (fun _ p => in_dom (pG (sP s)) (px p)) /\
  p_seg (sP s) = false /\ cyclic_lr (pB (sP s)) = false /\ sL s = [mkPhase So 2 v0 ps] /\ length ps = 2%nat /\ time_march uf fill s = Ok s' /\
  (s_law So = Bingham \/ s_law So = Pouliquen \/ s_law So = LinearMu \/ (exists u, s_law So = UnknownLaw u) -> s_eta_max So <> None).
Proof.
  intros uf fill So HI. destruct (ex_start uf fill So) as (s & s' & HR & HS & EL & EG & E & _); [cbn [In] in *; tauto|].
  exists s, s', [ex_p1; ex_p2]. split; [apply HR|]. split; [apply HR|]. split; [intros ph p A B; apply (rd_dom s HR ph p A B)|].
  split; [apply HS|]. split; [apply HS|]. split; [exact EL|]. split; [reflexivity|]. split; [exact E|].
  intros _. cbn [In] in HI. repeat (destruct HI as [<-|HI]; [discriminate|]). destruct HI.
Qed.
(** The law bingham runs without [eta_max] but its picture cannot be drawn. *)
Lemma p_C119_draws_refuted : ~ forall uf fill (s s' : state R) ph L, ready s -> shut (sP s) -> sL s = ph :: L -> time_march uf fill s = Ok s' ->
  exists Ds, draw_continuum (sP s') (ph_sol ph) (sG s') = Ok Ds.
Proof.
  intros H. destruct (ex_start (fun P => p_loads P) (fun _ l => l) (mud None)) as (s & s' & HR & HS & EL & _ & E & _); [cbn [In]; tauto|].
  destruct (H _ _ s s' _ _ HR HS EL E) as (Ds & X). discriminate X.
Qed.

(** One figure, with its grid, for the theorems about panels. *)
Lemma ex_figure So : In So [ex_solid Elastic; ex_solid VonMises; ex_solid Viscous; ex_solid DpRate; mud (Some 1)] ->
  exists P (G : grid R) Ds, draw_continuum P So G = Ok Ds /\ pG P = ex_gridp /\ 0 < nth 0 (gm G) 0.
Proof.
  intros HI. destruct (ex_start (fun P => p_loads P) (fun _ l => l) So) as (s & s' & HR & HS & EL & EG & E & HM); [cbn [In] in *; tauto|].
  destruct (p_C119_draws _ _ s s' So (rd_proper s HR) (rd_grid s HR) (fun ph p A B => proj1 (rd_dom s HR ph p A B)) (proj1 HS) (proj1 (proj2 HS)) E) as (Ds & X).
  { intros _. cbn [In] in HI. repeat (destruct HI as [<-|HI]; [discriminate|]). destruct HI. }
  exists (sP s'), (sG s'), Ds. split; [exact X|]. split; [|exact HM]. rewrite <- EG.
  destruct (march_any _ _ s s' (rd_proper s HR) (rd_grid s HR) (fun ph p A B => proj1 (rd_dom s HR ph p A B)) E) as (? & ? & ? & ? & ? & _ & _ & _ & _ & -> & _). reflexivity.
Qed.
Example x_C119_motion : exists P (G : grid R) Ds, draw_continuum P (ex_solid Viscous) G = Ok Ds /\ s_law (ex_solid (T := R) Viscous) <> Rigid /\ pG P = ex_gridp /\ 0 < nth 0 (gm G) 0.
Proof. destruct (ex_figure (ex_solid Viscous)) as (P & G & Ds & A & B); [cbn [In]; tauto|]. exists P, G, Ds. split; [exact A|]. split; [discriminate|exact B]. Qed.
Example x_C119_rate : forall So, In So [ex_solid Elastic; ex_solid VonMises; ex_solid Viscous; ex_solid DpRate; mud (Some 1)] ->
  exists P (G : grid R) Ds, draw_continuum P So G = Ok Ds /\ 0 < nth 0 (gm G) 0.
Proof. intros So HI. destruct (ex_figure So HI) as (P & G & Ds & A & _ & B). eauto. Qed.
Example x_C119_stress : exists P (G : grid R) Ds, draw_continuum P (mud (Some 1)) G = Ok Ds /\ family_of (s_law (mud (Some 1))) = FamFlow /\ 0 < nth 0 (gm G) 0.
Proof. destruct (ex_figure (mud (Some 1))) as (P & G & Ds & A & _ & B); [cbn [In]; tauto|]. eauto 6. Qed.
Example x_C119_gradient : exists P (G : grid R) Ds, s_law (ex_solid (T := R) Viscous) = Viscous /\ draw_continuum P (ex_solid Viscous) G = Ok Ds /\ 0 < nth 0 (gm G) 0.
Proof. destruct (ex_figure (ex_solid Viscous)) as (P & G & Ds & A & _ & B); [cbn [In]; tauto|]. eauto 6. Qed.

(** The drawn pressure of a node is a mean of what the points show: after a step it lies between any bounds on the
    pressure of the points. *)
Lemma p_C119_mean : forall uf fill (s s' : state R) So Ds lo hi, proper (pG (sP s)) -> grid_ok (pG (sP s)) (sG s) -> shut (sP s) ->
  all_live (sL s) (fun ph p => in_dom (pG (sP s)) (px p) /\ 0 <= pm p) ->
  (forall ph, In ph (sL s) -> s_law (ph_sol ph) <> Rigid /\ s_law (ph_sol ph) <> Dp /\ s_law (ph_sol ph) <> DpRate /\ s_law (ph_sol ph) <> ElasticTime) ->
  time_march uf fill s = Ok s' -> draw_continuum (sP s') So (sG s') = Ok Ds ->
  s_law So = Elastic \/ s_law So = VonMises \/ s_law So = Bingham \/ s_law So = Pouliquen \/ s_law So = LinearMu ->
  all_live (sL s') (fun ph p => lo <= - shown (p_dt (sP s)) (s_law (ph_sol ph)) Fpressure p <= hi) ->
  exists v, shows (pG (sP s')) (gm (sG s')) Ds TPress v /\ forall k, 0 < nth k (gm (sG s')) 0 -> lo <= v k <= hi.
Proof.
  intros uf fill s s' So Ds lo hi HP HG HS HD HL E ED HF HB.
  destruct (p_C119_stress (sP s') So (sG s') Ds ED) as (A & _). cbv zeta in A.
  destruct A as [A _]. { destruct HF as [->|[->|[->|[->| ->]]]]; cbn; auto. }
  eexists. split; [exact A|]. cbv beta. intros k HM.
  destruct (p_C76_between uf fill s s' Fpressure k (- hi) (- lo) HP HG HS HD HL E ltac:(discriminate)) as [B1 B2].
  { intros ph p X Y. specialize (HB ph p X Y). cbv beta in HB. lra. }
  cbn [sget] in B1, B2. set (m := nth k (gm (sG s')) 0) in *. set (f := nth k (f_pressure (sG s')) 0) in *.
  assert (D : f = f / m * m) by (field; lra). split; apply Rmult_le_reg_r with m; try exact HM; lra.
Qed.
Example x_C119_mean : forall uf fill, exists (s s' : state R) Ds, proper (pG (sP s)) /\ grid_ok (pG (sP s)) (sG s) /\ shut (sP s) /\
  all_live (sL s) (fun ph p => in_dom (pG (sP s)) (px p) /\ 0 <= pm p) /\
  (forall ph, In ph (sL s) -> s_law (ph_sol ph) = Elastic) /\ time_march uf fill s = Ok s' /\ draw_continuum (sP s') (ex_solid Elastic) (sG s') = Ok Ds /\ 0 < nth 0 (gm (sG s')) 0.
Proof.
  intros uf fill. destruct (ex_start uf fill (ex_solid Elastic)) as (s & s' & HR & HS & EL & EG & E & HM); [cbn [In]; tauto|].
  destruct (p_C119_draws _ _ s s' (ex_solid Elastic) (rd_proper s HR) (rd_grid s HR) (fun ph p A B => proj1 (rd_dom s HR ph p A B)) (proj1 HS) (proj1 (proj2 HS)) E) as (Ds & X); [intros _; discriminate|].
  exists s, s', Ds. split; [apply HR|]. split; [apply HR|]. split; [exact HS|].
  split; [intros ph p A B; split; [apply (rd_dom s HR ph p A B)|rewrite EL in A; destruct A as [<-|[]]; cbn in B; destruct B as [<-|[<-|[]]]; cbn; unR; lra]|].
  split; [rewrite EL; intros ph [<-|[]]; reflexivity|]. auto.
Qed.

(** ** C121: the colours of [draw_gamma_dot] *)
Lemma rate_plain (e : M3 R) : sqrt (msum (mmap nsq e)) = frob e.
Proof. unfold frob. f_equal. unfold inner, msum. destruct e. cbn. unfold nsq. unR. ring. Qed.
Lemma rate_twice (e : M3 R) d : 0 < d -> sqrt (msum (mmap nsq (mdivs (mscale n2 e) d))) = 2 * frob e / d.
Proof.
  intros Hd. rewrite <- rate_plain. rewrite <- (sqrt_square 2) at 1 by lra. rewrite <- sqrt_mult_alt by lra.
  rewrite <- (sqrt_square d) at 2 by lra. rewrite <- sqrt_div_alt by nra. f_equal. unfold msum. destruct e. cbn. unfold nsq, n2. cbn. unR. field. lra.
Qed.
(** The colour of a point is its shear rate for the three elastic laws.  The other laws already divide by the time step, and
    the picture divides once more. *)
Lemma p_C121_rate : forall P S0 S ip (p p' : particle R) (G G' : grid R), apply_law P S0 S ip p G = Ok (p', G') -> 0 < p_dt P ->
  let rate := frob (deviator (pdstrain p)) / p_dt P in
  (s_law S = Elastic \/ s_law S = ElasticTime \/ s_law S = VonMises -> drawn_rate P p' = rate) /\
  (s_law S = Viscous \/ s_law S = Bingham -> drawn_rate P p' = rate / p_dt P) /\
  (s_law S = Pouliquen \/ s_law S = LinearMu -> drawn_rate P p' = 2 * rate / p_dt P).
Proof.
  intros P S0 S ip p p' G G' E Hd rate. unfold drawn_rate. pose proof (p_C76_values _ _ _ _ _ _ _ _ E) as (V1 & V2 & _). split; [|split].
  - intros [EL|[EL|EL]].
    + destruct (V1 (or_introl EL)) as (_ & _ & _ & ->). reflexivity.
    + destruct (V2 EL) as (_ & _ & _ & ->). reflexivity.
    + destruct (V1 (or_intror EL)) as (_ & _ & _ & ->). reflexivity.
  - intros [EL|EL]; unfold apply_law in E; rewrite EL in E; unfold viscous, bingham in E; pbinds E; apply okp_inj in E; destruct E as [<- _]; cbn [pgammadot set]; rewrite ?FD3.
    all: unR; rewrite rate_plain; reflexivity.
  - intros [EL|EL]; unfold apply_law in E; rewrite EL in E; unfold pouliquen, linear_mu in E; pbinds E; try (destruct (negb _); [discriminate E|]; pbinds E); apply okp_inj in E; destruct E as [<- _]; cbn [pgammadot set]; rewrite ?FD3.
    all: unR; rewrite rate_twice by exact Hd; unfold rate; field; lra.
Qed.

Lemma p_C121_rate_refuted : ~ forall P S0 S ip (p p' : particle R) (G G' : grid R), apply_law P S0 S ip p G = Ok (p', G') -> 0 < p_dt P ->
  s_law S = Viscous -> drawn_rate P p' = frob (deviator (pdstrain p)) / p_dt P.
Proof.
  intros H. destruct (grid_init_ok (ex_gridp (T := R)) ex_bounds ex_proper) as (G0 & _ & HG0).
  destruct (run_law Viscous 0 ltac:(cbn; tauto) ex_p_loc G0 ex_p_located eq_refl) as (p' & G' & E).
  assert (HD : 0 < p_dt (ex_params (T := R) ex_bounds)) by (cbn; unR; lra).
  destruct (p_C121_rate _ _ _ _ _ _ _ _ E HD) as (_ & A & _). specialize (A (or_introl eq_refl)). specialize (H _ _ _ _ _ _ _ _ E HD eq_refl).
  rewrite A in H. clear A E. set (f := frob _) in *.
  assert (F : 0 < f). { unfold f, frob. apply sqrt_lt_R0. unfold inner, deviator, tr3. cbn. lra. }
  assert (D10 : p_dt (ex_params (T := R) ex_bounds) = 1 / 10) by (cbn; unR; lra). rewrite D10 in H.
  replace (f / (1/10)) with (10 * f) in H by field. replace (10 * f / (1/10)) with (100 * f) in H by field. lra.
Qed.
Example x_C121_rate : forall l, In l [Elastic; ElasticTime; VonMises; Viscous; Bingham; LinearMu] ->
  exists P S (p p' : particle R) (G G' : grid R), s_law S = l /\ apply_law P S S 0 p G = Ok (p', G') /\ 0 < p_dt P /\ 0 < frob (deviator (pdstrain p)).
Proof.
  intros l Hl. destruct (grid_init_ok (ex_gridp (T := R)) ex_bounds ex_proper) as (G0 & _ & HG0).
  destruct (run_law l 0 ltac:(cbn in *; tauto) ex_p_loc G0 ex_p_located eq_refl) as (p' & G' & E).
  do 6 eexists. split; [|split; [exact E|]]; [reflexivity|]. split; [cbn; unR; lra|].
  unfold frob. apply sqrt_lt_R0. unfold inner, deviator, tr3. cbn. lra.
Qed.
