(** * Runs with any of eight materials, intruders, loads and belts compute the material point scheme: C102. *)
From Coq Require Import ZArith Reals List Bool Arith Lra Lia.
From Verif Require Import State NumR Spec SpecLaws SpecStep SpecScheme SpecLocal LibList LibR ModelGrid ModelConstit ModelParticle ModelMPList
  ModelIntegr ModelMain ProofsGrid ProofsMap ProofsP2G ProofsWalls ProofsLaws ProofsInOut ProofsHist Concrete
  ThmMapping ThmWalls ThmLaws ThmInOut ThmHist ProofsStep ProofsPoints ThmStep ThmBalance ThmEnergy ThmFall ThmGeo ProofsScheme ThmScheme ProofsLocal.
Import ListNotations.
Local Open Scope R_scope.

(** No point enters, leaves or wraps around, and no grains segregate. *)
Definition sealed (P : params R) : Prop :=
  p_seg P = false /\ cyclic_lr (pB P) = false /\
  outlet_left (pB P) = false /\ outlet_bottom (pB P) = false /\ inlet_right (pB P) = false /\ inlet_top (pB P) = false.

Lemma covered_lawful L : covered L <-> all_live L (fun ph p => lawful (ph_sol ph) p) /\
  (forall ph, In ph L -> match s_law (ph_sol ph) with Dp | DpRate | LinearMu | KenSimple | UnknownLaw _ => False | _ => True end).
Proof.
  split.
  - intros H. split; [intros ph p A C|intros ph A]; specialize (H ph A); cbv beta; unfold lawful; destruct (s_law (ph_sol ph)); auto.
  - intros [H1 H2] ph A. specialize (H2 ph A). pose proof (fun p => H1 ph p A) as H. cbv beta in H. unfold lawful in H. destruct (s_law (ph_sol ph)); auto.
Qed.

Lemma Forall2_both {A B} (R1 R2 : A -> B -> Prop) l l' : Forall2 R1 l l' -> Forall2 R2 l l' -> Forall2 (fun a b => R1 a b /\ R2 a b) l l'.
Proof. intros H. induction H; intros K; inversion K; subst; constructor; auto. Qed.

Lemma moved_cloud Pm P (G : grid R) (F : point -> point) L L' : Forall2 (phase_moved P G) L L' ->
  (forall k ph ph' p p', In ph L -> In p (live ph) -> ph_sol ph' = ph_sol ph -> is_rigid (s_law (ph_sol ph)) = false -> moved P G p p' -> dense P G p p' ->
     point_of Pm k ph' p' = F (point_of Pm k ph p)) ->
  (forall k ph ph' p p', In ph L -> In p (live ph) -> ph_sol ph' = ph_sol ph -> is_rigid (s_law (ph_sol ph)) = true -> driven P p p' ->
     point_of Pm k ph' p' = F (point_of Pm k ph p)) ->
  forall k, cloud_from Pm k L' = map F (cloud_from Pm k L).
Proof.
  intros HR HM HD. induction HR as [|ph ph' L L' (A1 & A2 & A3 & A4 & _ & A6) HR IH]; intros k; [reflexivity|].
  cbn [cloud_from]. rewrite map_app. f_equal.
  - rewrite map_map.
    assert (X : Forall2 (fun p p' => In p (live ph) -> point_of Pm k ph' p' = F (point_of Pm k ph p)) (live ph) (live ph')).
    { destruct (is_rigid (s_law (ph_sol ph))) eqn:RI.
      - eapply Forall2_imp; [|exact A4]. cbv beta. intros p p' Y Hp. apply HD; auto. left; reflexivity.
      - eapply Forall2_imp; [|exact (Forall2_both _ _ _ _ A4 (A6 eq_refl))]. cbv beta. intros p p' [Y1 Y2] Hp. apply HM; auto. left; reflexivity. }
    clear - X. assert (Y : forall l l', Forall2 (fun p p' => In p (live ph) -> point_of Pm k ph' p' = F (point_of Pm k ph p)) l l' ->
      (forall p, In p l -> In p (live ph)) -> map (point_of Pm k ph') l' = map (fun p => F (point_of Pm k ph p)) l).
    { intros l l' H. induction H as [|p p' l l' H1 H IH]; intros I; [reflexivity|]. cbn [map]. f_equal; [apply H1, I; left; reflexivity|].
      apply IH. intros; apply I; right; assumption. }
    apply Y; auto.
  - apply IH; intros j q q' p p' Q; [apply HM|apply HD]; right; exact Q.
Qed.

(** One step of the code is one step of the scheme of SpecLocal.v. *)
Lemma p_C102_step : forall uf fill (s s' : state R) S0, proper (pG (sP s)) -> grid_ok (pG (sP s)) (sG s) ->
  all_live (sL s) (fun _ p => in_dom (pG (sP s)) (px p)) -> sealed (sP s) -> no_rub (pB (sP s)) ->
  covered (sL s) -> own_velocities (sL s) -> 0 < p_dt (sP s) -> 0 <= p_Mtol (sP s) -> sol0 (sL s) = Ok S0 ->
  time_march uf fill s = Ok s' ->
  cloud (sP s) (sL s') = z_step (ambient_of (sP s) (s_rho S0) (uf (sP s)) (sG s)) (cloud (sP s) (sL s)).
Proof.
  intros uf fill s s' S0 HP HG HD HS NR HL HO Hdt Htol HS0 E.
  pose proof HS as (Hs & Hc & O1 & O2 & I1 & I2).
  destruct (march_stages uf fill s s' HP HG HD Hs Hc E) as
    (S1 & L1 & L3 & L4 & L5 & G1 & G3 & G4 & G5 & G6 & HS1 & E1 & R1 & R3 & E2 & F1 & E3 & R4 & F3 & Lo & E4 & LF & E5 & Z4 & Z5 & E6 & EP & EG & PM & EI).
  rewrite HS0 in HS1. injection HS1 as <-.
  set (P := sP s <| p_loads := uf (sP s) |>) in *. set (Pg := pG (sP s)) in *.
  set (SC := ambient_of (sP s) (s_rho S0) (uf (sP s)) (sG s)). set (B := cloud (sP s) (sL s)).
  destruct (force_loop_spec P L4 G3 G4 LF E4) as (F4 & _ & FI & FE).
  pose proof (BCs_frame _ _ _ _ E5) as F5. destruct (um_shape P G5 G6 E6) as [F6 UQ].
  pose proof (p_C49_surface_loads P (s_rho S0) G4 G5 Z4 HP) as SL.
  destruct (wipe_geo (sP s) (sG s)) as (W1 & W2 & _ & _ & WV & W6 & W7 & _ & WC).
  assert (M1 := p2g_all_mass P L3 (wipe (sP s) (sG s)) G1 (wipe_lens (sP s) (sG s)) E2).
  assert (Q1 := p2g_all_mom P L3 (wipe (sP s) (sG s)) G1 (wipe_lens (sP s) (sG s))).
  rewrite W6, W7 in Q1. specialize (Q1 (go_bv _ _ HG) (go_bh _ _ HG) E2).
  destruct M1 as (Lm1 & _ & M1). destruct Q1 as (Lq1 & Q1).
  unfold frame_all in F1. unfold vis_frame in F3. unfold frame_f in F4. unfold force_frame in F5.
  assert (EX : forall k, nth k (gext G4) v0 = v0).
  { intros k. rewrite F4. cbn. rewrite F3. cbn. rewrite F1. cbn. rewrite wipe_ext. apply nth_repeat_same. }
  assert (FI3 : gfi G3 = repeat v0 (nodes Pg)). { rewrite F3. cbn. rewrite F1. cbn. apply wipe_fi. }
  assert (FE3 : gfe G3 = repeat v0 (nodes Pg)). { rewrite F3. cbn. rewrite F1. cbn. apply wipe_fe. }
  assert (FI5 : gfi G5 = gfi G4) by (eapply BCs_fi; exact E5).
  assert (EQ5 : gq G5 = gq G1). { rewrite F5. cbn. rewrite F4. cbn. rewrite F3. reflexivity. }
  assert (EM4 : gm G4 = gm G1). { rewrite F4. cbn. rewrite F3. reflexivity. }
  assert (EM5 : gm G5 = gm G1). { rewrite F5. cbn. exact EM4. }
  assert (EM6 : gm G6 = gm G1). { rewrite F6. cbn. exact EM5. }
  assert (EV6 : gV G6 = gV (sG s)). { rewrite F6. cbn. rewrite F5. cbn. rewrite F4. cbn. rewrite F3. cbn. rewrite F1. cbn. exact WV. }
  assert (DX : gdx G4 = cell_w Pg /\ gdy G4 = cell_h Pg).
  { rewrite F4. cbn. rewrite F3. cbn. rewrite F1. cbn. rewrite W1, W2. split; [exact (go_dx _ _ HG)|exact (go_dy _ _ HG)]. }
  assert (BC : bconv G5 = bconv (sG s)). { rewrite F5. cbn. rewrite F4. cbn. rewrite F3. cbn. rewrite F1. cbn. exact WC. }
  assert (BV : bv G5 = bv (sG s) /\ bh G5 = bh (sG s)).
  { rewrite F5. cbn. rewrite F4. cbn. rewrite F3. cbn. rewrite F1. cbn. split; assumption. }
  destruct BV as [BV BH]. destruct DX as [DX DY].
  specialize (SL EX E5). cbv zeta in SL.
  apply covered_lawful in HL. destruct HL as [HL HL2].
  (* the located points *)
  assert (D1 : all_live L1 (fun ph p => lawful (ph_sol ph) p /\ exists v, pv p = Own v)).
  { eapply (Lrel_all_live _ (sL s) L1 (fun ph p => lawful (ph_sol ph) p /\ exists v, pv p = Own v)); [exact R1| |].
    - cbv beta. intros ph p ph' p' _ _ ES _ _ [b ->] [X1 X2]. rewrite ES. split; [exact X1|exact X2].
    - intros ph p A C. split; [exact (HL ph p A C)|exact (HO ph p A C)]. }
  assert (D3 : all_live L3 (fun ph p => located Pg p /\ lawful (ph_sol ph) p /\ exists v, pv p = Own v)).
  { eapply (Lrel_all_live _ L1 L3); [exact R3| |exact D1]. cbv beta. intros ph p ph' p' _ _ ES _ _ [D ->] [X1 X2]. rewrite ES.
    split; [apply locate_located; exact D|]. split; [exact X1|exact X2]. }
  assert (SO3 : map ph_sol L3 = map ph_sol (sL s)) by (rewrite (Lrel_sol _ _ _ R3); apply (Lrel_sol _ _ _ R1)).
  set (gr := fun q => mkPoint (z_stuff q) (z_m q) (z_V q) (z_x q) (z_v q) (z_s q) (if z_first q then a_g SC else z_b q) (z_first q)).
  assert (B3 : cloud (sP s) L3 = map gr B).
  { unfold cloud. rewrite (Lrel_cloud (sP s) _ (fun q => q) L1 L3 R3).
    - rewrite map_id. unfold update_forces, points_, points in E1. pbinds E1. injection E1 as ->.
      match goal with X : forM _ _ _ _ = Ok _ |- _ => rename X into EE end.
      eapply (points_cloud (sP s) _ (fun _ => True) gr (sL s)) in EE; [exact EE| |exact I].
      intros k ph p u p' u' _ _ _ X. injection X as <- _. split; [exact I|]. unfold increment_gravity, point_of, gr, velocity.
      cbn [z_stuff z_m z_V z_x z_v z_s z_b z_first]. destruct (Nat.eqb k 0); reflexivity.
    - cbv beta. intros k ph ph' p p' _ _ ES EV [_ ->]. unfold point_of, velocity. rewrite ES, EV. reflexivity. }
  (* nodal mass and velocity *)
  assert (MK : forall k, nth k (gm G1) 0 = z_mass SC B k).
  { intros k. rewrite M1, wipe_m, Rplus_0_l. unfold mass_at.
    rewrite (psum_ext L3 _ (fun _ p => pm p * hat Pg (px p) k)).
    2:{ intros ph p A C. rewrite (wt_hat P p k HP); [reflexivity|apply (D3 ph p A C)]. }
    rewrite (psum_cloud (sP s) (fun _ p => pm p * hat Pg (px p) k) (fun q => z_m q * hat Pg (z_x q) k) L3 (fun _ _ _ => eq_refl) 0%nat).
    change (cloud_from (sP s) 0 L3) with (cloud (sP s) L3). rewrite B3, Rsum_map_map. reflexivity. }
  assert (VK : forall a k, node_v P G1 a k = z_vel SC B a k).
  { intros a k. unfold node_v, z_vel. rewrite <- MK. change (p_Mtol P) with (a_tol SC). rewrite Rltb_dec.
    destruct (Rlt_dec _ _); [|reflexivity]. f_equal. rewrite Q1, wipe_q, comp_v0, Rplus_0_l, open_passes. cbn [SC a_open ambient_of]. f_equal.
    unfold mom_at. rewrite (psum_ext L3 _ (fun ph p => pm p * comp a (velocity ph p) * hat Pg (px p) k)).
    2:{ intros ph p A C. rewrite (wt_hat P p k HP); [change (pG P) with Pg; ring|apply (D3 ph p A C)]. }
    rewrite (psum_cloud (sP s) (fun ph p => pm p * comp a (velocity ph p) * hat Pg (px p) k) (fun q => z_m q * comp a (z_v q) * hat Pg (z_x q) k) L3 (fun _ _ _ => eq_refl) 0%nat).
    change (cloud_from (sP s) 0 L3) with (cloud (sP s) L3). rewrite B3, Rsum_map_map. reflexivity. }
  (* strain and stress *)
  set (st := fun q => mkPoint (z_memory (z_stuff q) (z_strain SC B q)) (z_shed SC q) (z_V q) (z_x q) (z_v q) (z_stress SC q (z_strain SC B q)) (z_b q) (z_first q)).
  unfold stress_strain in E3. pbinds E3. change (cyclic_lr (pB P)) with (cyclic_lr (pB (sP s))) in E3. rewrite Hc in E3. injection E3 as E3a E3b.
  match goal with H : points _ _ _ = Ok (?l, ?g) |- _ => rename H into EQ; rename l into La; rename g into Ga end.
  rewrite E3a in EQ.
  assert (ST : forall k ph p G2 p' G2', In ph L3 -> In p (live ph) -> vis_frame G1 G2 -> stress_one P a k ph p G2 = Ok (p', G2') ->
     vis_frame G1 G2' /\ strained p p' /\ lawful (ph_sol ph) p' /\ point_of (sP s) k ph p' = st (point_of (sP s) k ph p)).
  { intros k ph p G2 p' G2' A C V X. pose proof (stress_one_rel _ _ _ _ _ _ _ _ X) as (X1 & X2 & _ & _).
    split; [exact (vis_frame_trans _ _ _ V X2)|]. split; [exact X1|].
    assert (EM : gm G2 = gm G1) by (rewrite V; reflexivity). assert (EQ2 : gq G2 = gq G1) by (rewrite V; reflexivity).
    destruct (D3 ph p A C) as (Y1 & Y2 & _).
    destruct (stress_local P a k ph p p' G2 G2' SC HP Y1) as (A1 & A2 & A3 & A4); auto.
    + rewrite EM. exact Lm1.
    + rewrite EQ2. exact Lq1.
    + assert (EV : forall a k, node_v P G2 a k = z_vel SC B a k)
        by (intros; rewrite <- VK; unfold node_v; rewrite EM, EQ2; reflexivity).
      assert (ED : m3 (fun a b => p_dt P * fsum (nodes (pG P)) (fun j =>
         (node_v P G2 a j * ghat (pG P) (px p) b j + node_v P G2 b j * ghat (pG P) (px p) a j) / 2)) = z_strain SC B (point_of (sP s) k ph p)).
      { apply m3_ext. intros x y. unfold z_strain. rewrite !el_m3. cbn [SC a_dt ambient_of]. f_equal.
        apply fsum_ext. intros j Hj. rewrite !EV. reflexivity. }
      rewrite ED in A1, A3. split; [exact A4|].
      change (point_of P) with (point_of (sP s)) in A1, A2. change (stuff_of P) with (stuff_of (sP s)) in A3.
      unfold point_of at 1. rewrite A1, A2, A3. unfold st. unfold strained, law_frame in X1. unfold velocity. rewrite X1. reflexivity. }
  assert (R5 : Lrel (fun ph p p' => strained p p' /\ lawful (ph_sol ph) p') L3 L4).
  { apply (points_rel (stress_one P a) (fun G => vis_frame G1 G) (fun ph p p' => strained p p' /\ lawful (ph_sol ph) p') L3 G1 L4 Ga) in EQ; [apply EQ|apply vis_frame_refl|].
    intros k ph p G2 p' G2' A C V X. destruct (ST k ph p G2 p' G2' A C V X) as (Y1 & Y2 & Y3 & _). auto. }
  assert (B4 : cloud (sP s) L4 = map (z_strained SC B) B).
  { unfold cloud. unfold points in EQ. eapply (points_cloud (sP s) (stress_one P a) (fun G => vis_frame G1 G) st L3) in EQ.
    - rewrite EQ. change (cloud_from (sP s) 0 L3) with (cloud (sP s) L3). rewrite B3, map_map. apply map_ext. intros q. reflexivity.
    - intros k ph p G2 p' G2' A C V X. destruct (ST k ph p G2 p' G2' A C V X) as (Y1 & Y2 & Y3 & Y4). auto.
    - apply vis_frame_refl. }
  assert (D4 : all_live L4 (fun ph p => located Pg p /\ exists v, pv p = Own v)).
  { eapply (Lrel_all_live _ L3 L4); [exact R5| |exact D3]. cbv beta. intros ph p ph' p' _ _ _ _ _ (X & _) (Y & _ & Z).
    split; [eapply strained_located; eauto|]. unfold strained, law_frame in X. rewrite X. exact Z. }
  (* forces *)
  set (B1 := map (z_strained SC B) B) in *.
  assert (FK : forall a k, (k < nodes Pg)%nat -> net_force P G5 a k = a_damp SC * (z_force SC B1 a k + a_load SC a k * z_mass SC B k)).
  { intros c k Hk. unfold net_force. change (if p_damping P then 7/10 else 1) with (a_damp SC). f_equal. rewrite FI5.
    destruct (SL k Hk) as (A1 & A2 & A3). rewrite EM4, MK, DX in A1. rewrite EM4, MK, DY in A2.
    change (pB P) with (pB (sP s)) in A1, A2. change (p_loads P) with (uf (sP s)) in A1, A2.
    assert (Z2 : comp c (nth k (gfe G5) v0) = comp c (nth k (gfe G4) v0) + a_load SC c k * z_mass SC B k).
    { cbn [SC a_load ambient_of]. unfold load_of. destruct c; cbn [comp].
      - rewrite A1. destruct (horizontal_force (pB (sP s))); [|lra]. unfold push, ends, col. change (pG P) with Pg. fold Pg. unfold Rdiv. ring.
      - rewrite A2. destruct (vertical_force (pB (sP s))); [|lra]. unfold push, ends, row. change (pG P) with Pg. fold Pg. unfold Rdiv. ring.
      - rewrite A3. ring. }
    rewrite Z2, FI, FE, FI3, FE3, nth_repeat_same, comp_v0, !Rplus_0_l.
    assert (ZF : psum L4 (fun _ p => pm p * wt P p k * comp c (pb p)) - psum L4 (fun _ p => fint_at P p c k) = z_force SC B1 c k).
    { transitivity (psum L4 (fun _ p => pm p * comp c (pb p) * hat Pg (px p) k - pV p * over (fun b => el c b (pstress p) * ghat Pg (px p) b k))).
      - transitivity (psum L4 (fun _ p => pm p * wt P p k * comp c (pb p) + -1 * fint_at P p c k)); [rewrite psum_plus, psum_scal; lra|].
        apply psum_ext. intros ph p A C. destruct (D4 ph p A C) as [Y _]. rewrite (wt_hat P p k HP Y), (fint_ghat P p c k HP Y).
          change (pG P) with Pg. ring.
      - rewrite (psum_cloud (sP s) (fun _ p => pm p * comp c (pb p) * hat Pg (px p) k - pV p * over (fun b => el c b (pstress p) * ghat Pg (px p) b k)) (fun q => z_m q * comp c (z_b q) * hat Pg (z_x q) k - z_V q * over (fun b => el c b (z_s q) * ghat Pg (z_x q) b k)) L4 (fun _ _ _ => eq_refl) 0%nat).
        change (cloud_from (sP s) 0 L4) with (cloud (sP s) L4). rewrite B4. reflexivity. }
    rewrite <- ZF. lra. }
  assert (AK : forall a k, (k < nodes Pg)%nat -> node_acc P G6 a k = z_acc SC B B1 a k).
  { intros c k Hk. unfold node_acc, z_acc. rewrite EM6, MK. change (p_Mtol P) with (a_tol SC). rewrite Rltb_dec.
    destruct (Rlt_dec _ _); [|reflexivity]. f_equal. rewrite (no_rub_rate P G5 G6 Z5 E6 NR), FK by exact Hk.
    rewrite BV, BH, open_passes. reflexivity. }
  assert (VK6 : forall a k, (k < nodes Pg)%nat -> node_v P G6 a k = z_end SC B B1 a k).
  { intros c k Hk. destruct (um_q P G5 G6 Z5 E6 k Hk) as [U1 U2]. rewrite EQ5 in U1, U2.
    assert (NB : comp c (nth k (gq G6) v0) = comp c (nth k (gq G1) v0) + p_dt P * comp c (nth k (gqd G6) v0) ->
      node_v P G6 c k = z_vel SC B c k + a_dt SC * z_acc SC B B1 c k).
    { intros U. rewrite <- AK, <- VK by exact Hk. unfold node_v, node_acc. rewrite EM6. destruct (Rltb _ _); [|lra].
      rewrite U. change (a_dt SC) with (p_dt P). unfold Rdiv. ring. }
    unfold z_end. cbn [SC a_belt ambient_of]. fold SC. destruct c; try (apply NB, U2; discriminate).
    rewrite BC, EM5 in U1. change (pB P) with (pB (sP s)) in U1. change (p_v0 P) with (p_v0 (sP s)) in U1.
    destruct UQ as (w & UW & _). change (pB P) with (pB (sP s)) in UW. change (p_v0 P) with (p_v0 (sP s)) in UW.
    destruct (conveyor (pB (sP s))); cbn [andb] in U1; [|apply NB, U1].
    rewrite (UW eq_refl) in *. destruct (nth k (bconv (sG s)) false); [|apply NB, U1].
    unfold node_v. rewrite EM6. cbn [comp]. rewrite U1, MK. change (p_Mtol P) with (a_tol SC). rewrite Rltb_dec.
    destruct (Rlt_dec _ _) as [H|H]; [|reflexivity]. change (a_tol SC) with (p_Mtol (sP s)) in H. field. lra. }
  assert (RK : forall k, node_rho P G6 k = z_rho SC B k).
  { intros k. unfold node_rho, z_rho. rewrite EM6, EV6, MK. change (p_Mtol P) with (a_tol SC). rewrite Rltb_dec. reflexivity. }
  (* the move *)
  assert (IO : inout P L5 = Ok L5).
  { unfold inout. change (pB P) with (pB (sP s)). rewrite O1, O2, I1, I2, Hc. reflexivity. }
  rewrite IO in EI. injection EI as EI. rewrite <- EI.
  assert (LW : forall ph, In ph L4 -> match s_law (ph_sol ph) with Dp | DpRate | LinearMu | KenSimple | UnknownLaw _ => False | _ => True end).
  { intros ph A. destruct (map_in_sol L3 L4 ph (Lrel_sol _ _ _ R5) A) as (ph0 & A0 & <-). destruct (map_in_sol (sL s) L3 ph0 SO3 A0) as (ph1 & A1 & <-). apply HL2. exact A1. }
  assert (B5 : cloud (sP s) L5 = map (z_moved SC B B1) (cloud (sP s) L4)).
  { unfold cloud. apply (moved_cloud (sP s) P G6 (z_moved SC B B1) L4 L5 PM).
    - intros k ph ph' p p' A C ES RI (Y1 & Y2 & Y3) YD. destruct (D4 ph p A C) as [LO' [v V]]. rewrite V in Y3. destruct Y3 as (v' & V1 & V2).
      assert (PX : px p' = v3 (fun a => comp a (px p) + a_dt SC * fsum (nodes Pg) (fun k => hat Pg (px p) k * z_end SC B B1 a k))).
      { apply v3_ext. intros c. rewrite Y2. transitivity (comp c (px p) + a_dt SC * fsum (nodes Pg) (fun k => hat Pg (px p) k * z_end SC B B1 c k)); [|destruct c; reflexivity].
        change (a_dt SC) with (p_dt P) at 1. do 2 f_equal. apply fsum_ext. intros j Hj. rewrite VK6 by exact Hj. reflexivity. }
      assert (PV : v' = v3 (fun a => comp a v + a_dt SC * fsum (nodes Pg) (fun k => hat Pg (px p) k * z_acc SC B B1 a k))).
      { apply v3_ext. intros c. rewrite V2. transitivity (comp c v + a_dt SC * fsum (nodes Pg) (fun k => hat Pg (px p) k * z_acc SC B B1 c k)); [|destruct c; reflexivity].
        change (a_dt SC) with (p_dt P). do 2 f_equal. apply fsum_ext. intros j Hj. rewrite AK by exact Hj. reflexivity. }
      assert (PR : prho p' = fsum (a_nodes SC) (fun k => hat (a_P SC) (px p) k * z_rho SC B k)).
      { rewrite YD. apply fsum_ext. intros j _. rewrite RK. reflexivity. }
      specialize (LW ph A). unfold point_of at 1. unfold velocity at 1. rewrite V1, PX, PV, ES. rewrite Y1. cbn [pm pV pstress pb set].
      assert (SF : stuff_of (sP s) (ph_sol ph) (p <| px := px p' |> <| pv := pv p' |> <| prho := prho p' |>)
                   = z_dense SC B (px p) (stuff_of (sP s) (ph_sol ph) p)).
      { unfold stuff_of, z_dense. rewrite <- PR. destruct (s_law (ph_sol ph)); reflexivity. }
      rewrite SF. unfold z_moved, point_of, velocity. rewrite V. cbn [z_stuff z_m z_V z_x z_v z_s z_b z_first].
      unfold stuff_of. destruct (s_law (ph_sol ph)); try contradiction; try discriminate; reflexivity.
    - intros k ph ph' p p' A C ES RI (w & W & ->). unfold point_of at 1. unfold velocity at 1. cbn [pv px pm pV pstress pb set]. rewrite ES.
      unfold z_moved, point_of. cbn [z_stuff z_m z_V z_x z_v z_s z_b z_first]. unfold stuff_of.
      destruct (s_law (ph_sol ph)); try discriminate. change (p_intruder_v P) with (p_intruder_v (sP s)) in W.
      cbn [SC a_w ambient_of]. rewrite W. f_equal. }
  rewrite B5, B4. reflexivity.
Qed.

Lemma stress_lawful P S0 k ph (p p' : particle R) G G' : stress_one P S0 k ph p G = Ok (p', G') -> lawful (ph_sol ph) p -> lawful (ph_sol ph) p'.
Proof.
  intros X W. unfold stress_one in X. pbinds X. apply strain_frame in E. unfold update_stress in X. pbinds X. injection X as <- _.
  unfold lawful in *. unfold apply_law in E0. destruct (s_law (ph_sol ph)); auto.
  - unfold rigid in E0. injection E0 as <- _. cbn [pdstress set]. rewrite E. exact W.
  - unfold bingham in E0. pbinds E0. injection E0 as <- _. cbn [pdstress set]. rewrite E. exact W.
Qed.

(** What a step leaves of the phases. *)
Lemma local_keeps uf fill (s s' : state R) : proper (pG (sP s)) -> grid_ok (pG (sP s)) (sG s) ->
  all_live (sL s) (fun _ p => in_dom (pG (sP s)) (px p)) -> sealed (sP s) -> covered (sL s) -> own_velocities (sL s) ->
  time_march uf fill s = Ok s' ->
  map ph_sol (sL s') = map ph_sol (sL s) /\ covered (sL s') /\ own_velocities (sL s') /\ (counted (sL s) -> counted (sL s')).
Proof.
  intros HP HG HD HS HL HO E. pose proof HS as (Hs & Hc & O1 & O2 & I1 & I2).
  destruct (march_stages uf fill s s' HP HG HD Hs Hc E) as
    (S1 & L1 & L3 & L4 & L5 & G1 & G3 & G4 & G5 & G6 & HS1 & E1 & R1 & R3 & E2 & F1 & E3 & R4 & F3 & Lo & E4 & LF & E5 & Z4 & Z5 & E6 & EP & EG & PM & EI).
  set (P := sP s <| p_loads := uf (sP s) |>) in *. set (Pg := pG (sP s)) in *.
  assert (IO : inout P L5 = Ok L5).
  { unfold inout. change (pB P) with (pB (sP s)). rewrite O1, O2, I1, I2, Hc. reflexivity. }
  rewrite IO in EI. injection EI as EI. rewrite <- EI.
  apply covered_lawful in HL. destruct HL as [HL HL2].
  assert (D1 : all_live L1 (fun ph p => lawful (ph_sol ph) p /\ exists v, pv p = Own v)).
  { eapply (Lrel_all_live _ (sL s) L1 (fun ph p => lawful (ph_sol ph) p /\ exists v, pv p = Own v)); [exact R1| |].
    - cbv beta. intros ph p ph' p' _ _ ES _ _ [b ->] [X1 X2]. rewrite ES. split; [exact X1|exact X2].
    - intros ph p A C. split; [exact (HL ph p A C)|exact (HO ph p A C)]. }
  assert (D3 : all_live L3 (fun ph p => lawful (ph_sol ph) p /\ exists v, pv p = Own v)).
  { eapply (Lrel_all_live _ L1 L3); [exact R3| |exact D1]. cbv beta. intros ph p ph' p' _ _ ES _ _ [D ->] [X1 X2]. rewrite ES. split; [exact X1|exact X2]. }
  unfold stress_strain in E3. pbinds E3. change (cyclic_lr (pB P)) with (cyclic_lr (pB (sP s))) in E3. rewrite Hc in E3. injection E3 as E3a E3b.
  match goal with H : points _ _ _ = Ok (?l, ?g) |- _ => rename H into EQ; rename l into La; rename g into Ga end.
  rewrite E3a in EQ.
  assert (R5 : Lrel (fun ph p p' => strained p p' /\ (lawful (ph_sol ph) p -> lawful (ph_sol ph) p')) L3 L4).
  { apply (points_rel (stress_one P a) (fun _ => True) (fun ph p p' => strained p p' /\ (lawful (ph_sol ph) p -> lawful (ph_sol ph) p')) L3 G1 L4 Ga) in EQ; [apply EQ|exact I|].
    intros k ph p G2 p' G2' A C V X. split; [exact I|]. pose proof (stress_one_rel _ _ _ _ _ _ _ _ X) as (X1 & _). split; [exact X1|]. apply (stress_lawful _ _ _ _ _ _ _ _ X). }
  assert (D4 : all_live L4 (fun ph p => lawful (ph_sol ph) p /\ exists v, pv p = Own v)).
  { eapply (Lrel_all_live _ L3 L4); [exact R5| |exact D3]. cbv beta. intros ph p ph' p' _ _ ES _ _ (X & Y) (Z1 & Z2). rewrite ES.
    split; [auto|]. unfold strained, law_frame in X. rewrite X. exact Z2. }
  assert (SO4 : map ph_sol L4 = map ph_sol (sL s)) by (rewrite (Lrel_sol _ _ _ R5), (Lrel_sol _ _ _ R3); apply (Lrel_sol _ _ _ R1)).
  assert (SO5 : map ph_sol L5 = map ph_sol L4).
  { clear - PM. induction PM as [|ph ph' L L' (A1 & _) PM IH]; [reflexivity|]. cbn [map]. rewrite A1, IH. reflexivity. }
  assert (D5 : all_live L5 (fun ph p => lawful (ph_sol ph) p /\ exists v, pv p = Own v)).
  { clear - PM D4. induction PM as [|ph ph' L L' (A1 & A2 & A3 & A4 & _) PM IH]; [intros ? ? []|].
    intros ph1 p1 [<-|A] C.
    - assert (K : forall p, In p (live ph) -> lawful (ph_sol ph) p /\ exists v, pv p = Own v) by (intros p Hp; apply (D4 ph p); [left; reflexivity|exact Hp]).
      clear - A1 A4 C K. rewrite A1. revert C K. set (l := live ph) in *. set (l' := live ph') in *. clearbody l l'.
      intros C K. induction A4 as [|p p' l l' X A4 IH]; [destruct C|]. destruct C as [<-|C]; [|apply IH; [exact C|intros; apply K; right; assumption]].
      destruct (K p (or_introl eq_refl)) as [K1 [v K2]]. destruct (is_rigid (s_law (ph_sol ph))).
      + destruct X as (w & _ & ->). split; [exact K1|exists w; reflexivity].
      + destruct X as (Y1 & Y2 & Y3). rewrite K2 in Y3. destruct Y3 as (v' & V & _). split; [rewrite Y1; exact K1|exists v'; exact V].
    - apply (IH (fun q p Q => D4 q p (or_intror Q)) ph1 p1 A C). }
  split; [rewrite SO5; exact SO4|]. split; [|split].
  - apply covered_lawful. split; [intros ph p A C; apply (D5 ph p A C)|].
    intros ph A. destruct (map_in_sol L4 L5 ph SO5 A) as (ph0 & A0 & <-). destruct (map_in_sol (sL s) L4 ph0 SO4 A0) as (ph1 & A1 & <-). apply HL2. exact A1.
  - intros ph p A C. apply (D5 ph p A C).
  - intros HC. assert (C4 : counted L4) by (apply (Lrel_counted _ _ _ R5), (Lrel_counted _ _ _ R3), (Lrel_counted _ _ _ R1), HC).
    clear - PM C4. unfold counted in *. induction PM as [|ph ph' L L' (A1 & A2 & A3 & _) PM IH]; [intros ? []|].
    intros ph1 [<-|A]; [rewrite A2, A3; apply C4; left; reflexivity|apply IH; [intros; apply C4; right; assumption|exact A]].
Qed.

(** What a run of the scheme needs from the state it starts with. *)
Record whole (s : state R) : Prop := {
  wh_proper : proper (pG (sP s));
  wh_grid : grid_ok (pG (sP s)) (sG s);
  wh_laws : covered (sL s);
  wh_own : own_velocities (sL s);
  wh_sealed : sealed (sP s);
  wh_rub : no_rub (pB (sP s));
  wh_dt : 0 < p_dt (sP s);
  wh_tol : 0 <= p_Mtol (sP s);
  wh_fixed : p_dynamic (sP s) = false }.

Lemma ambient_grid P rho l (G G' : grid R) : bv G' = bv G -> bh G' = bh G -> bconv G' = bconv G -> gV G' = gV G ->
  ambient_of P rho l G' = ambient_of P rho l G.
Proof. intros A B C D. unfold ambient_of, passes. rewrite A, B, C, D. reflexivity. Qed.
Lemma z_run_grid uf rho n : forall P (G G' : grid R) B, bv G' = bv G -> bh G' = bh G -> bconv G' = bconv G -> gV G' = gV G ->
  z_run uf rho n P G' B = z_run uf rho n P G B.
Proof.
  induction n as [|n IH]; intros P G G' B A1 A2 A3 A4; [reflexivity|]. cbn [z_run]. rewrite (ambient_grid P rho _ G G') by assumption. apply IH; assumption.
Qed.

Lemma whole_pass uf fill (s : state R) tr s' tr' S0 : whole s -> all_live (sL s) (fun _ p => in_dom (pG (sP s)) (px p)) ->
  sol0 (sL s) = Ok S0 -> pass uf fill s tr = Ok (s', tr') ->
  whole s' /\ sol0 (sL s') = Ok S0 /\ map ph_sol (sL s') = map ph_sol (sL s) /\ (counted (sL s) -> counted (sL s')) /\ sP s' = ticked uf (sP s) /\
  (bv (sG s') = bv (sG s) /\ bh (sG s') = bh (sG s) /\ bconv (sG s') = bconv (sG s) /\ gV (sG s') = gV (sG s)) /\
  cloud (sP s) (sL s') = z_step (ambient_of (sP s) (s_rho S0) (uf (sP s)) (sG s)) (cloud (sP s) (sL s)).
Proof.
  intros HW HD H0 E. pose proof HW as [H1 H2 H3 H4 H5 H6 H7 H8 H9]. pose proof H5 as (Hs & Hc & _).
  assert (RR : reach uf fill s s') by (eapply reach_S; [apply reach_0|exact E]).
  destruct (p_C82_mesh R Num_R uf fill s s' RR) as [ME HM]. specialize (HM (no_rub_mu _ H6)). destruct HM as [MV MH].
  destruct (pass_fixed uf fill s tr s' tr' H9 E) as (s1 & E1 & EL & EG & EP).
  destruct (local_keeps uf fill s s1 H1 H2 HD H5 H3 H4 E1) as (K1 & K2 & K3 & K4).
  split; [|split; [rewrite EL; eapply sol0_map; eauto|split; [rewrite EL; exact K1|split; [rewrite EL; exact K4|split; [exact EP|split]]]]].
  - constructor; rewrite ?EP; try assumption; unfold ticked; try assumption; rewrite ?EL; try assumption.
    rewrite EG. apply (march_geo uf fill s s1); assumption.
  - split; [exact MV|]. split; [exact MH|]. unfold mesh in ME. split; injection ME; auto.
  - rewrite EL. apply (p_C102_step uf fill s s1); assumption.
Qed.

Lemma cloud_pG (P P' : params R) L : pG P' = pG P -> cloud P' L = cloud P L.
Proof.
  intros H. unfold cloud. generalize 0%nat. induction L as [|ph L IH]; intros k; [reflexivity|]. cbn [cloud_from]. rewrite IH. f_equal. apply map_ext.
  intros p. unfold point_of, stuff_of. rewrite H. reflexivity.
Qed.
Lemma cloud_live P L (Q : V3 R -> Prop) : forall k, Forall (fun q => Q (z_x q)) (cloud_from P k L) -> all_live L (fun _ p => Q (px p)).
Proof.
  induction L as [|ph L IH]; intros k H ph0 p0 A C; [destruct A|]. cbn [cloud_from] in H. apply Forall_app in H. destruct H as [H1 H2].
  destruct A as [<-|A]; [|exact (IH _ H2 ph0 p0 A C)].
  rewrite Forall_forall in H1. apply (H1 (point_of P k ph p0)). apply in_map. exact C.
Qed.

(** A run with a fixed time step, of any of the eight materials, gives the points of the scheme, pass by pass, as long
    as the scheme, run on its own, keeps its points in the domain. *)
Lemma p_C102_run : forall uf fill n (s : state R) tr s' tr' S0, whole s -> sol0 (sL s) = Ok S0 ->
  (forall j, (j < n)%nat -> Forall (fun q => in_dom (pG (sP s)) (z_x q))
                                  (z_run uf (s_rho S0) j (sP s) (sG s) (cloud (sP s) (sL s)))) ->
  after uf fill n s tr = Ok (s', tr') ->
  sP s' = clock uf n (sP s) /\ cloud (sP s) (sL s') = z_run uf (s_rho S0) n (sP s) (sG s) (cloud (sP s) (sL s)).
Proof.
  intros uf fill n. induction n as [|n IH]; intros s tr s' tr' S0 HW H0 HI E.
  - cbn [after] in E. injection E as <- _. split; reflexivity.
  - cbn [after] in E. destruct (pass uf fill s tr) as [[s1 tr1]|] eqn:E1; [|discriminate].
    pose proof (HI 0%nat (Nat.lt_0_succ n)) as HI0. cbn [z_run] in HI0.
    assert (HD := cloud_live (sP s) (sL s) (fun x => in_dom (pG (sP s)) x) 0 HI0).
    destruct (whole_pass uf fill s tr s1 tr1 S0 HW HD H0 E1) as (W1 & H1 & _ & _ & EP & (M1 & M2 & M3 & M4) & EB).
    assert (CC : forall L, cloud (sP s1) L = cloud (sP s) L) by (intros L; apply cloud_pG; rewrite EP; reflexivity).
    destruct (IH s1 tr1 s' tr' S0 W1 H1) as (A2 & A3); [|exact E|].
    + intros j Hj. specialize (HI (Datatypes.S j) (proj1 (Nat.succ_lt_mono j n) Hj)). cbn [z_run] in HI.
      rewrite CC, EP, EB, (z_run_grid uf _ j _ (sG s) (sG s1)) by assumption. exact HI.
    + cbn [clock z_run]. rewrite A2, <- (CC (sL s')), A3, CC, EP, EB. split; [reflexivity|]. apply z_run_grid; assumption.
Qed.

(** What the run needs beyond that in order to take its passes. *)
Record provided (s : state R) : Prop := {
  pr_count : counted (sL s);
  pr_laws : exists S0, sol0 (sL s) = Ok S0 /\ forall ph, In ph (sL s) -> equipped S0 (ph_sol ph);
  pr_rigid : forall ph, In ph (sL s) -> s_law (ph_sol ph) = Rigid -> has (p_intruder_v (sP s));
  pr_belt : conveyor (pB (sP s)) = true -> has (p_v0 (sP s));
  pr_aniso : p_aniso (sP s) = false;
  pr_tf : p_tf (sP s) <> 0;
  pr_save : p_savetime (sP s) <> 0 }.

(** All but the grains, whose law reads lists: the passes never fail as long as the points stay in the domain. *)
Lemma p_C102_total : forall uf fill n (s : state R) tr S0, whole s -> provided s -> sol0 (sL s) = Ok S0 ->
  (forall j, (j < n)%nat -> Forall (fun q => in_dom (pG (sP s)) (z_x q) /\ (p_check (sP s) = true -> vz (z_x q) = 0))
                                  (z_run uf (s_rho S0) j (sP s) (sG s) (cloud (sP s) (sL s)))) ->
  exists s' tr', after uf fill n s tr = Ok (s', tr') /\ cloud (sP s) (sL s') = z_run uf (s_rho S0) n (sP s) (sG s) (cloud (sP s) (sL s)).
Proof.
  intros uf fill n. induction n as [|n IH]; intros s tr S0 HW HV H0 HI.
  - exists s, tr. split; reflexivity.
  - pose proof (HI 0%nat (Nat.lt_0_succ n)) as HI0. cbn [z_run] in HI0.
    assert (HD := cloud_live (sP s) (sL s) (fun x => in_dom (pG (sP s)) x /\ (p_check (sP s) = true -> vz x = 0)) 0 HI0).
    assert (HD' : all_live (sL s) (fun _ p => in_dom (pG (sP s)) (px p))) by (intros ph p A C; apply (HD ph p A C)).
    pose proof HV as [V1 V2 V3 V4 V5 V6 V7]. pose proof (wh_sealed _ HW) as (Hs & Hc & O1 & O2 & I1 & I2).
    assert (HR : ready s).
    { constructor; auto; try apply HW. rewrite O1. discriminate. }
    destruct (p_C58_pass_total uf fill s tr HR (wh_fixed _ HW) V6 V7) as [[s1 tr1] E].
    destruct (whole_pass uf fill s tr s1 tr1 S0 HW HD' H0 E) as (W1 & H1 & SO & K & EP & (M1 & M2 & M3 & M4) & EB).
    assert (P1 : provided s1).
    { constructor; rewrite ?EP; unfold ticked; try assumption; auto.
      - destruct V2 as (S1 & A & B). exists S1. split; [eapply sol0_map; eauto|]. exact (sol_in _ _ (equipped S1) SO B).
      - intros ph A. destruct (map_in_sol _ _ _ SO A) as (ph0 & A0 & <-). apply (V3 ph0 A0). }
    assert (CC : forall L, cloud (sP s1) L = cloud (sP s) L) by (intros L; apply cloud_pG; rewrite EP; reflexivity).
    destruct (IH s1 tr1 S0 W1 P1 H1) as (s' & tr' & A1 & A2).
    + intros j Hj. specialize (HI (Datatypes.S j) (proj1 (Nat.succ_lt_mono j n) Hj)). cbn [z_run] in HI.
      rewrite CC, EP, EB, (z_run_grid uf _ j _ (sG s) (sG s1)) by assumption. exact HI.
    + exists s', tr'. cbn [after z_run]. rewrite E. split; [exact A1|]. rewrite <- (CC (sL s')), A2, CC, EP, EB. apply z_run_grid; assumption.
Qed.

(** The example: five materials at once in a box with a belt, a load on the surface and a falling intruder. *)
Definition mix_solid (l : law_name) : solid R :=
  mkSolid 2 1 l [1] (Some 3) (Some 2) (Some 1) (Some 2) (Some 0) (Some (1/2)) (Some 1) (Some 1)
    (Some (Sc (1/2))) (Some (Sc (1/2))) (Some (Sc 1)) (Some 1) (Some 1) (Some 1) (Some 1) (Some 2) (Some 1) (Some 1) (Some 1)
    (Some 1) (Some 0) (Some 0) (Some 1) (Some 1) (Some 1) [1] (Some (1/2, 1/2)) false None.
Definition mix_bounds : bounds R :=
  mkBounds false false false None false false true true true true false false false false false true false true false false.
Definition mix_params : params R := ex_params mix_bounds <| p_v0 := Some 1 |> <| p_intruder_v := Some (mkV3 0 (-1) 0) |>.
Definition mix_phase (l : law_name) (x : R) : phase R := mkPhase (mix_solid l) 1 v0 [ex_particle x (1/2) (mkV3 1 0 0) ex_stress].
Definition mix_state (G : grid R) : state R :=
  mkState mix_params G [mix_phase ElasticTime (1/4); mix_phase KenKamrin (3/4); mix_phase Rigid (5/4); mix_phase Bingham (7/4); mix_phase VonMises (9/4)].
Definition mix_loads (P : params R) : loads R := mkLoads (-1) 0 2 0.

Lemma mix_whole G : grid_ok ex_gridp G -> whole (mix_state G).
Proof.
  intros OK. constructor; try reflexivity; try (cbn; unR; lra).
  - exact ex_proper.
  - exact OK.
  - intros ph [<-|[<-|[<-|[<-|[<-|[]]]]]]; cbn [s_law ph_sol mix_phase mix_solid]; try exact I; intros p [<-|[]]; reflexivity.
  - intros ph p [<-|[<-|[<-|[<-|[<-|[]]]]]] [<-|[]]; eexists; reflexivity.
  - repeat split; reflexivity.
  - left. reflexivity.
Qed.
Lemma mix_provided G : provided (mix_state G).
Proof.
  constructor; try reflexivity; try (cbn; unfold lit; unR; lra).
  - intros ph [<-|[<-|[<-|[<-|[<-|[]]]]]]; reflexivity.
  - exists (mix_solid ElasticTime). split; [reflexivity|].
    intros ph [<-|[<-|[<-|[<-|[<-|[]]]]]]; unfold equipped; cbn [s_law ph_sol mix_phase mix_solid]; unfold scalar_attr, has; cbn; repeat split; try discriminate; eexists; reflexivity.
  - intros ph _ _. discriminate.
  - intros _. discriminate.
Qed.

(** Five materials at once in a box with a belt at the bottom, a load on the surface and a falling intruder. *)
Example x_C102_total : forall fill, exists (s : state R) S0, whole s /\ provided s /\ sol0 (sL s) = Ok S0 /\
  (forall j, (j < 1)%nat -> Forall (fun q => in_dom (pG (sP s)) (z_x q) /\ (p_check (sP s) = true -> vz (z_x q) = 0))
                                  (z_run mix_loads (s_rho S0) j (sP s) (sG s) (cloud (sP s) (sL s)))) /\
  conveyor (pB (sP s)) = true /\ vertical_force (pB (sP s)) = true /\ length (cloud (sP s) (sL s)) = 5%nat /\
  exists s' tr', after mix_loads fill 1 s [] = Ok (s', tr') /\ cloud (sP s) (sL s') = z_run mix_loads (s_rho S0) 1 (sP s) (sG s) (cloud (sP s) (sL s)).
Proof.
  intros fill. destruct (grid_init_ok ex_gridp mix_bounds ex_proper) as (G & EG & OK).
  set (s := mix_state G). assert (W : whole s) by (apply mix_whole; exact OK). assert (V : provided s) by apply mix_provided.
  assert (H : forall j, (j < 1)%nat -> Forall (fun q => in_dom (pG (sP s)) (z_x q) /\ (p_check (sP s) = true -> vz (z_x q) = 0))
                                  (z_run mix_loads (s_rho (mix_solid ElasticTime)) j (sP s) (sG s) (cloud (sP s) (sL s)))).
  { intros [|j] Hj; [|lia]. cbn [z_run]. repeat constructor; cbn; unR; lra. }
  exists s, (mix_solid ElasticTime). split; [exact W|]. split; [exact V|]. split; [reflexivity|]. split; [exact H|].
  split; [reflexivity|]. split; [reflexivity|]. split; [reflexivity|].
  apply (p_C102_total mix_loads fill 1 s [] (mix_solid ElasticTime) W V eq_refl H).
Qed.
