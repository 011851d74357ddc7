(** * Segregation leaves the motion alone: C110. *)
From Coq Require Import ZArith Reals List Bool Arith Lra Lia.
From RecordUpdate Require Import RecordUpdate.
From Verif Require Import State NumR Spec SpecLaws SpecStep SpecScheme SpecLocal LibList LibR ModelGrid ModelConstit ModelParticle ModelMPList
  ModelIntegr ModelMain ProofsGrid ProofsMap ProofsP2G ProofsWalls ProofsLaws ProofsInOut ProofsHist Concrete
  ThmMapping ThmWalls ThmLaws ThmInOut ThmHist ProofsStep ProofsPoints ThmStep ThmBalance ThmEnergy ThmFall ThmGeo ProofsScheme ThmScheme ProofsLocal ThmLocal ThmLoop ThmSift.
Import ListNotations.
Local Open Scope R_scope.

Lemma moved_nodes P (G G' : grid R) L L' : same_nodes G G' -> Forall2 (phase_moved P G) L L' -> Forall2 (phase_moved P G') L L'.
Proof.
  intros (E1 & E2 & E3 & E4) H. eapply Forall2_imp; [|exact H]. intros ph ph' (A1 & A2 & A3 & A4 & A5 & A6).
  split; [exact A1|]. split; [exact A2|]. split; [exact A3|]. split; [|split; [exact A5|]].
  - destruct (is_rigid _); [exact A4|]. eapply Forall2_imp; [|exact A4]. intros p p' (X1 & X2 & X3).
    unfold moved, node_v, node_acc. rewrite E1, E2, E3. split; [exact X1|]. split; [exact X2|]. exact X3.
  - intros RI. eapply Forall2_imp; [|exact (A6 RI)]. unfold dense, node_rho. rewrite E1, E4. auto.
Qed.

Lemma march_seg uf fill s s' : proper (pG (sP s)) -> grid_ok (pG (sP s)) (sG s) ->
  all_live (sL s) (fun _ p => in_dom (pG (sP s)) (px p)) ->
  cyclic_lr (pB (sP s)) = false ->
  time_march uf fill s = Ok s' ->
  let P := sP s <| p_loads := uf (sP s) |> in let Pg := pG (sP s) in
  exists S0 L1 L3 L4 L4s L5 G1 G3 G4 G5 G6,
    sol0 (sL s) = Ok S0 /\
    update_forces P (sL s) = Ok L1 /\ Lrel (fun _ p p' => exists b, p' = p <| pb := b |>) (sL s) L1 /\
    Lrel (fun _ p p' => in_dom Pg (px p) /\ p' = locate Pg p) L1 L3 /\
    p2g_all P L3 (wipe (sP s) (sG s)) = Ok G1 /\ frame_all (wipe (sP s) (sG s)) G1 /\
    stress_strain P L3 G1 = Ok (L4, G3) /\
    Lrel (fun ph p p' => strained p p' /\ (s_law (ph_sol ph) <> ElasticTime -> pm p' = pm p)) L3 L4 /\ vis_frame G1 G3 /\
    all_live L4 (fun _ p => located Pg p) /\
    force_loop P L4 G3 = Ok G4 /\ f_lens P G3 /\ BCs P (s_rho S0) G4 = Ok G5 /\ sized Pg G4 /\ sized Pg G5 /\
    update_momentum P G5 = Ok G6 /\
    sP s' = P /\ (if p_seg P then segregate fill P L4 (calculate_gammadot fill P G6) else Ok (L4, calculate_gammadot fill P G6)) = Ok (L4s, sG s') /\
    Lrel (fun _ p p' => graded p p') L4 L4s /\ same_nodes G6 (sG s') /\
    Forall2 (phase_moved P G6) L4s L5 /\ inout P L5 = Ok (sL s').
Proof.
  intros HP HG HD Hc E P Pg.
  unfold time_march in E. fold P in E. cbv zeta in E. pbinds E.
  rename a into S0, a0 into L1, a1 into L2, a2 into L3, a4 into G1, b into L4, b0 into G3, a6 into G4, a7 into G5, a8 into G6.
  assert (CP : cyclic_lr (pB P) = false) by exact Hc. rewrite CP in E6. injection E6 as <-.
  injection E as <-. cbn [sP sG sL].
  set (G0 := wipe (sP s) (sG s)) in *.
  assert (OK0 : grid_ok Pg G0) by (apply wipe_ok; exact HG).
  assert (R1 : Lrel (fun _ p p' => exists b, p' = p <| pb := b |>) (sL s) L1).
  { eapply points__rel; [|exact E1]. intros k ph p p' _ _ X. injection X as <-. unfold increment_gravity.
    destruct (Nat.eqb k 0); [eauto|]. exists (pb p). destruct p; reflexivity. }
  assert (D1 : all_live L1 (fun _ p => in_dom (pG P) (px p))).
  { eapply Lrel_all_live; [exact R1| |exact HD]. cbv beta. intros ph p ph' p' _ _ _ _ _ [b ->]. auto. }
  pose proof (locate_loops P G0 L1 L2 L3 HP OK0 D1 E2 E3) as R3.
  assert (R3' : Lrel (fun _ p p' => in_dom Pg (px p) /\ p' = locate Pg p) L1 L3).
  { eapply Lrel_impl; [exact R3|]. intros ph p p' Hin Hp ->. split; [apply (D1 ph p Hin Hp)|reflexivity]. }
  assert (PL : p2g_lens P G0) by apply (wipe_lens P (sG s)).
  pose proof (p2g_all_frame P L3 G0 G1 PL E5) as F1.
  destruct (p2g_all_mass P L3 G0 G1 PL E5) as (Lm & _).
  destruct (wipe_frame (sP s) (sG s)) as (WV & Wv & Wh & Wc).
  destruct (p2g_all_mom P L3 G0 G1 PL) as (Lq & _); [unfold G0; rewrite Wv; apply HG|unfold G0; rewrite Wh; apply HG|exact E5|].
  destruct (stress_strain_rel P L3 G1 L4 G3 E7) as [R4 F3].
  assert (Lo3 : all_live L3 (fun _ p => located Pg p)).
  { eapply (Lrel_all_live _ _ _ _ _ R3); [|exact D1]. cbv beta. intros ? ? ? ? _ _ _ _ _ -> X. apply locate_located; exact X. }
  assert (Lo4 : all_live L4 (fun _ p => located Pg p)).
  { eapply (Lrel_all_live _ _ _ _ _ R4); [|exact Lo3]. cbv beta. intros ? ? ? ? _ _ _ _ _ (X & _). apply strained_located, X. }
  assert (FL : f_lens P G3).
  { unfold f_lens. rewrite F3. cbn. rewrite F1. cbn. unfold G0. rewrite wipe_fi, wipe_fe, repeat_length. auto. }
  assert (E8' : force_loop P L4 G3 = Ok G4).
  { unfold forces_all in E8. pbinds E8. rewrite CP in E8. injection E8 as <-. assumption. }
  destruct (force_loop_spec P L4 G3 G4 FL E8') as (F4 & FL4 & _). unfold frame_f in F4.
  assert (SZ4 : sized Pg G4).
  { unfold sized. change (nx Pg * ny Pg)%nat with (nodes Pg).
    rewrite (proj1 FL4), (proj2 FL4). rewrite F4. cbn [bv bh bconv gm gq gext set]. rewrite F3. cbn [bv bh bconv gm gq gext set].
    rewrite Lm, Lq. rewrite F1. cbn [bv bh bconv gm gq gext set]. unfold G0. rewrite Wv, Wh, Wc.
    rewrite (go_bv _ _ HG), (go_bh _ _ HG), (go_bconv _ _ HG). unfold wipe. destruct (p_seg (sP s)); cbn [gext set];
    rewrite repeat_length; do 7 (split; [reflexivity|]); reflexivity. }
  assert (SZ5 : sized (pG P) G5) by (eapply BCs_sized; [exact SZ4|exact E9]).
  rename b1 into L4s, b2 into G7.
  exists S0, L1, L3, L4, L4s, a9, G1, G3, G4, G5, G6.
  assert (GD : Lrel (fun _ p p' => graded p p') L4 L4s /\ same_nodes G6 G7).
  { destruct (p_seg P); [apply (segregate_rel fill P L4 (calculate_gammadot fill P G6) L4s G7 E11)|]. injection E11 as <- <-.
    split; [apply Lrel_refl; intros; apply graded_refl|repeat split]. }
  destruct GD as [GD SN].
  assert (MV : Forall2 (phase_moved P G6) L4s a9).
  { apply (moved_nodes P G7 G6); [destruct SN as (?&?&?&?); repeat split; symmetry; assumption|]. destruct SN as (N1 & N2 & N3 & N4).
    apply (move_all_rel P G7 L4s a9); auto; rewrite ?N1, ?N2, ?N3, ?N4.
    - eapply (Lrel_all_live _ _ _ _ _ GD); [|exact Lo4]. cbv beta. intros ? ? ? ? _ _ _ _ _ X Y. eapply graded_located; eassumption.
    - change (length (gm G6) = nodes (pG P)). destruct (um_shape P G5 G6 E10) as [F6 _]. rewrite F6. apply SZ5.
    - change (length (gq G6) = nodes (pG P)). apply (um_q_len P G5 G6 SZ5 E10).
    - change (length (gqd G6) = nodes (pG P)). rewrite (um_qd P G5 G6 E10); apply (rates_len P G5 SZ5).
    - change (length (gV G6) = nodes (pG P)). destruct (um_shape P G5 G6 E10) as [F6 _]. rewrite F6. cbn.
      rewrite (BCs_frame _ _ _ _ E9). cbn. rewrite F4. cbn. rewrite F3. cbn. rewrite F1. cbn. unfold G0. rewrite WV. apply (go_Vlen _ _ HG). }
  split; [exact E0|]. split; [exact E1|]. split; [exact R1|]. split; [exact R3'|]. split; [exact E5|]. split; [exact F1|].
  split; [exact E7|]. split; [exact R4|]. split; [exact F3|]. split; [exact Lo4|]. split; [exact E8'|]. split; [exact FL|].
  split; [exact E9|]. split; [exact SZ4|]. split; [exact SZ5|]. split; [exact E10|]. split; [reflexivity|].
  split; [exact E11|]. split; [exact GD|]. split; [exact SN|]. split; [exact MV|exact E13].
Qed.

(** No point enters, leaves or wraps around. *)
Definition tight (P : params R) : Prop :=
  cyclic_lr (pB P) = false /\
  outlet_left (pB P) = false /\ outlet_bottom (pB P) = false /\ inlet_right (pB P) = false /\ inlet_top (pB P) = false.
(** Two points that differ at most in the sizes of their grains. *)
Definition remixed (q q' : point) : Prop :=
  match z_stuff q, z_stuff q' with
  | Grains K rho_s cap _ _ _ _ thin p rho, Grains K' rho_s' cap' _ _ _ _ thin' p' rho' =>
      K' = K /\ rho_s' = rho_s /\ cap' = cap /\ thin' = thin /\ p' = p /\ rho' = rho
  | f, f' => f' = f
  end /\
  z_m q' = z_m q /\ z_V q' = z_V q /\ z_x q' = z_x q /\ z_v q' = z_v q /\ z_s q' = z_s q /\ z_b q' = z_b q /\ z_first q' = z_first q.
Lemma remixed_moved SC B B1 q q' : remixed q q' -> remixed (z_moved SC B B1 q) (z_moved SC B B1 q').
Proof.
  destruct q as [f m V x v s b o], q' as [f' m' V' x' v' s' b' o']. unfold remixed. cbn [z_stuff z_m z_V z_x z_v z_s z_b z_first].
  intros (A & -> & -> & -> & -> & -> & -> & ->).
  unfold z_moved. cbn [z_stuff z_m z_V z_x z_v z_s z_b z_first].
  destruct f, f'; try discriminate A; try (injection A; intros; subst); try (cbn; repeat split; fail).
  destruct A as (-> & -> & -> & -> & -> & ->). cbn. repeat split.
Qed.
Lemma graded_remixed P k ph ph' p p' : ph_sol ph' = ph_sol ph -> ph_sv ph' = ph_sv ph -> graded p p' -> remixed (point_of P k ph p) (point_of P k ph' p').
Proof.
  intros ES EV X. destruct X as [X _]. rewrite X. unfold remixed, point_of, velocity. cbn [z_stuff z_m z_V z_x z_v z_s z_b z_first pm pV px pv pstress pb set].
  rewrite EV. unfold stuff_of. rewrite ES. destruct (s_law (ph_sol ph)); repeat split.
Qed.
Lemma cloud_remixed P L L' : Lrel (fun _ p p' => graded p p') L L' -> forall k, Forall2 remixed (cloud_from P k L) (cloud_from P k L').
Proof.
  intros H. induction H as [|ph ph' L L' (A1 & A2 & A3 & A4 & A5) H IH]; intros k; cbn [cloud_from]; [constructor|].
  apply Forall2_app; [|apply IH]. clear - A1 A3 A4. induction A4; constructor; auto. apply graded_remixed; assumption.
Qed.

Lemma remixed_map F l l' : (forall q q', remixed q q' -> remixed (F q) (F q')) -> Forall2 remixed l l' ->
  Forall2 remixed (map F l) (map F l').
Proof. intros H. induction 1; cbn [map]; constructor; auto. Qed.

(** One step, whether grains segregate or not: up to the sizes of the grains of its points it is a step of the scheme. *)
Lemma p_C110_step : forall uf fill (s s' : state R) S0, proper (pG (sP s)) -> grid_ok (pG (sP s)) (sG s) ->
  all_live (sL s) (fun _ p => in_dom (pG (sP s)) (px p)) -> tight (sP s) -> no_rub (pB (sP s)) ->
  covered (sL s) -> own_velocities (sL s) -> 0 < p_dt (sP s) -> 0 <= p_Mtol (sP s) -> sol0 (sL s) = Ok S0 ->
  time_march uf fill s = Ok s' ->
  Forall2 remixed (z_step (ambient_of (sP s) (s_rho S0) (uf (sP s)) (sG s)) (cloud (sP s) (sL s))) (cloud (sP s) (sL s')).
Proof.
  intros uf fill s s' S0 HP HG HD HS NR HL HO Hdt Htol HS0 E.
  pose proof HS as (Hc & O1 & O2 & I1 & I2).
  destruct (march_seg uf fill s s' HP HG HD Hc E) as
    (S1 & L1 & L3 & L4 & L4s & L5 & G1 & G3 & G4 & G5 & G6 & HS1 & E1 & R1 & R3 & E2 & F1 & E3 & R4 & F3 & Lo & E4 & LF & E5 & Z4 & Z5 & E6 & EP & ESG & GD & SN & PM & EI).
  rewrite HS0 in HS1. injection HS1 as <-.
  set (P := sP s <| p_loads := uf (sP s) |>) in *. set (Pg := pG (sP s)) in *.
  set (SC := ambient_of (sP s) (s_rho S0) (uf (sP s)) (sG s)). set (B := cloud (sP s) (sL s)).
  destruct (force_loop_spec P L4 G3 G4 LF E4) as (F4 & _ & FI & FE).
  pose proof (BCs_frame _ _ _ _ E5) as F5. destruct (um_shape P G5 G6 E6) as [F6 UQ].
  pose proof (p_C49_surface_loads P (s_rho S0) G4 G5 Z4 HP) as SL.
  destruct (wipe_geo (sP s) (sG s)) as (W1 & W2 & _ & _ & WV & W6 & W7 & _ & WC).
  assert (M1 := p2g_all_mass P L3 (wipe (sP s) (sG s)) G1 (wipe_lens (sP s) (sG s)) E2).
  assert (Q1 := p2g_all_mom P L3 (wipe (sP s) (sG s)) G1 (wipe_lens (sP s) (sG s))).
  rewrite W6, W7 in Q1. specialize (Q1 (go_bv _ _ HG) (go_bh _ _ HG) E2).
  destruct M1 as (Lm1 & _ & M1). destruct Q1 as (Lq1 & Q1).
  unfold frame_all in F1. unfold vis_frame in F3. unfold frame_f in F4. unfold force_frame in F5.
  assert (EX : forall k, nth k (gext G4) v0 = v0).
  { intros k. rewrite F4. cbn. rewrite F3. cbn. rewrite F1. cbn. rewrite wipe_ext. apply nth_repeat_same. }
  assert (FI3 : gfi G3 = repeat v0 (nodes Pg)). { rewrite F3. cbn. rewrite F1. cbn. apply wipe_fi. }
  assert (FE3 : gfe G3 = repeat v0 (nodes Pg)). { rewrite F3. cbn. rewrite F1. cbn. apply wipe_fe. }
  assert (FI5 : gfi G5 = gfi G4) by (eapply BCs_fi; exact E5).
  assert (EQ5 : gq G5 = gq G1). { rewrite F5. cbn. rewrite F4. cbn. rewrite F3. reflexivity. }
  assert (EM4 : gm G4 = gm G1). { rewrite F4. cbn. rewrite F3. reflexivity. }
  assert (EM5 : gm G5 = gm G1). { rewrite F5. cbn. exact EM4. }
  assert (EM6 : gm G6 = gm G1). { rewrite F6. cbn. exact EM5. }
  assert (EV6 : gV G6 = gV (sG s)). { rewrite F6. cbn. rewrite F5. cbn. rewrite F4. cbn. rewrite F3. cbn. rewrite F1. cbn. exact WV. }
  assert (DX : gdx G4 = cell_w Pg /\ gdy G4 = cell_h Pg).
  { rewrite F4. cbn. rewrite F3. cbn. rewrite F1. cbn. rewrite W1, W2. split; [exact (go_dx _ _ HG)|exact (go_dy _ _ HG)]. }
  assert (BC : bconv G5 = bconv (sG s)). { rewrite F5. cbn. rewrite F4. cbn. rewrite F3. cbn. rewrite F1. cbn. exact WC. }
  assert (BV : bv G5 = bv (sG s) /\ bh G5 = bh (sG s)).
  { rewrite F5. cbn. rewrite F4. cbn. rewrite F3. cbn. rewrite F1. cbn. split; assumption. }
  destruct BV as [BV BH]. destruct DX as [DX DY].
  specialize (SL EX E5). cbv zeta in SL.
  apply covered_lawful in HL. destruct HL as [HL HL2].
  (* the located points *)
  assert (D1 : all_live L1 (fun ph p => lawful (ph_sol ph) p /\ exists v, pv p = Own v)).
  { eapply (Lrel_all_live _ (sL s) L1 (fun ph p => lawful (ph_sol ph) p /\ exists v, pv p = Own v)); [exact R1| |].
    - cbv beta. intros ph p ph' p' _ _ ES _ _ [b ->] [X1 X2]. rewrite ES. split; [exact X1|exact X2].
    - intros ph p A C. split; [exact (HL ph p A C)|exact (HO ph p A C)]. }
  assert (D3 : all_live L3 (fun ph p => located Pg p /\ lawful (ph_sol ph) p /\ exists v, pv p = Own v)).
  { eapply (Lrel_all_live _ L1 L3); [exact R3| |exact D1]. cbv beta. intros ph p ph' p' _ _ ES _ _ [D ->] [X1 X2]. rewrite ES.
    split; [apply locate_located; exact D|]. split; [exact X1|exact X2]. }
  assert (SO3 : map ph_sol L3 = map ph_sol (sL s)) by (rewrite (Lrel_sol _ _ _ R3); apply (Lrel_sol _ _ _ R1)).
  set (gr := fun q => mkPoint (z_stuff q) (z_m q) (z_V q) (z_x q) (z_v q) (z_s q) (if z_first q then a_g SC else z_b q) (z_first q)).
  assert (B3 : cloud (sP s) L3 = map gr B).
  { unfold cloud. rewrite (Lrel_cloud (sP s) _ (fun q => q) L1 L3 R3).
    - rewrite map_id. unfold update_forces, points_, points in E1. pbinds E1. injection E1 as ->.
      match goal with X : forM _ _ _ _ = Ok _ |- _ => rename X into EE end.
      eapply (points_cloud (sP s) _ (fun _ => True) gr (sL s)) in EE; [exact EE| |exact I].
      intros k ph p u p' u' _ _ _ X. injection X as <- _. split; [exact I|]. unfold increment_gravity, point_of, gr, velocity.
      cbn [z_stuff z_m z_V z_x z_v z_s z_b z_first]. destruct (Nat.eqb k 0); reflexivity.
    - cbv beta. intros k ph ph' p p' _ _ ES EV [_ ->]. unfold point_of, velocity. rewrite ES, EV. reflexivity. }
  (* nodal mass and velocity *)
  assert (MK : forall k, nth k (gm G1) 0 = z_mass SC B k).
  { intros k. rewrite M1, wipe_m, Rplus_0_l. unfold mass_at.
    rewrite (psum_ext L3 _ (fun _ p => pm p * hat Pg (px p) k)).
    2:{ intros ph p A C. rewrite (wt_hat P p k HP); [reflexivity|apply (D3 ph p A C)]. }
    rewrite (psum_cloud (sP s) (fun _ p => pm p * hat Pg (px p) k) (fun q => z_m q * hat Pg (z_x q) k) L3 (fun _ _ _ => eq_refl) 0%nat).
    change (cloud_from (sP s) 0 L3) with (cloud (sP s) L3). rewrite B3, Rsum_map_map. reflexivity. }
  assert (VK : forall a k, node_v P G1 a k = z_vel SC B a k).
  { intros a k. unfold node_v, z_vel. rewrite <- MK. change (p_Mtol P) with (a_tol SC). rewrite Rltb_dec.
    destruct (Rlt_dec _ _); [|reflexivity]. f_equal. rewrite Q1, wipe_q, comp_v0, Rplus_0_l, open_passes. cbn [SC a_open ambient_of]. f_equal.
    unfold mom_at. rewrite (psum_ext L3 _ (fun ph p => pm p * comp a (velocity ph p) * hat Pg (px p) k)).
    2:{ intros ph p A C. rewrite (wt_hat P p k HP); [change (pG P) with Pg; ring|apply (D3 ph p A C)]. }
    rewrite (psum_cloud (sP s) (fun ph p => pm p * comp a (velocity ph p) * hat Pg (px p) k) (fun q => z_m q * comp a (z_v q) * hat Pg (z_x q) k) L3 (fun _ _ _ => eq_refl) 0%nat).
    change (cloud_from (sP s) 0 L3) with (cloud (sP s) L3). rewrite B3, Rsum_map_map. reflexivity. }
  (* strain and stress *)
  set (st := fun q => mkPoint (z_memory (z_stuff q) (z_strain SC B q)) (z_shed SC q) (z_V q) (z_x q) (z_v q) (z_stress SC q (z_strain SC B q)) (z_b q) (z_first q)).
  unfold stress_strain in E3. pbinds E3. change (cyclic_lr (pB P)) with (cyclic_lr (pB (sP s))) in E3. rewrite Hc in E3. injection E3 as E3a E3b.
  match goal with H : points _ _ _ = Ok (?l, ?g) |- _ => rename H into EQ; rename l into La; rename g into Ga end.
  rewrite E3a in EQ.
  assert (ST : forall k ph p G2 p' G2', In ph L3 -> In p (live ph) -> vis_frame G1 G2 -> stress_one P a k ph p G2 = Ok (p', G2') ->
     vis_frame G1 G2' /\ strained p p' /\ lawful (ph_sol ph) p' /\ point_of (sP s) k ph p' = st (point_of (sP s) k ph p)).
  { intros k ph p G2 p' G2' A C V X. pose proof (stress_one_rel _ _ _ _ _ _ _ _ X) as (X1 & X2 & _ & _).
    split; [exact (vis_frame_trans _ _ _ V X2)|]. split; [exact X1|].
    assert (EM : gm G2 = gm G1) by (rewrite V; reflexivity). assert (EQ2 : gq G2 = gq G1) by (rewrite V; reflexivity).
    destruct (D3 ph p A C) as (Y1 & Y2 & _).
    destruct (stress_local P a k ph p p' G2 G2' SC HP Y1) as (A1 & A2 & A3 & A4); auto.
    + rewrite EM. exact Lm1.
    + rewrite EQ2. exact Lq1.
    + assert (EV : forall a k, node_v P G2 a k = z_vel SC B a k)
        by (intros; rewrite <- VK; unfold node_v; rewrite EM, EQ2; reflexivity).
      assert (ED : m3 (fun a b => p_dt P * fsum (nodes (pG P)) (fun j =>
         (node_v P G2 a j * ghat (pG P) (px p) b j + node_v P G2 b j * ghat (pG P) (px p) a j) / 2)) = z_strain SC B (point_of (sP s) k ph p)).
      { apply m3_ext. intros x y. unfold z_strain. rewrite !el_m3. cbn [SC a_dt ambient_of]. f_equal.
        apply fsum_ext. intros j Hj. rewrite !EV. reflexivity. }
      rewrite ED in A1, A3. split; [exact A4|].
      change (point_of P) with (point_of (sP s)) in A1, A2. change (stuff_of P) with (stuff_of (sP s)) in A3.
      unfold point_of at 1. rewrite A1, A2, A3. unfold st. unfold strained, law_frame in X1. unfold velocity. rewrite X1. reflexivity. }
  assert (R5 : Lrel (fun ph p p' => strained p p' /\ lawful (ph_sol ph) p') L3 L4).
  { apply (points_rel (stress_one P a) (fun G => vis_frame G1 G) (fun ph p p' => strained p p' /\ lawful (ph_sol ph) p') L3 G1 L4 Ga) in EQ; [apply EQ|apply vis_frame_refl|].
    intros k ph p G2 p' G2' A C V X. destruct (ST k ph p G2 p' G2' A C V X) as (Y1 & Y2 & Y3 & _). auto. }
  assert (B4 : cloud (sP s) L4 = map (z_strained SC B) B).
  { unfold cloud. unfold points in EQ. eapply (points_cloud (sP s) (stress_one P a) (fun G => vis_frame G1 G) st L3) in EQ.
    - rewrite EQ. change (cloud_from (sP s) 0 L3) with (cloud (sP s) L3). rewrite B3, map_map. apply map_ext. intros q. reflexivity.
    - intros k ph p G2 p' G2' A C V X. destruct (ST k ph p G2 p' G2' A C V X) as (Y1 & Y2 & Y3 & Y4). auto.
    - apply vis_frame_refl. }
  assert (D4 : all_live L4 (fun ph p => located Pg p /\ exists v, pv p = Own v)).
  { eapply (Lrel_all_live _ L3 L4); [exact R5| |exact D3]. cbv beta. intros ph p ph' p' _ _ _ _ _ (X & _) (Y & _ & Z).
    split; [eapply strained_located; eauto|]. unfold strained, law_frame in X. rewrite X. exact Z. }
  (* forces *)
  set (B1 := map (z_strained SC B) B) in *.
  assert (FK : forall a k, (k < nodes Pg)%nat -> net_force P G5 a k = a_damp SC * (z_force SC B1 a k + a_load SC a k * z_mass SC B k)).
  { intros c k Hk. unfold net_force. change (if p_damping P then 7/10 else 1) with (a_damp SC). f_equal. rewrite FI5.
    destruct (SL k Hk) as (A1 & A2 & A3). rewrite EM4, MK, DX in A1. rewrite EM4, MK, DY in A2.
    change (pB P) with (pB (sP s)) in A1, A2. change (p_loads P) with (uf (sP s)) in A1, A2.
    assert (Z2 : comp c (nth k (gfe G5) v0) = comp c (nth k (gfe G4) v0) + a_load SC c k * z_mass SC B k).
    { cbn [SC a_load ambient_of]. unfold load_of. destruct c; cbn [comp].
      - rewrite A1. destruct (horizontal_force (pB (sP s))); [|lra]. unfold push, ends, col. change (pG P) with Pg. fold Pg. unfold Rdiv. ring.
      - rewrite A2. destruct (vertical_force (pB (sP s))); [|lra]. unfold push, ends, row. change (pG P) with Pg. fold Pg. unfold Rdiv. ring.
      - rewrite A3. ring. }
    rewrite Z2, FI, FE, FI3, FE3, nth_repeat_same, comp_v0, !Rplus_0_l.
    assert (ZF : psum L4 (fun _ p => pm p * wt P p k * comp c (pb p)) - psum L4 (fun _ p => fint_at P p c k) = z_force SC B1 c k).
    { transitivity (psum L4 (fun _ p => pm p * comp c (pb p) * hat Pg (px p) k - pV p * over (fun b => el c b (pstress p) * ghat Pg (px p) b k))).
      - transitivity (psum L4 (fun _ p => pm p * wt P p k * comp c (pb p) + -1 * fint_at P p c k)); [rewrite psum_plus, psum_scal; lra|].
        apply psum_ext. intros ph p A C. destruct (D4 ph p A C) as [Y _]. rewrite (wt_hat P p k HP Y), (fint_ghat P p c k HP Y).
          change (pG P) with Pg. ring.
      - rewrite (psum_cloud (sP s) (fun _ p => pm p * comp c (pb p) * hat Pg (px p) k - pV p * over (fun b => el c b (pstress p) * ghat Pg (px p) b k)) (fun q => z_m q * comp c (z_b q) * hat Pg (z_x q) k - z_V q * over (fun b => el c b (z_s q) * ghat Pg (z_x q) b k)) L4 (fun _ _ _ => eq_refl) 0%nat).
        change (cloud_from (sP s) 0 L4) with (cloud (sP s) L4). rewrite B4. reflexivity. }
    rewrite <- ZF. lra. }
  assert (AK : forall a k, (k < nodes Pg)%nat -> node_acc P G6 a k = z_acc SC B B1 a k).
  { intros c k Hk. unfold node_acc, z_acc. rewrite EM6, MK. change (p_Mtol P) with (a_tol SC). rewrite Rltb_dec.
    destruct (Rlt_dec _ _); [|reflexivity]. f_equal. rewrite (no_rub_rate P G5 G6 Z5 E6 NR), FK by exact Hk.
    rewrite BV, BH, open_passes. reflexivity. }
  assert (VK6 : forall a k, (k < nodes Pg)%nat -> node_v P G6 a k = z_end SC B B1 a k).
  { intros c k Hk. destruct (um_q P G5 G6 Z5 E6 k Hk) as [U1 U2]. rewrite EQ5 in U1, U2.
    assert (NB : comp c (nth k (gq G6) v0) = comp c (nth k (gq G1) v0) + p_dt P * comp c (nth k (gqd G6) v0) ->
      node_v P G6 c k = z_vel SC B c k + a_dt SC * z_acc SC B B1 c k).
    { intros U. rewrite <- AK, <- VK by exact Hk. unfold node_v, node_acc. rewrite EM6. destruct (Rltb _ _); [|lra].
      rewrite U. change (a_dt SC) with (p_dt P). unfold Rdiv. ring. }
    unfold z_end. cbn [SC a_belt ambient_of]. fold SC. destruct c; try (apply NB, U2; discriminate).
    rewrite BC, EM5 in U1. change (pB P) with (pB (sP s)) in U1. change (p_v0 P) with (p_v0 (sP s)) in U1.
    destruct UQ as (w & UW & _). change (pB P) with (pB (sP s)) in UW. change (p_v0 P) with (p_v0 (sP s)) in UW.
    destruct (conveyor (pB (sP s))); cbn [andb] in U1; [|apply NB, U1].
    rewrite (UW eq_refl) in *. destruct (nth k (bconv (sG s)) false); [|apply NB, U1].
    unfold node_v. rewrite EM6. cbn [comp]. rewrite U1, MK. change (p_Mtol P) with (a_tol SC). rewrite Rltb_dec.
    destruct (Rlt_dec _ _) as [H|H]; [|reflexivity]. change (a_tol SC) with (p_Mtol (sP s)) in H. field. lra. }
  assert (RK : forall k, node_rho P G6 k = z_rho SC B k).
  { intros k. unfold node_rho, z_rho. rewrite EM6, EV6, MK. change (p_Mtol P) with (a_tol SC). rewrite Rltb_dec. reflexivity. }  (* the move *)
  assert (IO : inout P L5 = Ok L5).
  { unfold inout. change (pB P) with (pB (sP s)). rewrite O1, O2, I1, I2, Hc. reflexivity. }
  rewrite IO in EI. injection EI as EI. rewrite <- EI.
  assert (SO4s : map ph_sol L4s = map ph_sol L4) by exact (Lrel_sol _ _ _ GD).
  assert (D4s : all_live L4s (fun ph p => located Pg p /\ exists v, pv p = Own v)).
  { eapply (Lrel_all_live _ L4 L4s); [exact GD| |exact D4]. cbv beta. intros ph p ph' p' _ _ _ _ _ X [Y Z].
    split; [eapply graded_located; eassumption|]. destruct X as [X _]. rewrite X. exact Z. }
  assert (LW : forall ph, In ph L4s -> match s_law (ph_sol ph) with Dp | DpRate | LinearMu | KenSimple | UnknownLaw _ => False | _ => True end).
  { intros ph A. destruct (map_in_sol L4 L4s ph SO4s A) as (ph2 & A2 & <-). destruct (map_in_sol L3 L4 ph2 (Lrel_sol _ _ _ R5) A2) as (ph0 & A0 & <-). destruct (map_in_sol (sL s) L3 ph0 SO3 A0) as (ph1 & A1 & <-). apply HL2. exact A1. }
  assert (B5 : cloud (sP s) L5 = map (z_moved SC B B1) (cloud (sP s) L4s)).
  { unfold cloud. apply (moved_cloud (sP s) P G6 (z_moved SC B B1) L4s L5 PM).
    - intros k ph ph' p p' A C ES RI (Y1 & Y2 & Y3) YD. destruct (D4s ph p A C) as [LO' [v V]]. rewrite V in Y3. destruct Y3 as (v' & V1 & V2).
      assert (PX : px p' = v3 (fun a => comp a (px p) + a_dt SC * fsum (nodes Pg) (fun k => hat Pg (px p) k * z_end SC B B1 a k))).
      { apply v3_ext. intros c. rewrite Y2. transitivity (comp c (px p) + a_dt SC * fsum (nodes Pg) (fun k => hat Pg (px p) k * z_end SC B B1 c k)); [|destruct c; reflexivity].
        change (a_dt SC) with (p_dt P) at 1. do 2 f_equal. apply fsum_ext. intros j Hj. rewrite VK6 by exact Hj. reflexivity. }
      assert (PV : v' = v3 (fun a => comp a v + a_dt SC * fsum (nodes Pg) (fun k => hat Pg (px p) k * z_acc SC B B1 a k))).
      { apply v3_ext. intros c. rewrite V2. transitivity (comp c v + a_dt SC * fsum (nodes Pg) (fun k => hat Pg (px p) k * z_acc SC B B1 c k)); [|destruct c; reflexivity].
        change (a_dt SC) with (p_dt P). do 2 f_equal. apply fsum_ext. intros j Hj. rewrite AK by exact Hj. reflexivity. }
      assert (PR : prho p' = fsum (a_nodes SC) (fun k => hat (a_P SC) (px p) k * z_rho SC B k)).
      { rewrite YD. apply fsum_ext. intros j _. rewrite RK. reflexivity. }
      specialize (LW ph A). unfold point_of at 1. unfold velocity at 1. rewrite V1, PX, PV, ES. rewrite Y1. cbn [pm pV pstress pb set].
      assert (SF : stuff_of (sP s) (ph_sol ph) (p <| px := px p' |> <| pv := pv p' |> <| prho := prho p' |>)
                   = z_dense SC B (px p) (stuff_of (sP s) (ph_sol ph) p)).
      { unfold stuff_of, z_dense. rewrite <- PR. destruct (s_law (ph_sol ph)); reflexivity. }
      rewrite SF. unfold z_moved, point_of, velocity. rewrite V. cbn [z_stuff z_m z_V z_x z_v z_s z_b z_first].
      unfold stuff_of. destruct (s_law (ph_sol ph)); try contradiction; try discriminate; reflexivity.
    - intros k ph ph' p p' A C ES RI (w & W & ->). unfold point_of at 1. unfold velocity at 1. cbn [pv px pm pV pstress pb set]. rewrite ES.
      unfold z_moved, point_of. cbn [z_stuff z_m z_V z_x z_v z_s z_b z_first]. unfold stuff_of.
      destruct (s_law (ph_sol ph)); try discriminate. change (p_intruder_v P) with (p_intruder_v (sP s)) in W.
      cbn [SC a_w ambient_of]. rewrite W. f_equal. }
  rewrite B5. change (z_step SC B) with (map (z_moved SC B B1) B1). rewrite <- B4.
  pose proof (cloud_remixed (sP s) L4 L4s GD 0%nat) as RM. change (cloud_from (sP s) 0 L4) with (cloud (sP s) L4) in RM. change (cloud_from (sP s) 0 L4s) with (cloud (sP s) L4s) in RM.
  rewrite B4 in RM |- *. apply remixed_map; [intros; apply remixed_moved; assumption|exact RM].
Qed.

(** What a step leaves of the phases. *)
Lemma seg_keeps uf fill (s s' : state R) : proper (pG (sP s)) -> grid_ok (pG (sP s)) (sG s) ->
  all_live (sL s) (fun _ p => in_dom (pG (sP s)) (px p)) -> tight (sP s) -> covered (sL s) -> own_velocities (sL s) ->
  time_march uf fill s = Ok s' ->
  map ph_sol (sL s') = map ph_sol (sL s) /\ covered (sL s') /\ own_velocities (sL s') /\ (counted (sL s) -> counted (sL s')).
Proof.
  intros HP HG HD HS HL HO E. pose proof HS as (Hc & O1 & O2 & I1 & I2).
  destruct (march_seg uf fill s s' HP HG HD Hc E) as
    (S1 & L1 & L3 & L4 & L4s & L5 & G1 & G3 & G4 & G5 & G6 & HS1 & E1 & R1 & R3 & E2 & F1 & E3 & R4 & F3 & Lo & E4 & LF & E5 & Z4 & Z5 & E6 & EP & ESG & GD & SN & PM & EI).
  set (P := sP s <| p_loads := uf (sP s) |>) in *. set (Pg := pG (sP s)) in *.
  assert (IO : inout P L5 = Ok L5).
  { unfold inout. change (pB P) with (pB (sP s)). rewrite O1, O2, I1, I2, Hc. reflexivity. }
  rewrite IO in EI. injection EI as EI. rewrite <- EI.
  apply covered_lawful in HL. destruct HL as [HL HL2].
  assert (D1 : all_live L1 (fun ph p => lawful (ph_sol ph) p /\ exists v, pv p = Own v)).
  { eapply (Lrel_all_live _ (sL s) L1 (fun ph p => lawful (ph_sol ph) p /\ exists v, pv p = Own v)); [exact R1| |].
    - cbv beta. intros ph p ph' p' _ _ ES _ _ [b ->] [X1 X2]. rewrite ES. split; [exact X1|exact X2].
    - intros ph p A C. split; [exact (HL ph p A C)|exact (HO ph p A C)]. }
  assert (D3 : all_live L3 (fun ph p => lawful (ph_sol ph) p /\ exists v, pv p = Own v)).
  { eapply (Lrel_all_live _ L1 L3); [exact R3| |exact D1]. cbv beta. intros ph p ph' p' _ _ ES _ _ [D ->] [X1 X2]. rewrite ES. split; [exact X1|exact X2]. }
  unfold stress_strain in E3. pbinds E3. change (cyclic_lr (pB P)) with (cyclic_lr (pB (sP s))) in E3. rewrite Hc in E3. injection E3 as E3a E3b.
  match goal with H : points _ _ _ = Ok (?l, ?g) |- _ => rename H into EQ; rename l into La; rename g into Ga end.
  rewrite E3a in EQ.
  assert (R5 : Lrel (fun ph p p' => strained p p' /\ (lawful (ph_sol ph) p -> lawful (ph_sol ph) p')) L3 L4).
  { apply (points_rel (stress_one P a) (fun _ => True) (fun ph p p' => strained p p' /\ (lawful (ph_sol ph) p -> lawful (ph_sol ph) p')) L3 G1 L4 Ga) in EQ; [apply EQ|exact I|].
    intros k ph p G2 p' G2' A C V X. split; [exact I|]. pose proof (stress_one_rel _ _ _ _ _ _ _ _ X) as (X1 & _). split; [exact X1|]. apply (stress_lawful _ _ _ _ _ _ _ _ X). }
  assert (D4 : all_live L4 (fun ph p => lawful (ph_sol ph) p /\ exists v, pv p = Own v)).
  { eapply (Lrel_all_live _ L3 L4); [exact R5| |exact D3]. cbv beta. intros ph p ph' p' _ _ ES _ _ (X & Y) (Z1 & Z2). rewrite ES.
    split; [auto|]. unfold strained, law_frame in X. rewrite X. exact Z2. }
  assert (D4s : all_live L4s (fun ph p => lawful (ph_sol ph) p /\ exists v, pv p = Own v)).
  { eapply (Lrel_all_live _ L4 L4s); [exact GD| |exact D4]. cbv beta. intros ph p ph' p' _ _ ES _ _ X (Z1 & Z2). rewrite ES. destruct X as [X _]. rewrite X.
    split; [exact Z1|exact Z2]. }
  assert (SO4 : map ph_sol L4s = map ph_sol (sL s)) by (rewrite (Lrel_sol _ _ _ GD), (Lrel_sol _ _ _ R5), (Lrel_sol _ _ _ R3); apply (Lrel_sol _ _ _ R1)).
  assert (SO5 : map ph_sol L5 = map ph_sol L4s).
  { clear - PM. induction PM as [|ph ph' L L' (A1 & _) PM IH]; [reflexivity|]. cbn [map]. rewrite A1, IH. reflexivity. }
  assert (D5 : all_live L5 (fun ph p => lawful (ph_sol ph) p /\ exists v, pv p = Own v)).
  { clear - PM D4s. induction PM as [|ph ph' L L' (A1 & A2 & A3 & A4 & _) PM IH]; [intros ? ? []|].
    intros ph1 p1 [<-|A] C.
    - assert (K : forall p, In p (live ph) -> lawful (ph_sol ph) p /\ exists v, pv p = Own v) by (intros p Hp; apply (D4s ph p); [left; reflexivity|exact Hp]).
      clear - A1 A4 C K. rewrite A1. revert C K. set (l := live ph) in *. set (l' := live ph') in *. clearbody l l'.
      intros C K. induction A4 as [|p p' l l' X A4 IH]; [destruct C|]. destruct C as [<-|C]; [|apply IH; [exact C|intros; apply K; right; assumption]].
      destruct (K p (or_introl eq_refl)) as [K1 [v K2]]. destruct (is_rigid (s_law (ph_sol ph))).
      + destruct X as (w & _ & ->). split; [exact K1|exists w; reflexivity].
      + destruct X as (Y1 & Y2 & Y3). rewrite K2 in Y3. destruct Y3 as (v' & V & _). split; [rewrite Y1; exact K1|exists v'; exact V].
    - apply (IH (fun q p Q => D4s q p (or_intror Q)) ph1 p1 A C). }
  split; [rewrite SO5; exact SO4|]. split; [|split].
  - apply covered_lawful. split; [intros ph p A C; apply (D5 ph p A C)|].
    intros ph A. destruct (map_in_sol L4s L5 ph SO5 A) as (ph0 & A0 & <-). destruct (map_in_sol (sL s) L4s ph0 SO4 A0) as (ph1 & A1 & <-). apply HL2. exact A1.
  - intros ph p A C. apply (D5 ph p A C).
  - intros HC. assert (C4 : counted L4s) by (apply (Lrel_counted _ _ _ GD), (Lrel_counted _ _ _ R5), (Lrel_counted _ _ _ R3), (Lrel_counted _ _ _ R1), HC).
    clear - PM C4. unfold counted in *. induction PM as [|ph ph' L L' (A1 & A2 & A3 & _) PM IH]; [intros ? []|].
    intros ph1 [<-|A]; [rewrite A2, A3; apply C4; left; reflexivity|apply IH; [intros; apply C4; right; assumption|exact A]].
Qed.

Lemma phi_kept uf fill (s s' : state R) n : proper (pG (sP s)) -> grid_ok (pG (sP s)) (sG s) ->
  all_live (sL s) (fun _ p => in_dom (pG (sP s)) (px p)) -> tight (sP s) -> own_velocities (sL s) ->
  time_march uf fill s = Ok s' ->
  all_live (sL s) (fun _ p => length (pphi p) = n) -> all_live (sL s') (fun _ p => length (pphi p) = n).
Proof.
  intros HP HG HD HS HO E HF. pose proof HS as (Hc & O1 & O2 & I1 & I2).
  destruct (march_seg uf fill s s' HP HG HD Hc E) as
    (S1 & L1 & L3 & L4 & L4s & L5 & G1 & G3 & G4 & G5 & G6 & HS1 & E1 & R1 & R3 & E2 & F1 & E3 & R4 & F3 & Lo & E4 & LF & E5 & Z4 & Z5 & E6 & EP & ESG & GD & SN & PM & EI).
  set (P := sP s <| p_loads := uf (sP s) |>) in *. set (Pg := pG (sP s)) in *.
  assert (IO : inout P L5 = Ok L5).
  { unfold inout. change (pB P) with (pB (sP s)). rewrite O1, O2, I1, I2, Hc. reflexivity. }
  rewrite IO in EI. injection EI as EI. rewrite <- EI.
  set (Q := fun (_ : phase R) (p : particle R) => length (pphi p) = n /\ exists v, pv p = Own v).
  assert (D0 : all_live (sL s) Q) by (intros ph p A C; split; [exact (HF ph p A C)|exact (HO ph p A C)]).
  assert (D1 : all_live L1 Q).
  { apply (Lrel_all_live _ _ _ Q _ R1); [|exact D0]. cbv beta. intros ph p ph' p' _ _ _ _ _ [b ->] X. exact X. }
  assert (D3 : all_live L3 Q).
  { apply (Lrel_all_live _ _ _ Q _ R3); [|exact D1]. cbv beta. intros ph p ph' p' _ _ _ _ _ [D ->] X. exact X. }
  assert (D4 : all_live L4 Q).
  { apply (Lrel_all_live _ _ _ Q _ R4); [|exact D3]. cbv beta. intros ph p ph' p' _ _ _ _ _ (X & _) Y. unfold strained, law_frame in X. rewrite X. exact Y. }
  assert (D4s : all_live L4s Q).
  { apply (Lrel_all_live _ _ _ Q _ GD); [|exact D4]. cbv beta. intros ph p ph' p' _ _ _ _ _ (X & LX) (Y1 & Y2). split; [congruence|]. rewrite X. exact Y2. }
  clear - PM D4s. induction PM as [|ph ph' L L' (A1 & A2 & A3 & A4 & _) PM IH]; [intros ? ? []|].
  intros ph1 p1 [<-|A] C; [|exact (IH (fun q p X => D4s q p (or_intror X)) ph1 p1 A C)].
  assert (K : forall p, In p (live ph) -> Q ph p) by (intros p Hp; apply (D4s ph p); [left; reflexivity|exact Hp]).
  clear - A1 A4 C K. revert C K. set (l := live ph) in *. set (l' := live ph') in *. clearbody l l'.
  intros C K. induction A4 as [|p p' l l' X A4 IH]; [destruct C|]. destruct C as [<-|C]; [|apply IH; [exact C|intros; apply K; right; assumption]].
  destruct (K p (or_introl eq_refl)) as [K1 _]. destruct (is_rigid (s_law (ph_sol ph))).
  - destruct X as (w & _ & ->). exact K1.
  - destruct X as (Y1 & _). rewrite Y1. exact K1.
Qed.

Definition grainless (L : list (phase R)) : Prop := forall ph, In ph L -> s_law (ph_sol ph) <> Pouliquen.
Definition no_grains (B : list point) : Prop := Forall (fun q => match z_stuff q with Grains _ _ _ _ _ _ _ _ _ _ => False | _ => True end) B.
Lemma grainless_cloud P L : grainless L -> forall k, no_grains (cloud_from P k L).
Proof.
  intros H. induction L as [|ph L IH]; intros k; cbn [cloud_from]; [constructor|]. apply Forall_app. split.
  - apply Forall_forall. intros q HI. apply in_map_iff in HI. destruct HI as (p & <- & _). cbn [point_of z_stuff]. unfold stuff_of.
    specialize (H ph (or_introl eq_refl)). destruct (s_law (ph_sol ph)); try exact I. apply H. reflexivity.
  - apply IH. intros ph1 A. apply H. right. exact A.
Qed.
Lemma remixed_same B B' : Forall2 remixed B B' -> no_grains B' -> B' = B.
Proof.
  induction 1 as [|q q' B B' X H IH]; intros N; [reflexivity|]. inversion N as [|? ? N1 N2]; subst. f_equal; [|exact (IH N2)].
  destruct q as [f m V x v st b o], q' as [f' m' V' x' v' st' b' o']. unfold remixed in X. cbn [z_stuff z_m z_V z_x z_v z_s z_b z_first] in *.
  destruct X as (A & -> & -> & -> & -> & -> & -> & ->). destruct f, f'; try discriminate A; try contradiction; solve [reflexivity|rewrite A; reflexivity].
Qed.

(** A set-up for the seven materials other than grains, that may segregate or not. *)
Record sifted (s : state R) : Prop := {
  si_proper : proper (pG (sP s));
  si_grid : grid_ok (pG (sP s)) (sG s);
  si_laws : covered (sL s);
  si_grains : grainless (sL s);
  si_own : own_velocities (sL s);
  si_tight : tight (sP s);
  si_rub : no_rub (pB (sP s));
  si_dt : 0 < p_dt (sP s);
  si_tol : 0 <= p_Mtol (sP s);
  si_fixed : p_dynamic (sP s) = false }.

Lemma grid_ok_mesh P (G G' : grid R) : mesh G' = mesh G -> bv G' = bv G -> bh G' = bh G -> grid_ok P G -> grid_ok P G'.
Proof.
  intros M V H HG. unfold mesh in M. injection M as Q1 Q2 Q3 Q4 Q5 Q6 Q7. destruct HG.
  constructor; rewrite ?Q1, ?Q2, ?Q3, ?Q4, ?Q5, ?Q6, ?Q7, ?V, ?H; assumption.
Qed.
Lemma grainless_map L L' : map ph_sol L' = map ph_sol L -> grainless L -> grainless L'.
Proof. intros E H. exact (sol_in L L' (fun So => s_law So <> Pouliquen) E H). Qed.

Lemma sifted_pass uf fill (s : state R) tr s' tr' S0 : sifted s -> all_live (sL s) (fun _ p => in_dom (pG (sP s)) (px p)) ->
  sol0 (sL s) = Ok S0 -> pass uf fill s tr = Ok (s', tr') ->
  sifted s' /\ sol0 (sL s') = Ok S0 /\ map ph_sol (sL s') = map ph_sol (sL s) /\ (counted (sL s) -> counted (sL s')) /\
  (sieved (sP s) (sL s) -> sieved (sP s') (sL s')) /\ sP s' = ticked uf (sP s) /\
  (bv (sG s') = bv (sG s) /\ bh (sG s') = bh (sG s) /\ bconv (sG s') = bconv (sG s) /\ gV (sG s') = gV (sG s)) /\
  cloud (sP s) (sL s') = z_step (ambient_of (sP s) (s_rho S0) (uf (sP s)) (sG s)) (cloud (sP s) (sL s)).
Proof.
  intros HW HD H0 E. pose proof HW as [H1 H2 H3 H3g H4 H5 H6 H7 H8 H9].
  assert (RR : reach uf fill s s') by (eapply reach_S; [apply reach_0|exact E]).
  destruct (p_C82_mesh R Num_R uf fill s s' RR) as [ME HM]. specialize (HM (no_rub_mu _ H6)). destruct HM as [MV MH].
  destruct (pass_fixed uf fill s tr s' tr' H9 E) as (s1 & E1 & EL & EG & EP).
  destruct (seg_keeps uf fill s s1 H1 H2 HD H5 H3 H4 E1) as (K1 & K2 & K3 & K4).
  assert (HG' : grainless (sL s1)) by (eapply grainless_map; eauto).
  split; [|split; [rewrite EL; eapply sol0_map; eauto|split; [rewrite EL; exact K1|split; [rewrite EL; exact K4|split; [|split; [exact EP|split]]]]]].
  - constructor; rewrite ?EP; try assumption; unfold ticked; try assumption; rewrite ?EL; try assumption.
    exact (grid_ok_mesh _ _ _ ME MV MH H2).
  - intros HV Q. rewrite EP in Q |- *. rewrite EL. destruct (HV Q) as (V1 & V2 & V3 & V4 & V5 & V6 & V7).
    split; [exact V1|]. split; [exact V2|]. split; [exact V3|]. split; [exact V4|]. split; [|split; [exact V6|]].
    + intros S1 X. apply V5. rewrite (sol0_map _ _ _ K1 H0) in X. rewrite H0. exact X.
    + exact (phi_kept uf fill s s1 _ H1 H2 HD H5 H4 E1 V7).
  - split; [exact MV|]. split; [exact MH|]. unfold mesh in ME. split; injection ME; auto.
  - rewrite EL. apply remixed_same; [|exact (grainless_cloud (sP s) _ HG' 0%nat)].
    apply (p_C110_step uf fill s s1); assumption.
Qed.

(** Materials other than grains: with segregation or without, the points after [n] passes are those of the scheme. *)
Lemma p_C110_run : forall uf fill n (s : state R) tr s' tr' S0, sifted s -> sol0 (sL s) = Ok S0 ->
  (forall j, (j < n)%nat -> Forall (fun q => in_dom (pG (sP s)) (z_x q))
                                  (z_run uf (s_rho S0) j (sP s) (sG s) (cloud (sP s) (sL s)))) ->
  after uf fill n s tr = Ok (s', tr') ->
  sP s' = clock uf n (sP s) /\ cloud (sP s) (sL s') = z_run uf (s_rho S0) n (sP s) (sG s) (cloud (sP s) (sL s)).
Proof.
  intros uf fill n. induction n as [|n IH]; intros s tr s' tr' S0 HW H0 HI E.
  - cbn [after] in E. injection E as <- _. split; reflexivity.
  - cbn [after] in E. destruct (pass uf fill s tr) as [[s1 tr1]|] eqn:E1; [|discriminate].
    pose proof (HI 0%nat (Nat.lt_0_succ n)) as HI0. cbn [z_run] in HI0.
    assert (HD := cloud_live (sP s) (sL s) (fun x => in_dom (pG (sP s)) x) 0 HI0).
    destruct (sifted_pass uf fill s tr s1 tr1 S0 HW HD H0 E1) as (W1 & H1 & _ & _ & _ & EP & (M1 & M2 & M3 & M4) & EB).
    assert (CC : forall L, cloud (sP s1) L = cloud (sP s) L) by (intros L; apply cloud_pG; rewrite EP; reflexivity).
    destruct (IH s1 tr1 s' tr' S0 W1 H1) as (A2 & A3); [|exact E|].
    + intros j Hj. specialize (HI (Datatypes.S j) (proj1 (Nat.succ_lt_mono j n) Hj)). cbn [z_run] in HI.
      rewrite CC, EP, EB, (z_run_grid uf _ j _ (sG s) (sG s1)) by assumption. exact HI.
    + cbn [clock z_run]. rewrite A2, <- (CC (sL s')), A3, CC, EP, EB. split; [reflexivity|]. apply z_run_grid; assumption.
Qed.

(** The same run with segregation and without, if the loads do not depend on it: the same motion. *)
Definition with_seg (b : bool) (P : params R) : params R := P <| p_seg := b |>.
Lemma z_run_seg uf rho b G n : (forall P, uf (with_seg b P) = uf P) -> forall P B, z_run uf rho n (with_seg b P) G B = z_run uf rho n P G B.
Proof.
  intros U. induction n as [|n IH]; intros P B; [reflexivity|]. cbn [z_run].
  assert (T : ticked uf (with_seg b P) = with_seg b (ticked uf P)) by (unfold ticked; rewrite U; reflexivity).
  rewrite T, IH. rewrite U. reflexivity.
Qed.
Lemma p_C110_same : forall uf fill n b (s : state R) tr tr2 s1 tr1 s2 tr2' S0, sifted s -> sol0 (sL s) = Ok S0 ->
  (forall P, uf (with_seg b P) = uf P) ->
  (forall j, (j < n)%nat -> Forall (fun q => in_dom (pG (sP s)) (z_x q))
                                  (z_run uf (s_rho S0) j (sP s) (sG s) (cloud (sP s) (sL s)))) ->
  after uf fill n s tr = Ok (s1, tr1) -> after uf fill n (s <| sP := with_seg b (sP s) |>) tr2 = Ok (s2, tr2') ->
  cloud (sP s) (sL s2) = cloud (sP s) (sL s1).
Proof.
  intros uf fill n b s tr tr2 s1 tr1 s2 tr2' S0 HW H0 U HI EA EB.
  destruct (p_C110_run uf fill n s tr s1 tr1 S0 HW H0 HI EA) as [_ A].
  assert (HW' : sifted (s <| sP := with_seg b (sP s) |>)) by (destruct HW; constructor; assumption).
  destruct (p_C110_run uf fill n (s <| sP := with_seg b (sP s) |>) tr2 s2 tr2' S0 HW' H0) as [_ B]; [|exact EB|].
  - intros j Hj. cbn [sP sL sG set]. rewrite (z_run_seg uf _ b _ j U), (cloud_pG (sP s) (with_seg b (sP s))) by reflexivity. exact (HI j Hj).
  - cbn [sP sL sG set] in B. rewrite (z_run_seg uf _ b _ n U), !(cloud_pG (sP s) (with_seg b (sP s))) in B by reflexivity. congruence.
Qed.

(** And the passes do not fail as long as the points of the scheme stay in the domain. *)
Lemma p_C110_total : forall uf fill n (s : state R) tr S0, sifted s -> provided s -> sieved (sP s) (sL s) -> sol0 (sL s) = Ok S0 ->
  (forall j, (j < n)%nat -> Forall (fun q => in_dom (pG (sP s)) (z_x q) /\ (p_check (sP s) = true -> vz (z_x q) = 0))
                                  (z_run uf (s_rho S0) j (sP s) (sG s) (cloud (sP s) (sL s)))) ->
  exists s' tr', after uf fill n s tr = Ok (s', tr') /\ cloud (sP s) (sL s') = z_run uf (s_rho S0) n (sP s) (sG s) (cloud (sP s) (sL s)).
Proof.
  intros uf fill n. induction n as [|n IH]; intros s tr S0 HW HV HQ H0 HI.
  - exists s, tr. split; reflexivity.
  - pose proof (HI 0%nat (Nat.lt_0_succ n)) as HI0. cbn [z_run] in HI0.
    assert (HD := cloud_live (sP s) (sL s) (fun x => in_dom (pG (sP s)) x /\ (p_check (sP s) = true -> vz x = 0)) 0 HI0).
    assert (HD' : all_live (sL s) (fun _ p => in_dom (pG (sP s)) (px p))) by (intros ph p A C; apply (HD ph p A C)).
    pose proof HV as [V1 V2 V3 V4 V5 V6 V7]. pose proof (si_tight _ HW) as (Hc & O1 & O2 & I1 & I2).
    assert (HR : ready_sift s).
    { constructor; auto; try apply HW; [|rewrite O1; discriminate].
      destruct V2 as (S1 & A & C). exists S1. split; [exact A|]. intros ph p X _. left. exact (C ph X). }
    destruct (p_C58_pass_sift uf fill s tr HR (si_fixed _ HW) V6 V7) as [[s1 tr1] E].
    destruct (sifted_pass uf fill s tr s1 tr1 S0 HW HD' H0 E) as (W1 & H1 & SO & K & KV & EP & (M1 & M2 & M3 & M4) & EB).
    assert (P1 : provided s1).
    { constructor; rewrite ?EP; unfold ticked; try assumption; auto.
      - destruct V2 as (S1 & A & B). exists S1. split; [eapply sol0_map; eauto|]. exact (sol_in _ _ (equipped S1) SO B).
      - intros ph A. destruct (map_in_sol _ _ _ SO A) as (ph0 & A0 & <-). apply (V3 ph0 A0). }
    assert (CC : forall L, cloud (sP s1) L = cloud (sP s) L) by (intros L; apply cloud_pG; rewrite EP; reflexivity).
    destruct (IH s1 tr1 S0 W1 P1 (KV HQ) H1) as (s' & tr' & A1 & A2).
    + intros j Hj. specialize (HI (Datatypes.S j) (proj1 (Nat.succ_lt_mono j n) Hj)). cbn [z_run] in HI.
      rewrite CC, EP, EB, (z_run_grid uf _ j _ (sG s) (sG s1)) by assumption. exact HI.
    + exists s', tr'. cbn [after z_run]. rewrite E. split; [exact A1|]. rewrite <- (CC (sL s')), A2, CC, EP, EB. apply z_run_grid; assumption.
Qed.

Definition sift_state (G : grid R) : state R := mix_state G <| sP := mix_params <| p_seg := true |> <| p_c := Some 1 |> <| p_l := Some 1 |> |>.

(** Five materials at once, with segregation of two sizes, in a box with a belt, a load on the surface and a falling intruder. *)
Example x_C110_total : forall fill, exists (s : state R) S0, sifted s /\ provided s /\ sieved (sP s) (sL s) /\ p_seg (sP s) = true /\ sol0 (sL s) = Ok S0 /\
  (forall j, (j < 1)%nat -> Forall (fun q => in_dom (pG (sP s)) (z_x q) /\ (p_check (sP s) = true -> vz (z_x q) = 0))
                                  (z_run mix_loads (s_rho S0) j (sP s) (sG s) (cloud (sP s) (sL s)))) /\
  (forall P b, mix_loads (with_seg b P) = mix_loads P) /\ length (cloud (sP s) (sL s)) = 5%nat /\
  exists s' tr', after mix_loads fill 1 s [] = Ok (s', tr') /\ cloud (sP s) (sL s') = z_run mix_loads (s_rho S0) 1 (sP s) (sG s) (cloud (sP s) (sL s)).
Proof.
  intros fill. destruct (grid_init_ok ex_gridp mix_bounds ex_proper) as (G & EG & OK).
  set (s := sift_state G).
  assert (W : sifted s).
  { destruct (mix_whole G OK). constructor; try assumption; try (repeat split; reflexivity).
    intros ph [<-|[<-|[<-|[<-|[<-|[]]]]]]; cbn; discriminate. }
  assert (V : provided s) by (destruct (mix_provided G); constructor; assumption).
  assert (Q : sieved (sP s) (sL s)).
  { intros _. split; [discriminate|]. split; [discriminate|]. split; [discriminate|]. split; [discriminate|].
    split; [intros S0 X; injection X as <-; discriminate|]. split; [cbn; lia|].
    intros ph p [<-|[<-|[<-|[<-|[<-|[]]]]]] [<-|[]]; reflexivity. }
  assert (H : forall j, (j < 1)%nat -> Forall (fun q => in_dom (pG (sP s)) (z_x q) /\ (p_check (sP s) = true -> vz (z_x q) = 0))
                                  (z_run mix_loads (s_rho (mix_solid ElasticTime)) j (sP s) (sG s) (cloud (sP s) (sL s)))).
  { intros [|j] Hj; [|lia]. cbn [z_run]. repeat constructor; cbn; unR; lra. }
  exists s, (mix_solid ElasticTime). split; [exact W|]. split; [exact V|]. split; [exact Q|]. split; [reflexivity|]. split; [reflexivity|]. split; [exact H|].
  split; [reflexivity|]. split; [reflexivity|].
  apply (p_C110_total mix_loads fill 1 s [] (mix_solid ElasticTime) W V Q eq_refl H).
Qed.
