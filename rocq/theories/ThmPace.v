(** * Runs that choose their own time steps compute the material point scheme: C109. *)
From Coq Require Import ZArith Reals List Bool Arith Lra Lia.
From RecordUpdate Require Import RecordUpdate.
From Verif Require Import State NumR Spec SpecLaws SpecStep SpecScheme SpecLocal SpecPace LibList LibR ModelGrid ModelConstit ModelParticle ModelMPList
  ModelIntegr ModelMain ProofsGrid ProofsMap ProofsP2G ProofsWalls ProofsLaws ProofsInOut ProofsHist Concrete
  ThmMapping ThmWalls ThmLaws ThmInOut ThmHist ProofsStep ProofsPoints ThmStep ThmBalance ThmEnergy ThmFall ThmGeo ProofsScheme ThmScheme ProofsLocal ThmLocal ThmLoop.
Import ListNotations.
Local Open Scope R_scope.

Lemma node_moments uf fill (s s' : state R) S0 : proper (pG (sP s)) -> grid_ok (pG (sP s)) (sG s) ->
  all_live (sL s) (fun _ p => in_dom (pG (sP s)) (px p)) -> sealed (sP s) -> no_rub (pB (sP s)) ->
  covered (sL s) -> own_velocities (sL s) -> 0 < p_dt (sP s) -> 0 <= p_Mtol (sP s) -> sol0 (sL s) = Ok S0 ->
  time_march uf fill s = Ok s' ->
  let SC := ambient_of (sP s) (s_rho S0) (uf (sP s)) (sG s) in let B := cloud (sP s) (sL s) in
  length (gm (sG s')) = nodes (pG (sP s)) /\ length (gq (sG s')) = nodes (pG (sP s)) /\
  forall k, (k < nodes (pG (sP s)))%nat -> nth k (gm (sG s')) 0 = z_mass SC B k /\
    forall a, comp a (nth k (gq (sG s')) v0) = y_mom SC B (map (z_strained SC B) B) a k.
Proof.
  intros HP HG HD HS NR HL HO Hdt Htol HS0 E.
  pose proof HS as (Hs & Hc & O1 & O2 & I1 & I2).
  destruct (march_stages uf fill s s' HP HG HD Hs Hc E) as
    (S1 & L1 & L3 & L4 & L5 & G1 & G3 & G4 & G5 & G6 & HS1 & E1 & R1 & R3 & E2 & F1 & E3 & R4 & F3 & Lo & E4 & LF & E5 & Z4 & Z5 & E6 & EP & EG & PM & EI).
  rewrite HS0 in HS1. injection HS1 as <-.
  set (P := sP s <| p_loads := uf (sP s) |>) in *. set (Pg := pG (sP s)) in *.
  set (SC := ambient_of (sP s) (s_rho S0) (uf (sP s)) (sG s)). set (B := cloud (sP s) (sL s)).
  destruct (force_loop_spec P L4 G3 G4 LF E4) as (F4 & _ & FI & FE).
  pose proof (BCs_frame _ _ _ _ E5) as F5. destruct (um_shape P G5 G6 E6) as [F6 UQ].
  pose proof (p_C49_surface_loads P (s_rho S0) G4 G5 Z4 HP) as SL.
  destruct (wipe_geo (sP s) (sG s)) as (W1 & W2 & _ & _ & WV & W6 & W7 & _ & WC).
  assert (M1 := p2g_all_mass P L3 (wipe (sP s) (sG s)) G1 (wipe_lens (sP s) (sG s)) E2).
  assert (Q1 := p2g_all_mom P L3 (wipe (sP s) (sG s)) G1 (wipe_lens (sP s) (sG s))).
  rewrite W6, W7 in Q1. specialize (Q1 (go_bv _ _ HG) (go_bh _ _ HG) E2).
  destruct M1 as (Lm1 & _ & M1). destruct Q1 as (Lq1 & Q1).
  unfold frame_all in F1. unfold vis_frame in F3. unfold frame_f in F4. unfold force_frame in F5.
  assert (EX : forall k, nth k (gext G4) v0 = v0).
  { intros k. rewrite F4. cbn. rewrite F3. cbn. rewrite F1. cbn. rewrite wipe_ext. apply nth_repeat_same. }
  assert (FI3 : gfi G3 = repeat v0 (nodes Pg)). { rewrite F3. cbn. rewrite F1. cbn. apply wipe_fi. }
  assert (FE3 : gfe G3 = repeat v0 (nodes Pg)). { rewrite F3. cbn. rewrite F1. cbn. apply wipe_fe. }
  assert (FI5 : gfi G5 = gfi G4) by (eapply BCs_fi; exact E5).
  assert (EQ5 : gq G5 = gq G1). { rewrite F5. cbn. rewrite F4. cbn. rewrite F3. reflexivity. }
  assert (EM4 : gm G4 = gm G1). { rewrite F4. cbn. rewrite F3. reflexivity. }
  assert (EM5 : gm G5 = gm G1). { rewrite F5. cbn. exact EM4. }
  assert (EM6 : gm G6 = gm G1). { rewrite F6. cbn. exact EM5. }
  assert (EV6 : gV G6 = gV (sG s)). { rewrite F6. cbn. rewrite F5. cbn. rewrite F4. cbn. rewrite F3. cbn. rewrite F1. cbn. exact WV. }
  assert (DX : gdx G4 = cell_w Pg /\ gdy G4 = cell_h Pg).
  { rewrite F4. cbn. rewrite F3. cbn. rewrite F1. cbn. rewrite W1, W2. split; [exact (go_dx _ _ HG)|exact (go_dy _ _ HG)]. }
  assert (BC : bconv G5 = bconv (sG s)). { rewrite F5. cbn. rewrite F4. cbn. rewrite F3. cbn. rewrite F1. cbn. exact WC. }
  assert (BV : bv G5 = bv (sG s) /\ bh G5 = bh (sG s)).
  { rewrite F5. cbn. rewrite F4. cbn. rewrite F3. cbn. rewrite F1. cbn. split; assumption. }
  destruct BV as [BV BH]. destruct DX as [DX DY].
  specialize (SL EX E5). cbv zeta in SL.
  apply covered_lawful in HL. destruct HL as [HL HL2].
  (* the located points *)
  assert (D1 : all_live L1 (fun ph p => lawful (ph_sol ph) p /\ exists v, pv p = Own v)).
  { eapply (Lrel_all_live _ (sL s) L1 (fun ph p => lawful (ph_sol ph) p /\ exists v, pv p = Own v)); [exact R1| |].
    - cbv beta. intros ph p ph' p' _ _ ES _ _ [b ->] [X1 X2]. rewrite ES. split; [exact X1|exact X2].
    - intros ph p A C. split; [exact (HL ph p A C)|exact (HO ph p A C)]. }
  assert (D3 : all_live L3 (fun ph p => located Pg p /\ lawful (ph_sol ph) p /\ exists v, pv p = Own v)).
  { eapply (Lrel_all_live _ L1 L3); [exact R3| |exact D1]. cbv beta. intros ph p ph' p' _ _ ES _ _ [D ->] [X1 X2]. rewrite ES.
    split; [apply locate_located; exact D|]. split; [exact X1|exact X2]. }
  assert (SO3 : map ph_sol L3 = map ph_sol (sL s)) by (rewrite (Lrel_sol _ _ _ R3); apply (Lrel_sol _ _ _ R1)).
  set (gr := fun q => mkPoint (z_stuff q) (z_m q) (z_V q) (z_x q) (z_v q) (z_s q) (if z_first q then a_g SC else z_b q) (z_first q)).
  assert (B3 : cloud (sP s) L3 = map gr B).
  { unfold cloud. rewrite (Lrel_cloud (sP s) _ (fun q => q) L1 L3 R3).
    - rewrite map_id. unfold update_forces, points_, points in E1. pbinds E1. injection E1 as ->.
      match goal with X : forM _ _ _ _ = Ok _ |- _ => rename X into EE end.
      eapply (points_cloud (sP s) _ (fun _ => True) gr (sL s)) in EE; [exact EE| |exact I].
      intros k ph p u p' u' _ _ _ X. injection X as <- _. split; [exact I|]. unfold increment_gravity, point_of, gr, velocity.
      cbn [z_stuff z_m z_V z_x z_v z_s z_b z_first]. destruct (Nat.eqb k 0); reflexivity.
    - cbv beta. intros k ph ph' p p' _ _ ES EV [_ ->]. unfold point_of, velocity. rewrite ES, EV. reflexivity. }
  (* nodal mass and velocity *)
  assert (MK : forall k, nth k (gm G1) 0 = z_mass SC B k).
  { intros k. rewrite M1, wipe_m, Rplus_0_l. unfold mass_at.
    rewrite (psum_ext L3 _ (fun _ p => pm p * hat Pg (px p) k)).
    2:{ intros ph p A C. rewrite (wt_hat P p k HP); [reflexivity|apply (D3 ph p A C)]. }
    rewrite (psum_cloud (sP s) (fun _ p => pm p * hat Pg (px p) k) (fun q => z_m q * hat Pg (z_x q) k) L3 (fun _ _ _ => eq_refl) 0%nat).
    change (cloud_from (sP s) 0 L3) with (cloud (sP s) L3). rewrite B3, Rsum_map_map. reflexivity. }
  assert (VK : forall a k, node_v P G1 a k = z_vel SC B a k).
  { intros a k. unfold node_v, z_vel. rewrite <- MK. change (p_Mtol P) with (a_tol SC). rewrite Rltb_dec.
    destruct (Rlt_dec _ _); [|reflexivity]. f_equal. rewrite Q1, wipe_q, comp_v0, Rplus_0_l, open_passes. cbn [SC a_open ambient_of]. f_equal.
    unfold mom_at. rewrite (psum_ext L3 _ (fun ph p => pm p * comp a (velocity ph p) * hat Pg (px p) k)).
    2:{ intros ph p A C. rewrite (wt_hat P p k HP); [change (pG P) with Pg; ring|apply (D3 ph p A C)]. }
    rewrite (psum_cloud (sP s) (fun ph p => pm p * comp a (velocity ph p) * hat Pg (px p) k) (fun q => z_m q * comp a (z_v q) * hat Pg (z_x q) k) L3 (fun _ _ _ => eq_refl) 0%nat).
    change (cloud_from (sP s) 0 L3) with (cloud (sP s) L3). rewrite B3, Rsum_map_map. reflexivity. }
  (* strain and stress *)
  set (st := fun q => mkPoint (z_memory (z_stuff q) (z_strain SC B q)) (z_shed SC q) (z_V q) (z_x q) (z_v q) (z_stress SC q (z_strain SC B q)) (z_b q) (z_first q)).
  unfold stress_strain in E3. pbinds E3. change (cyclic_lr (pB P)) with (cyclic_lr (pB (sP s))) in E3. rewrite Hc in E3. injection E3 as E3a E3b.
  match goal with H : points _ _ _ = Ok (?l, ?g) |- _ => rename H into EQ; rename l into La; rename g into Ga end.
  rewrite E3a in EQ.
  assert (ST : forall k ph p G2 p' G2', In ph L3 -> In p (live ph) -> vis_frame G1 G2 -> stress_one P a k ph p G2 = Ok (p', G2') ->
     vis_frame G1 G2' /\ strained p p' /\ lawful (ph_sol ph) p' /\ point_of (sP s) k ph p' = st (point_of (sP s) k ph p)).
  { intros k ph p G2 p' G2' A C V X. pose proof (stress_one_rel _ _ _ _ _ _ _ _ X) as (X1 & X2 & _ & _).
    split; [exact (vis_frame_trans _ _ _ V X2)|]. split; [exact X1|].
    assert (EM : gm G2 = gm G1) by (rewrite V; reflexivity). assert (EQ2 : gq G2 = gq G1) by (rewrite V; reflexivity).
    destruct (D3 ph p A C) as (Y1 & Y2 & _).
    destruct (stress_local P a k ph p p' G2 G2' SC HP Y1) as (A1 & A2 & A3 & A4); auto.
    + rewrite EM. exact Lm1.
    + rewrite EQ2. exact Lq1.
    + assert (EV : forall a k, node_v P G2 a k = z_vel SC B a k)
        by (intros; rewrite <- VK; unfold node_v; rewrite EM, EQ2; reflexivity).
      assert (ED : m3 (fun a b => p_dt P * fsum (nodes (pG P)) (fun j =>
         (node_v P G2 a j * ghat (pG P) (px p) b j + node_v P G2 b j * ghat (pG P) (px p) a j) / 2)) = z_strain SC B (point_of (sP s) k ph p)).
      { apply m3_ext. intros x y. unfold z_strain. rewrite !el_m3. cbn [SC a_dt ambient_of]. f_equal.
        apply fsum_ext. intros j Hj. rewrite !EV. reflexivity. }
      rewrite ED in A1, A3. split; [exact A4|].
      change (point_of P) with (point_of (sP s)) in A1, A2. change (stuff_of P) with (stuff_of (sP s)) in A3.
      unfold point_of at 1. rewrite A1, A2, A3. unfold st. unfold strained, law_frame in X1. unfold velocity. rewrite X1. reflexivity. }
  assert (R5 : Lrel (fun ph p p' => strained p p' /\ lawful (ph_sol ph) p') L3 L4).
  { apply (points_rel (stress_one P a) (fun G => vis_frame G1 G) (fun ph p p' => strained p p' /\ lawful (ph_sol ph) p') L3 G1 L4 Ga) in EQ; [apply EQ|apply vis_frame_refl|].
    intros k ph p G2 p' G2' A C V X. destruct (ST k ph p G2 p' G2' A C V X) as (Y1 & Y2 & Y3 & _). auto. }
  assert (B4 : cloud (sP s) L4 = map (z_strained SC B) B).
  { unfold cloud. unfold points in EQ. eapply (points_cloud (sP s) (stress_one P a) (fun G => vis_frame G1 G) st L3) in EQ.
    - rewrite EQ. change (cloud_from (sP s) 0 L3) with (cloud (sP s) L3). rewrite B3, map_map. apply map_ext. intros q. reflexivity.
    - intros k ph p G2 p' G2' A C V X. destruct (ST k ph p G2 p' G2' A C V X) as (Y1 & Y2 & Y3 & Y4). auto.
    - apply vis_frame_refl. }
  assert (D4 : all_live L4 (fun ph p => located Pg p /\ exists v, pv p = Own v)).
  { eapply (Lrel_all_live _ L3 L4); [exact R5| |exact D3]. cbv beta. intros ph p ph' p' _ _ _ _ _ (X & _) (Y & _ & Z).
    split; [eapply strained_located; eauto|]. unfold strained, law_frame in X. rewrite X. exact Z. }
  (* forces *)
  set (B1 := map (z_strained SC B) B) in *.
  assert (FK : forall a k, (k < nodes Pg)%nat -> net_force P G5 a k = a_damp SC * (z_force SC B1 a k + a_load SC a k * z_mass SC B k)).
  { intros c k Hk. unfold net_force. change (if p_damping P then 7/10 else 1) with (a_damp SC). f_equal. rewrite FI5.
    destruct (SL k Hk) as (A1 & A2 & A3). rewrite EM4, MK, DX in A1. rewrite EM4, MK, DY in A2.
    change (pB P) with (pB (sP s)) in A1, A2. change (p_loads P) with (uf (sP s)) in A1, A2.
    assert (Z2 : comp c (nth k (gfe G5) v0) = comp c (nth k (gfe G4) v0) + a_load SC c k * z_mass SC B k).
    { cbn [SC a_load ambient_of]. unfold load_of. destruct c; cbn [comp].
      - rewrite A1. destruct (horizontal_force (pB (sP s))); [|lra]. unfold push, ends, col. change (pG P) with Pg. fold Pg. unfold Rdiv. ring.
      - rewrite A2. destruct (vertical_force (pB (sP s))); [|lra]. unfold push, ends, row. change (pG P) with Pg. fold Pg. unfold Rdiv. ring.
      - rewrite A3. ring. }
    rewrite Z2, FI, FE, FI3, FE3, nth_repeat_same, comp_v0, !Rplus_0_l.
    assert (ZF : psum L4 (fun _ p => pm p * wt P p k * comp c (pb p)) - psum L4 (fun _ p => fint_at P p c k) = z_force SC B1 c k).
    { transitivity (psum L4 (fun _ p => pm p * comp c (pb p) * hat Pg (px p) k - pV p * over (fun b => el c b (pstress p) * ghat Pg (px p) b k))).
      - transitivity (psum L4 (fun _ p => pm p * wt P p k * comp c (pb p) + -1 * fint_at P p c k)); [rewrite psum_plus, psum_scal; lra|].
        apply psum_ext. intros ph p A C. destruct (D4 ph p A C) as [Y _]. rewrite (wt_hat P p k HP Y), (fint_ghat P p c k HP Y).
          change (pG P) with Pg. ring.
      - rewrite (psum_cloud (sP s) (fun _ p => pm p * comp c (pb p) * hat Pg (px p) k - pV p * over (fun b => el c b (pstress p) * ghat Pg (px p) b k)) (fun q => z_m q * comp c (z_b q) * hat Pg (z_x q) k - z_V q * over (fun b => el c b (z_s q) * ghat Pg (z_x q) b k)) L4 (fun _ _ _ => eq_refl) 0%nat).
        change (cloud_from (sP s) 0 L4) with (cloud (sP s) L4). rewrite B4. reflexivity. }
    rewrite <- ZF. lra. }
  rewrite EG. change (gm (calculate_gammadot fill P G6)) with (gm G6). change (gq (calculate_gammadot fill P G6)) with (gq G6).
  split; [rewrite EM6; exact Lm1|]. split; [apply (um_q_len P G5 G6 Z5 E6)|]. intros k Hk. split; [rewrite EM6; apply MK|].
  intros c. destruct (um_q P G5 G6 Z5 E6 k Hk) as [U1 U2]. rewrite EQ5 in U1, U2.
  assert (QK : comp c (nth k (gq G1) v0) = a_open SC c k * Rsum (map (fun q => z_m q * comp c (z_v q) * hat Pg (z_x q) k) B)).
  { rewrite Q1, wipe_q, comp_v0, Rplus_0_l, open_passes. cbn [SC a_open ambient_of]. f_equal.
    unfold mom_at. rewrite (psum_ext L3 _ (fun ph p => pm p * comp c (velocity ph p) * hat Pg (px p) k)).
    2:{ intros ph p A C. rewrite (wt_hat P p k HP); [change (pG P) with Pg; ring|apply (D3 ph p A C)]. }
    rewrite (psum_cloud (sP s) (fun ph p => pm p * comp c (velocity ph p) * hat Pg (px p) k) (fun q => z_m q * comp c (z_v q) * hat Pg (z_x q) k) L3 (fun _ _ _ => eq_refl) 0%nat).
    change (cloud_from (sP s) 0 L3) with (cloud (sP s) L3). rewrite B3, Rsum_map_map. reflexivity. }
  assert (NB : comp c (nth k (gq G6) v0) = comp c (nth k (gq G1) v0) + p_dt P * comp c (nth k (gqd G6) v0) ->
    comp c (nth k (gq G6) v0) = a_open SC c k * (Rsum (map (fun q => z_m q * comp c (z_v q) * hat (a_P SC) (z_x q) k) B)
                              + a_dt SC * (a_damp SC * (z_force SC B1 c k + a_load SC c k * z_mass SC B k)))).
  { intros U. rewrite U, QK, (no_rub_rate P G5 G6 Z5 E6 NR), FK by exact Hk. rewrite BV, BH, open_passes.
    change (a_open SC c k) with (SpecScheme.passes (roughness (pB P)) (sG s) c k). change (a_dt SC) with (p_dt P). change (a_P SC) with Pg. ring. }
  unfold y_mom. cbn [SC a_belt ambient_of]. fold SC. destruct c; try (apply NB, U2; discriminate).
  rewrite BC, EM5 in U1. change (pB P) with (pB (sP s)) in U1. change (p_v0 P) with (p_v0 (sP s)) in U1.
  destruct UQ as (w & UW & _). change (pB P) with (pB (sP s)) in UW. change (p_v0 P) with (p_v0 (sP s)) in UW.
  destruct (conveyor (pB (sP s))); cbn [andb] in U1; [|apply NB, U1].
  rewrite (UW eq_refl) in *. destruct (nth k (bconv (sG s)) false); [|apply NB, U1].
  cbn [comp]. rewrite U1, MK. reflexivity.
Qed.

Lemma fold_right_max (l : list R) : 0 <= fold_right Rmax 0 l /\ (forall x, In x l -> x <= fold_right Rmax 0 l) /\ In (fold_right Rmax 0 l) (0 :: l).
Proof.
  induction l as [|a l (A & B & C)]; cbn [fold_right]; [split; [lra|]; split; [intros x []|left; reflexivity]|].
  pose proof (Rmax_l a (fold_right Rmax 0 l)). pose proof (Rmax_r a (fold_right Rmax 0 l)).
  split; [lra|]. split; [intros x [<-|D]; [assumption|specialize (B x D); lra]|].
  destruct (Rmax_case_strong a (fold_right Rmax 0 l) (fun r => r = a \/ r = fold_right Rmax 0 l)) as [->| ->]; auto.
  - right. left. reflexivity.
  - destruct C as [C|C]; [left; exact C|right; right; exact C].
Qed.
Lemma fold_right_min (l : list R) a : fold_right Rmin a l <= a /\ (forall x, In x l -> fold_right Rmin a l <= x) /\ In (fold_right Rmin a l) (a :: l).
Proof.
  induction l as [|b l (A & B & C)]; cbn [fold_right]; [split; [lra|]; split; [intros x []|left; reflexivity]|].
  pose proof (Rmin_l b (fold_right Rmin a l)). pose proof (Rmin_r b (fold_right Rmin a l)).
  split; [lra|]. split; [intros x [<-|D]; [assumption|specialize (B x D); lra]|].
  destruct (Rmin_case_strong b (fold_right Rmin a l) (fun r => r = b \/ r = fold_right Rmin a l)) as [->| ->]; auto.
  - right. left. reflexivity.
  - destruct C as [C|C]; [left; exact C|right; right; exact C].
Qed.
Lemma folds_min (l : list R) a : fold_left Rmin l a = fold_right Rmin a l.
Proof.
  destruct (fold_min_lb l a) as (A & B & C). destruct (fold_right_min l a) as (A' & B' & C').
  apply Rle_antisym; [destruct C' as [<-|C']; auto|destruct C as [<-|C]; auto].
Qed.

(** The time step the code computes from nodes of given masses and momenta. *)
Lemma dt_of_nodes (P : params R) (G : grid R) L n m (q : axis -> nat -> R) dx dy : pdx (pG P) = Some dx -> pdy (pG P) = Some dy ->
  length (gm G) = n -> length (gq G) = n -> (0 < n)%nat ->
  (forall k, (k < n)%nat -> nth k (gm G) 0 = m k /\ forall a, comp a (nth k (gq G) v0) = q a k) ->
  dynamic_dt P G L = Ok (y_pace (p_CFL P) dx dy (crits L)
    (fold_right Rmax 0 (map (fun k => Rmax (if Req_EM_T (m k) 0 then 0 else Rabs (q AX k / m k)) (if Req_EM_T (m k) 0 then 0 else Rabs (q AY k / m k))) (seq 0 n)))).
Proof.
  intros EX EY LM LQ Hn HK. unfold dynamic_dt. rewrite EX, EY. cbn [attr bind].
  set (l := zipw _ _ _ ++ zipw _ _ _). set (sp := fun a k => if Req_EM_T (m k) 0 then 0 else Rabs (q a k / m k)).
  change (fun k => Rmax _ _) with (fun k => Rmax (sp AX k) (sp AY k)).
  assert (SP : forall a k, (k < n)%nat -> Rabs (comp a (nth k (gq G) v0) / nth k (gm G) 0) = sp a k).
  { intros a k Hk. destruct (HK k Hk) as [-> ->]. unfold sp. destruct (Req_EM_T (m k) 0) as [->|]; [|reflexivity].
    unfold Rdiv. rewrite Rinv_0, Rmult_0_r, Rabs_R0. reflexivity. }
  assert (IN : forall k, (k < n)%nat -> In (sp AX k) l /\ In (sp AY k) l).
  { intros k Hk. rewrite <- !SP by exact Hk. split; apply in_or_app; [left|right].
    - refine (in_zipw (fun q m => Rabs (vx q / m)) _ _ k v0 0 _ _); lia.
    - refine (in_zipw (fun q m => Rabs (vy q / m)) _ _ k v0 0 _ _); lia. }
  assert (OUT : forall x, In x l -> exists a k, (k < n)%nat /\ a <> AZ /\ x = sp a k).
  { intros x Hx. apply in_app_or in Hx. destruct Hx as [Hx|Hx]; destruct (zipw_in _ _ _ _ Hx) as (u & w & I & ->);
      destruct (In_nth _ _ (v0, 0) I) as (k & Hk & EK); rewrite combine_length, LM, LQ, Nat.min_id in Hk;
      rewrite combine_nth in EK by lia; injection EK as <- <-; [exists AX, k|exists AY, k]; (split; [exact Hk|]; split; [discriminate|]); rewrite <- SP by exact Hk; reflexivity. }
  clearbody l. destruct l as [|a l]; [destruct (IN _ Hn) as [[] _]|].
  cbn [lmax bind]. change (@nmax R Num_R) with Rmax. destruct (fold_max_ub l a) as (M1 & M2 & M3).
  assert (MX : fold_left Rmax l a = fold_right Rmax 0 (map (fun k => Rmax (sp AX k) (sp AY k)) (seq 0 n))).
  { destruct (fold_right_max (map (fun k => Rmax (sp AX k) (sp AY k)) (seq 0 n))) as (N1 & N2 & N3).
    assert (ML : forall x, In x (a :: l) -> x <= fold_left Rmax l a) by (intros x [<-|Hx]; auto).
    apply Rle_antisym.
    - destruct (OUT _ M3) as (c & k & Hk & NZ & ->). eapply Rle_trans; [|apply N2; apply in_map_iff; exists k; split; [reflexivity|apply in_seq; lia]].
      destruct c; [apply Rmax_l|apply Rmax_r|contradiction].
    - destruct N3 as [<-|N3].
      + apply Rle_trans with (sp AX 0%nat); [unfold sp; destruct (Req_EM_T _ _); [lra|apply Rabs_pos]|apply ML, (IN _ Hn)].
      + apply in_map_iff in N3. destruct N3 as (k & <- & Hk). apply in_seq in Hk. destruct (IN k) as [I1 I2]; [lia|]. apply Rmax_lub; auto. }
  rewrite MX. cbn [lmin bind]. change (@nmin R Num_R) with Rmin. rewrite folds_min. unfold y_pace. unfold lit. unR. reflexivity.
Qed.

(** What a run needs from the state it starts with. *)
Record paced (s : state R) : Prop := {
  pa_proper : proper (pG (sP s));
  pa_grid : grid_ok (pG (sP s)) (sG s);
  pa_laws : covered (sL s);
  pa_own : own_velocities (sL s);
  pa_sealed : sealed (sP s);
  pa_rub : no_rub (pB (sP s));
  pa_dt : 0 < p_dt (sP s);
  pa_tol : 0 <= p_Mtol (sP s);
  pa_dynamic : p_dynamic (sP s) = true;
  pa_cells : exists w h, pdx (pG (sP s)) = Some w /\ pdy (pG (sP s)) = Some h /\ 0 < w /\ 0 < h;
  pa_courant : 0 < p_CFL (sP s);
  pa_crits : forall c, In c (crits (sL s)) -> 0 < c }.

Lemma crits_sol (L L' : list (phase R)) : map ph_sol L' = map ph_sol L -> crits L' = crits L.
Proof.
  revert L'. induction L as [|ph L IH]; intros [|ph' L'] H; try discriminate; [reflexivity|].
  cbn [map] in H. injection H as H1 H2. unfold crits in *. cbn [flat_map]. rewrite H1, (IH L' H2). reflexivity.
Qed.

Lemma pace_pos c w h ts fast : 0 < c -> 0 < w -> 0 < h -> 0 < fast -> (forall x, In x ts -> 0 < x) -> 0 < y_pace c w h ts fast.
Proof.
  intros Hc Hw Hh Hf Ht. unfold y_pace. apply Rmult_lt_0_compat; [exact Hc|].
  destruct (fold_right_min ts (1 / 10 * Rmin w h / fast)) as (_ & _ & [<-|I]); [|auto].
  apply Rdiv_lt_0_compat; [|exact Hf]. pose proof (Rmin_pos w h Hw Hh). lra.
Qed.

Lemma proper_nodes P : proper P -> (0 < nodes P)%nat.
Proof. intros (A & B & _). unfold nodes. nia. Qed.

(** One pass: the points make a step of the scheme and the next time step is the one of the specification. *)
Lemma p_C109_pass : forall uf fill (s : state R) tr s' tr' S0, paced s ->
  all_live (sL s) (fun _ p => in_dom (pG (sP s)) (px p)) -> sol0 (sL s) = Ok S0 -> pass uf fill s tr = Ok (s', tr') ->
  let E := ambient_of (sP s) (s_rho S0) (uf (sP s)) (sG s) in let B := cloud (sP s) (sL s) in
  sP s' = y_clock uf (crits (sL s)) (y_fast E B) (sP s) /\ cloud (sP s) (sL s') = z_step E B.
Proof.
  intros uf fill s tr s' tr' S0 HW HD H0 X SC B. pose proof HW as [H1 H2 H3 H4 H5 H6 H7 H8 H9 (w & h & HX & HY & _) _ _].
  unfold pass in X. apply bind_ok in X. destruct X as (s1 & E1 & X).
  pose proof (step_params _ _ _ _ E1) as EP. cbv zeta in X. destruct (p_tf (sP s1) =? n0)%num; [discriminate|].
  apply bind_ok in X. destruct X as (b & _ & X).
  set (P1 := sP s1 <| p_t := (p_t (sP s1) + p_dt (sP s1))%num |> <| p_tstep := (p_tstep (sP s1) + 1)%Z |>) in *.
  assert (PT : P1 = ticked uf (sP s)) by (unfold P1, ticked; rewrite EP; destruct (sP s); reflexivity).
  replace (p_dynamic P1) with true in X by (rewrite PT; symmetry; exact H9).
  destruct (node_moments uf fill s s1 S0 H1 H2 HD H5 H6 H3 H4 H7 H8 H0 E1) as (LM & LQ & NK). fold SC B in NK.
  destruct (local_keeps uf fill s s1 H1 H2 HD H5 H3 H4 E1) as (K1 & _).
  rewrite (dt_of_nodes P1 (sG s1) (sL s1) (nodes (pG (sP s))) (z_mass SC B) (y_mom SC B (map (z_strained SC B) B)) w h) in X.
  - cbn [bind] in X. injection X as X _. subst s'. split; [|apply (p_C102_step uf fill s s1); assumption].
    unfold y_clock. rewrite HX, HY. rewrite <- (crits_sol _ _ K1).
    match goal with |- sP (set sP (fun _ => ?p) s1) = _ => change (p = ticked uf (sP s) <| p_dt := y_pace (p_CFL (sP s)) w h (crits (sL s1)) (y_fast SC B) |>) end.
    rewrite PT. rewrite (f_equal p_CFL EP). reflexivity.
  - rewrite PT. exact HX.
  - rewrite PT. exact HY.
  - exact LM.
  - exact LQ.
  - apply proper_nodes. exact H1.
  - exact NK.
Qed.

Lemma paced_pass uf fill (s : state R) tr s' tr' S0 : paced s ->
  all_live (sL s) (fun _ p => in_dom (pG (sP s)) (px p)) -> sol0 (sL s) = Ok S0 -> pass uf fill s tr = Ok (s', tr') ->
  0 < y_fast (ambient_of (sP s) (s_rho S0) (uf (sP s)) (sG s)) (cloud (sP s) (sL s)) ->
  paced s' /\ sol0 (sL s') = Ok S0 /\ map ph_sol (sL s') = map ph_sol (sL s) /\ (counted (sL s) -> counted (sL s')) /\
  (bv (sG s') = bv (sG s) /\ bh (sG s') = bh (sG s) /\ bconv (sG s') = bconv (sG s) /\ gV (sG s') = gV (sG s)).
Proof.
  intros HW HD H0 X HF. destruct (p_C109_pass uf fill s tr s' tr' S0 HW HD H0 X) as [EP _].
  pose proof HW as [H1 H2 H3 H4 H5 H6 H7 H8 H9 H10 H11 H12]. pose proof H5 as (Hs & Hc & _).
  assert (RR : reach uf fill s s') by (eapply reach_S; [apply reach_0|exact X]).
  destruct (p_C82_mesh R Num_R uf fill s s' RR) as [ME HM]. specialize (HM (no_rub_mu _ H6)). destruct HM as [MV MH].
  assert (E1 : exists s1, time_march uf fill s = Ok s1 /\ sL s' = sL s1 /\ sG s' = sG s1).
  { unfold pass in X. apply bind_ok in X. destruct X as (s1 & E1 & X). exists s1. split; [exact E1|].
    cbv zeta in X. destruct (p_tf (sP s1) =? n0)%num; [discriminate|]. apply bind_ok in X. destruct X as (b & _ & X).
    apply bind_ok in X. destruct X as (dt & _ & X). injection X as <- _. split; reflexivity. }
  destruct E1 as (s1 & E1 & EL & EG).
  destruct (local_keeps uf fill s s1 H1 H2 HD H5 H3 H4 E1) as (K1 & K2 & K3 & K4).
  split; [|split; [rewrite EL; eapply sol0_map; eauto|split; [rewrite EL; exact K1|split; [rewrite EL; exact K4|]]]].
  - constructor; rewrite ?EP; unfold y_clock, ticked; try assumption; rewrite ?EL; try assumption.
    + rewrite EG. apply (march_geo uf fill s s1); assumption.
    + cbn [p_dt set]. destruct H10 as (w & h & HX & HY & Hw & Hh).
      change (pG (sP s)) with (pG (sP s)) in *. rewrite HX, HY. apply pace_pos; assumption.
    + rewrite (crits_sol _ _ K1). exact H12.
  - split; [exact MV|]. split; [exact MH|]. unfold mesh in ME. split; injection ME; auto.
Qed.
Lemma y_run_grid uf rho ts n : forall P (G G' : grid R) B, bv G' = bv G -> bh G' = bh G -> bconv G' = bconv G -> gV G' = gV G ->
  y_run uf rho ts n P G' B = y_run uf rho ts n P G B.
Proof.
  induction n as [|n IH]; intros P G G' B A1 A2 A3 A4; [reflexivity|]. cbn [y_run]. cbv zeta. rewrite (ambient_grid P rho _ G G') by assumption. apply IH; assumption.
Qed.

(** A run that chooses its own time steps has the time steps and the points of the specification, pass by pass, as long
    as the specification, run on its own, keeps its points in the domain and something moves. *)
Lemma p_C109_run : forall uf fill n (s : state R) tr s' tr' S0, paced s -> sol0 (sL s) = Ok S0 ->
  (forall j, (j < n)%nat -> let (P, B) := y_run uf (s_rho S0) (crits (sL s)) j (sP s) (sG s) (cloud (sP s) (sL s)) in
     Forall (fun q => in_dom (pG (sP s)) (z_x q)) B /\ 0 < y_fast (ambient_of P (s_rho S0) (uf P) (sG s)) B) ->
  after uf fill n s tr = Ok (s', tr') ->
  (sP s', cloud (sP s) (sL s')) = y_run uf (s_rho S0) (crits (sL s)) n (sP s) (sG s) (cloud (sP s) (sL s)).
Proof.
  intros uf fill n. induction n as [|n IH]; intros s tr s' tr' S0 HW H0 HI E.
  - cbn [after] in E. injection E as <- _. reflexivity.
  - cbn [after] in E. destruct (pass uf fill s tr) as [[s1 tr1]|] eqn:E1; [|discriminate].
    pose proof (HI 0%nat (Nat.lt_0_succ n)) as HI0. cbn [y_run] in HI0. destruct HI0 as [HI0 HF].
    assert (HD := cloud_live (sP s) (sL s) (fun x => in_dom (pG (sP s)) x) 0 HI0).
    destruct (p_C109_pass uf fill s tr s1 tr1 S0 HW HD H0 E1) as [EP EB].
    destruct (paced_pass uf fill s tr s1 tr1 S0 HW HD H0 E1 HF) as (W1 & H1 & SO & _ & (M1 & M2 & M3 & M4)).
    assert (CC : forall L, cloud (sP s1) L = cloud (sP s) L) by (intros L; apply cloud_pG; rewrite EP; reflexivity).
    assert (GG : pG (sP s1) = pG (sP s)) by (rewrite EP; reflexivity).
    assert (YY : forall j, y_run uf (s_rho S0) (crits (sL s1)) j (sP s1) (sG s1) (cloud (sP s1) (sL s1))
                 = y_run uf (s_rho S0) (crits (sL s)) (Datatypes.S j) (sP s) (sG s) (cloud (sP s) (sL s))).
    { intros j. cbn [y_run]. cbv zeta. rewrite CC, EP, EB, (crits_sol _ _ SO). apply y_run_grid; assumption. }
    specialize (IH s1 tr1 s' tr' S0 W1 H1). rewrite YY, (CC (sL s')) in IH. apply IH; [|exact E].
    intros j Hj. specialize (HI (Datatypes.S j) (proj1 (Nat.succ_lt_mono j n) Hj)). rewrite YY, GG.
    destruct (y_run uf (s_rho S0) (crits (sL s)) (Datatypes.S j) (sP s) (sG s) (cloud (sP s) (sL s))) as [P B].
    rewrite (ambient_grid P _ _ (sG s) (sG s1)) by assumption. exact HI.
Qed.

(** The passes never fail, for all but the grains, as long as the points stay in the domain and something moves. *)
Lemma p_C109_total : forall uf fill n (s : state R) tr S0, paced s -> provided s -> sol0 (sL s) = Ok S0 ->
  (forall j, (j < n)%nat -> let (P, B) := y_run uf (s_rho S0) (crits (sL s)) j (sP s) (sG s) (cloud (sP s) (sL s)) in
     Forall (fun q => in_dom (pG (sP s)) (z_x q) /\ (p_check (sP s) = true -> vz (z_x q) = 0)) B /\
     0 < y_fast (ambient_of P (s_rho S0) (uf P) (sG s)) B) ->
  exists s' tr', after uf fill n s tr = Ok (s', tr') /\
    (sP s', cloud (sP s) (sL s')) = y_run uf (s_rho S0) (crits (sL s)) n (sP s) (sG s) (cloud (sP s) (sL s)).
Proof.
  intros uf fill n s tr S0 HW HV H0 HI.
  assert (T : exists r, after uf fill n s tr = Ok r).
  { revert s tr HW HV H0 HI. induction n as [|n IH]; intros s tr HW HV H0 HI; [eexists; reflexivity|].
    pose proof (HI 0%nat (Nat.lt_0_succ n)) as HI0. cbn [y_run] in HI0. destruct HI0 as [HI0 HF].
    assert (HD := cloud_live (sP s) (sL s) (fun x => in_dom (pG (sP s)) x /\ (p_check (sP s) = true -> vz x = 0)) 0 HI0).
    assert (HD' : all_live (sL s) (fun _ p => in_dom (pG (sP s)) (px p))) by (intros ph p A C; apply (HD ph p A C)).
    pose proof HV as [V1 V2 V3 V4 V5 V6 V7]. pose proof (pa_sealed _ HW) as (Hs & Hc & O1 & O2 & I1 & I2).
    assert (HR : ready s).
    { constructor; auto; try apply HW. rewrite O1. discriminate. }
    assert (PT : exists r, pass uf fill s tr = Ok r).
    { destruct (march_total uf fill s HR) as [s1 E]. pose proof (step_params _ _ _ _ E) as EP.
      unfold pass. rewrite E. cbn [bind]. cbv zeta.
      assert (E0 : (p_tf (sP s1) =? n0)%num = false).
      { rewrite EP. change (Reqb (p_tf (sP s)) 0 = false). unfold Reqb. destruct (Req_EM_T _ _); [contradiction|reflexivity]. }
      rewrite E0.
      assert (E1 : exists b, save_due (sP s1) = Ok b).
      { unfold save_due. rewrite EP. change (p_savetime (sP s <| p_loads := uf (sP s) |>)) with (p_savetime (sP s)).
        unfold nmod, Num_R. unfold Rmod. destruct (Req_EM_T (p_savetime (sP s)) 0); [contradiction|]. cbn [bind]. eauto. }
      destruct E1 as [b ->]. cbn [bind].
      destruct (pa_cells _ HW) as (w & h & HX & HY & _).
      destruct (node_moments uf fill s s1 S0 (pa_proper _ HW) (pa_grid _ HW) HD' (pa_sealed _ HW) (pa_rub _ HW) (pa_laws _ HW) (pa_own _ HW) (pa_dt _ HW) (pa_tol _ HW) H0 E) as (LM & LQ & NK).
      match goal with |- context [dynamic_dt ?p ?g ?l] => assert (ED : exists d, dynamic_dt p g l = Ok d);
        [eexists; eapply (dt_of_nodes p g l _ _ _ w h); [| |exact LM|exact LQ|apply proper_nodes, (pa_proper _ HW)|exact NK]; rewrite EP; assumption|destruct ED as [d ->]] end.
      match goal with |- context [if ?c then Ok d else _] => destruct c end; cbn [bind]; eexists; reflexivity. }
    destruct PT as [[s1 tr1] E1]. cbn [after]. rewrite E1.
    destruct (p_C109_pass uf fill s tr s1 tr1 S0 HW HD' H0 E1) as [EP EB].
    destruct (paced_pass uf fill s tr s1 tr1 S0 HW HD' H0 E1 HF) as (W1 & H1 & SO & K & (M1 & M2 & M3 & M4)).
    assert (CC : forall L, cloud (sP s1) L = cloud (sP s) L) by (intros L; apply cloud_pG; rewrite EP; reflexivity).
    assert (GG : pG (sP s1) = pG (sP s) /\ p_check (sP s1) = p_check (sP s)) by (rewrite EP; split; reflexivity). destruct GG as [GG GC].
    assert (YY : forall j, y_run uf (s_rho S0) (crits (sL s1)) j (sP s1) (sG s1) (cloud (sP s1) (sL s1))
                 = y_run uf (s_rho S0) (crits (sL s)) (Datatypes.S j) (sP s) (sG s) (cloud (sP s) (sL s))).
    { intros j. cbn [y_run]. cbv zeta. rewrite CC, EP, EB, (crits_sol _ _ SO). apply y_run_grid; assumption. }
    apply (IH s1 tr1 W1); [|exact H1|].
    - constructor; rewrite ?EP; unfold y_clock, ticked; try assumption; auto.
      + destruct V2 as (S1 & A & C). exists S1. split; [eapply sol0_map; eauto|]. exact (sol_in _ _ (equipped S1) SO C).
      + intros ph A. destruct (map_in_sol _ _ _ SO A) as (ph0 & A0 & <-). apply (V3 ph0 A0).
    - intros j Hj. specialize (HI (Datatypes.S j) (proj1 (Nat.succ_lt_mono j n) Hj)). rewrite YY, GG, GC.
      destruct (y_run uf (s_rho S0) (crits (sL s)) (Datatypes.S j) (sP s) (sG s) (cloud (sP s) (sL s))) as [P B].
      rewrite (ambient_grid P _ _ (sG s) (sG s1)) by assumption. exact HI. }
  destruct T as [[s' tr'] T]. exists s', tr'. split; [exact T|].
  apply (p_C109_run uf fill n s tr s' tr' S0 HW H0); [|exact T].
  intros j Hj. specialize (HI j Hj). destruct (y_run _ _ _ j _ _ _) as [P B]. destruct HI as [HI HF]. split; [|exact HF].
  eapply Forall_impl; [|exact HI]. intros q [X _]. exact X.
Qed.

(** The example: an intruder in free space that moves at speed one. *)
Definition solo_params : params R := ex_params ex_bounds <| p_dynamic := true |> <| p_CFL := 1 / 2 |> <| p_intruder_v := Some (mkV3 1 0 0) |>.
Definition solo_state (G : grid R) : state R := mkState solo_params G [mkPhase (mix_solid Rigid) 1 v0 [ex_particle (1/4) (1/2) (mkV3 1 0 0) m0]].
Definition still_loads (P : params R) : loads R := mkLoads 0 0 0 0.

Lemma solo_paced G : grid_ok ex_gridp G -> paced (solo_state G).
Proof.
  intros OK. constructor; try reflexivity; try (cbn; unfold lit; unR; lra).
  - exact ex_proper.
  - exact OK.
  - intros ph [<-|[]]. cbn. intros p [<-|[]]. reflexivity.
  - intros ph p [<-|[]] [<-|[]]; eexists; reflexivity.
  - repeat split; reflexivity.
  - left. reflexivity.
  - exists 1, 1. cbn. repeat split; lra.
  - intros c [].
Qed.
Lemma solo_provided G : provided (solo_state G).
Proof.
  constructor; try reflexivity; try (cbn; unfold lit; unR; lra).
  - intros ph [<-|[]]; reflexivity.
  - exists (mix_solid Rigid). split; [reflexivity|]. intros ph [<-|[]]; unfold equipped; cbn [s_law ph_sol mix_solid]; unfold has; cbn; repeat split; try discriminate; auto.
  - intros ph _ _. discriminate.
Qed.
Lemma solo_fast G : wall_free (bv G) (bh G) -> let s := solo_state G in y_fast (ambient_of (sP s) 2 (still_loads (sP s)) (sG s)) (cloud (sP s) (sL s)) = 1.
Proof.
  intros WF. cbv zeta. set (E := ambient_of _ _ _ _). set (B := cloud _ _).
  assert (EB : B = [mkPoint Intruder 2 1 (mkV3 (1/4) (1/2) 0) (mkV3 1 0 0) m0 v0 true]) by (cbn; unfold lit; unR; reflexivity).
  set (B1 := map (z_strained E B) B). set (q := mkPoint Intruder 2 1 (mkV3 (1/4) (1/2) 0) (mkV3 1 0 0) m0 v0 true) in *.
  assert (GE : a_g E = v0) by (cbn; unR; rewrite !Rmult_0_l; reflexivity).
  assert (F1 : forall a k, z_force E B1 a k = 0).
  { intros a k. unfold B1. rewrite EB. cbn [map]. set (d := z_strain E [q] q). unfold z_force, z_strained. cbn [map Rsum fold_right z_m z_b z_s z_V z_x z_first q]. rewrite GE.
    fold q. fold d.
    assert (ZS : forall x y, el x y (z_stress E q d) = 0).
    { intros x y. unfold z_stress. rewrite el_m3. unfold z_base, z_material, over. cbn [z_stuff q z_s].
      assert (M0 : forall u w, el u w (@m0 R Num_R) = 0) by (intros [] []; reflexivity). rewrite !M0. ring. }
    unfold over. rewrite !ZS. rewrite comp_v0. unfold z_shed. cbn [z_stuff q]. ring. }
  assert (OP : forall a k, a_open E a k = 1 \/ a_open E a k = 0).
  { intros a k. cbn. unfold SpecScheme.passes. destruct a; repeat match goal with |- context [if ?c then _ else _] => destruct c end; auto. }
  assert (MX : forall k, y_mom E B B1 AX k = a_open E AX k * z_mass E B k).
  { intros k. unfold y_mom. cbn [a_belt ambient_of E]. change (conveyor (pB (sP (solo_state G)))) with false. cbv iota. fold E. rewrite F1.
    change (a_load E AX k) with 0. unfold z_mass. rewrite EB. cbn [map Rsum fold_right q z_m z_v comp vx z_x]. ring. }
  assert (SX : forall k, y_speed E B B1 AX k = if Req_EM_T (z_mass E B k) 0 then 0 else 1).
  { intros k. unfold y_speed. destruct (Req_EM_T _ _) as [Z|NZ]; [reflexivity|].
    rewrite MX. assert (O1 : a_open E AX k = 1).
    { destruct (WF k) as [W1 W2]. change (SpecScheme.passes false G AX k = 1). unfold SpecScheme.passes. rewrite W1, W2. reflexivity. }
    rewrite O1, Rmult_1_l. unfold Rdiv. rewrite Rinv_r by exact NZ. apply Rabs_R1. }
  assert (SY : forall k, y_speed E B B1 AY k = 0).
  { intros k. unfold y_speed. destruct (Req_EM_T _ _) as [Z|NZ]; [reflexivity|].
    assert (Y : y_mom E B B1 AY k = 0).
    { unfold y_mom. rewrite F1. change (a_load E AY k) with 0. rewrite EB. cbn [map Rsum fold_right q z_m z_v comp vy z_x]. ring. }
    rewrite Y. unfold Rdiv. rewrite Rmult_0_l. apply Rabs_R0. }
  assert (M0 : z_mass E B 0 <> 0).
  { unfold z_mass. rewrite EB. cbn [map Rsum fold_right q z_m z_x]. change (a_P E) with (@ex_gridp R Num_R). unfold hat.
    cbn [vx vy]. assert (CW : cell_w (@ex_gridp R Num_R) = 1) by (unfold cell_w; cbn; unR; field).
    assert (CH : cell_h (@ex_gridp R Num_R) = 1) by (unfold cell_h; cbn; unR; field).
    assert (NX : node_x (@ex_gridp R Num_R) 0 = 0) by (unfold node_x; cbn; unR; ring).
    assert (NY : node_y (@ex_gridp R Num_R) 0 = 0) by (unfold node_y; cbn; unR; ring).
    rewrite CW, CH, NX, NY. rewrite !tent_left by lra. lra. }
  unfold y_fast. cbv zeta. fold B1. destruct (fold_right_max (map (fun k => Rmax (y_speed E B B1 AX k) (y_speed E B B1 AY k)) (seq 0 (a_nodes E)))) as (U1 & U2 & U3).
  apply Rle_antisym.
  - destruct U3 as [<-|U3]; [lra|]. apply in_map_iff in U3. destruct U3 as (k & <- & _). rewrite SX, SY. destruct (Req_EM_T _ _); apply Rmax_lub; lra.
  - apply U2. apply in_map_iff. exists 0%nat. split; [|apply in_seq; split; [lia|cbn; lia]].
    rewrite SX, SY. destruct (Req_EM_T _ _); [contradiction|]. apply Rmax_left. lra.
Qed.

(** The intruder makes its first pass with the time step of the script and then takes the time in which it crosses the
    twentieth part of a cell. *)
Example x_C109_total : forall fill, exists (s : state R) S0, paced s /\ provided s /\ sol0 (sL s) = Ok S0 /\
  (forall j, (j < 1)%nat -> let (P, B) := y_run still_loads (s_rho S0) (crits (sL s)) j (sP s) (sG s) (cloud (sP s) (sL s)) in
     Forall (fun q => in_dom (pG (sP s)) (z_x q) /\ (p_check (sP s) = true -> vz (z_x q) = 0)) B /\
     0 < y_fast (ambient_of P (s_rho S0) (still_loads P) (sG s)) B) /\
  p_dt (sP s) = 1 / 10 /\ exists s' tr', after still_loads fill 1 s [] = Ok (s', tr') /\ p_dt (sP s') = 1 / 20.
Proof.
  intros fill. destruct (grid_init_ok ex_gridp ex_bounds ex_proper) as (G & EG & OK).
  pose proof (solo_fast G (no_walls G EG OK)) as SF. cbv zeta in SF.
  set (s := solo_state G) in *. assert (W : paced s) by (apply solo_paced; exact OK). assert (V : provided s) by apply solo_provided.
  assert (RH : s_rho (mix_solid Rigid) = 2) by reflexivity.
  assert (H : forall j, (j < 1)%nat -> let (P, B) := y_run still_loads (s_rho (mix_solid Rigid)) (crits (sL s)) j (sP s) (sG s) (cloud (sP s) (sL s)) in
     Forall (fun q => in_dom (pG (sP s)) (z_x q) /\ (p_check (sP s) = true -> vz (z_x q) = 0)) B /\
     0 < y_fast (ambient_of P (s_rho (mix_solid Rigid)) (still_loads P) (sG s)) B).
  { intros [|j] Hj; [|lia]. cbn [y_run]. split; [repeat constructor; cbn; unfold lit; unR; lra|]. rewrite RH, SF. lra. }
  exists s, (mix_solid Rigid). split; [exact W|]. split; [exact V|]. split; [reflexivity|]. split; [exact H|]. split; [reflexivity|].
  destruct (p_C109_total still_loads fill 1 s [] (mix_solid Rigid) W V eq_refl H) as (s' & tr' & A & C).
  exists s', tr'. split; [exact A|]. cbn [y_run] in C. cbv zeta in C. rewrite RH, SF in C. injection C as C _. rewrite C.
  unfold y_clock. cbn [p_dt set]. change (1 / 2 * (1 / 10 * Rmin 1 1 / 1) = 1 / 20). rewrite Rmin_left by lra. lra.
Qed.
