(** * A run is a run of the textbook scheme: C84. *)
From Coq Require Import ZArith Reals List Bool Arith Lra Lia.
From Verif Require Import State NumR Spec SpecLaws SpecStep SpecScheme LibList LibR ModelGrid ModelConstit ModelParticle ModelMPList
  ModelIntegr ModelMain ProofsGrid ProofsMap ProofsP2G ProofsWalls ProofsLaws ProofsInOut ProofsHist Concrete
  ThmMapping ThmWalls ThmLaws ThmInOut ThmHist ProofsStep ProofsPoints ThmStep ThmBalance ThmEnergy ThmFall ThmGeo ProofsScheme.
Import ListNotations.
Local Open Scope R_scope.

(** ** C84 *)
Definition simple_laws (L : list (phase R)) : Prop :=
  forall ph, In ph L -> s_law (ph_sol ph) = Elastic \/ s_law (ph_sol ph) = Viscous.

Lemma Rltb_dec {A} x y (u v : A) : (if Rltb x y then u else v) = (if Rlt_dec x y then u else v).
Proof. destruct (Rltb x y) eqn:B; destruct (Rlt_dec x y) as [D|D]; auto. - apply Rltb_true in B. contradiction. - apply Rltb_true in D. congruence. Qed.
Lemma open_passes a rough (G : grid R) k : open_a a rough (bv G) (bh G) k = passes rough G a k.
Proof. unfold passes. destruct a; reflexivity. Qed.
Lemma Rsum_map_map {A B} (f : A -> B) (c : B -> R) l : Rsum (map c (map f l)) = Rsum (map (fun a => c (f a)) l).
Proof. rewrite map_map. reflexivity. Qed.

Lemma moved_bodies P (G : grid R) (F : mp -> mp) L L' : Forall2 (phase_moved P G) L L' ->
  (forall ph p, In ph L -> In p (live ph) -> is_rigid (s_law (ph_sol ph)) = false /\ exists v, pv p = Own v) ->
  (forall k ph ph' p p', In ph L -> In p (live ph) -> ph_sol ph' = ph_sol ph -> moved P G p p' ->
     mp_of k ph' p' = F (mp_of k ph p)) -> forall k, bodies_from k L' = map F (bodies_from k L).
Proof.
  intros HR HV HF. induction HR as [|ph ph' L L' (A1 & A2 & A3 & A4 & _) HR IH]; intros k; [reflexivity|].
  cbn [bodies_from]. rewrite map_app. f_equal.
  - assert (X : forall p p', In p (live ph) -> moved P G p p' -> mp_of k ph' p' = F (mp_of k ph p)) by (intros; apply HF; auto; left; auto).
    assert (NR : live ph <> [] -> is_rigid (s_law (ph_sol ph)) = false).
    { intros N. destruct (live ph) as [|p l] eqn:EL; [congruence|]. apply (HV ph p); [left; auto|rewrite EL; left; auto]. }
    rewrite map_map. clear - A4 X NR. destruct (live ph) as [|p0 l0] eqn:EL.
    + inversion A4. reflexivity.
    + rewrite NR in A4 by discriminate. clear NR EL. revert X A4. generalize (p0 :: l0). intros l X A4.
      induction A4 as [|p p' l l' H A4 IH]; [reflexivity|]. cbn [map]. f_equal.
      * apply X; auto. left; reflexivity.
      * apply IH. intros q q' Hq. apply X. right. exact Hq.
  - apply IH; [intros q p Q; apply HV; right; exact Q|intros j q q' p p' Q; apply HF; right; exact Q].
Qed.

(** One step of the code is one step of the scheme: the points of the new state are exactly what the scheme of
    SpecScheme.v gives for the points of the old one. *)
Lemma p_C84_step : forall uf fill (s s' : state R), proper (pG (sP s)) -> grid_ok (pG (sP s)) (sG s) ->
  all_live (sL s) (fun _ p => in_dom (pG (sP s)) (px p)) -> shut (sP s) -> no_rub (pB (sP s)) ->
  simple_laws (sL s) -> own_velocities (sL s) -> no_surface (sP s) (uf (sP s)) ->
  time_march uf fill s = Ok s' ->
  bodies (sL s') = t_step (scheme_of (sP s) (uf (sP s)) (sG s)) (bodies (sL s)).
Proof.
  intros uf fill s s' HP HG HD HS NR HL HO (LV & LH) E.
  pose proof HS as (Hs & Hc & Hv & O1 & O2 & I1 & I2).
  destruct (march_stages uf fill s s' HP HG HD Hs Hc E) as
    (S1 & L1 & L3 & L4 & L5 & G1 & G3 & G4 & G5 & G6 & HS1 & E1 & R1 & R3 & E2 & F1 & E3 & R4 & F3 & Lo & E4 & LF & E5 & Z4 & Z5 & E6 & EP & EG & PM & EI).
  set (P := sP s <| p_loads := uf (sP s) |>) in *. set (Pg := pG (sP s)) in *.
  set (SC := scheme_of (sP s) (uf (sP s)) (sG s)). set (B := bodies (sL s)).
  destruct (force_loop_spec P L4 G3 G4 LF E4) as (F4 & _ & FI & FE).
  pose proof (BCs_frame _ _ _ _ E5) as F5. destruct (um_shape P G5 G6 E6) as [F6 _].
  pose proof (p_C49_surface_loads P (s_rho S1) G4 G5 Z4 HP) as SL.
  destruct (wipe_geo (sP s) (sG s)) as (W1 & W2 & _ & _ & _ & W6 & W7 & _).
  assert (M1 := p2g_all_mass P L3 (wipe (sP s) (sG s)) G1 (wipe_lens (sP s) (sG s)) E2).
  assert (Q1 := p2g_all_mom P L3 (wipe (sP s) (sG s)) G1 (wipe_lens (sP s) (sG s))).
  rewrite W6, W7 in Q1. specialize (Q1 (go_bv _ _ HG) (go_bh _ _ HG) E2).
  destruct M1 as (Lm1 & _ & M1). destruct Q1 as (Lq1 & Q1).
  unfold frame_all in F1. unfold vis_frame in F3. unfold frame_f in F4. unfold force_frame in F5.
  assert (EX : forall k, nth k (gext G4) v0 = v0).
  { intros k. rewrite F4. cbn. rewrite F3. cbn. rewrite F1. cbn. rewrite wipe_ext. apply nth_repeat_same. }
  assert (FI3 : gfi G3 = repeat v0 (nodes Pg)). { rewrite F3. cbn. rewrite F1. cbn. apply wipe_fi. }
  assert (FE3 : gfe G3 = repeat v0 (nodes Pg)). { rewrite F3. cbn. rewrite F1. cbn. apply wipe_fe. }
  assert (FI5 : gfi G5 = gfi G4) by (eapply BCs_fi; exact E5).
  assert (EQ5 : gq G5 = gq G1). { rewrite F5. cbn. rewrite F4. cbn. rewrite F3. reflexivity. }
  assert (EM6 : gm G6 = gm G1). { rewrite F6. cbn. rewrite F5. cbn. rewrite F4. cbn. rewrite F3. reflexivity. }
  assert (BV : bv G5 = bv (sG s) /\ bh G5 = bh (sG s)).
  { rewrite F5. cbn. rewrite F4. cbn. rewrite F3. cbn. rewrite F1. cbn. split; assumption. }
  destruct BV as [BV BH].
  specialize (SL EX E5). cbv zeta in SL.
  (* the located points *)
  assert (D1 : all_live L1 (fun ph p => exists v, pv p = Own v)).
  { eapply (Lrel_all_live _ (sL s) L1); [exact R1| |exact HO]. cbv beta. intros ph p ph' p' _ _ _ _ _ [b ->] X. exact X. }
  assert (D3 : all_live L3 (fun ph p => located Pg p /\ exists v, pv p = Own v)).
  { eapply (Lrel_all_live _ L1 L3); [exact R3| |exact D1]. cbv beta. intros ph p ph' p' _ _ _ _ _ [D ->] X.
    split; [apply locate_located; exact D|exact X]. }
  assert (B3 : bodies L3 = map (grav (e_g SC)) B).
  { unfold bodies. rewrite (Lrel_bodies _ (fun q => q) L1 L3 R3).
    - rewrite map_id. exact (gravity_bodies P (sL s) L1 E1).
    - cbv beta. intros k ph ph' p p' _ _ ES EV [_ ->]. unfold mp_of, velocity. rewrite ES, EV. reflexivity. }
  assert (HL3 : simple_laws L3).
  { intros ph A. destruct (map_in_sol (sL s) L3 ph) as (ph0 & A0 & <-); [rewrite (Lrel_sol _ _ _ R3); apply (Lrel_sol _ _ _ R1)|exact A|].
    apply HL; exact A0. }
  (* nodal mass and velocity *)
  assert (MK : forall k, nth k (gm G1) 0 = t_mass SC B k).
  { intros k. rewrite M1, wipe_m, Rplus_0_l. unfold mass_at.
    rewrite (psum_ext L3 _ (fun _ p => pm p * hat Pg (px p) k)).
    2:{ intros ph p A C. rewrite (wt_hat P p k HP); [reflexivity|apply (D3 ph p A C)]. }
    rewrite (psum_bodies (fun _ p => pm p * hat Pg (px p) k) (fun q => q_m q * hat Pg (q_x q) k) L3 (fun _ _ _ => eq_refl) 0%nat).
    change (bodies_from 0 L3) with (bodies L3). rewrite B3, Rsum_map_map. reflexivity. }
  assert (VK : forall a k, node_v P G1 a k = t_vel SC B a k).
  { intros a k. unfold node_v, t_vel. rewrite <- MK. change (p_Mtol P) with (e_tol SC). rewrite Rltb_dec.
    destruct (Rlt_dec _ _); [|reflexivity]. f_equal. rewrite Q1, wipe_q, comp_v0, Rplus_0_l, open_passes. cbn [SC e_open scheme_of]. f_equal.
    unfold mom_at. rewrite (psum_ext L3 _ (fun ph p => pm p * comp a (velocity ph p) * hat Pg (px p) k)).
    2:{ intros ph p A C. rewrite (wt_hat P p k HP); [change (pG P) with Pg; ring|apply (D3 ph p A C)]. }
    rewrite (psum_bodies (fun ph p => pm p * comp a (velocity ph p) * hat Pg (px p) k) (fun q => q_m q * comp a (q_v q) * hat Pg (q_x q) k) L3 (fun _ _ _ => eq_refl) 0%nat).
    change (bodies_from 0 L3) with (bodies L3). rewrite B3, Rsum_map_map. reflexivity. }
  (* strain and stress *)
  assert (R5 : Lrel (fun ph p p' => strained p p' /\ pm p' = pm p /\
     pstress p' = t_stress SC (mp_of 0 ph p) (t_strain SC B (mp_of 0 ph p)) /\
     ppressure p' = t_pressure (mp_of 0 ph p) (t_strain SC B (mp_of 0 ph p))) L3 L4).
  { unfold stress_strain in E3. pbinds E3. change (cyclic_lr (pB P)) with (cyclic_lr (pB (sP s))) in E3. rewrite Hc in E3. injection E3 as E3a E3b.
    match goal with H : points _ _ _ = Ok (?l, ?g) |- _ => rename H into EQ; rename l into La; rename g into Ga end.
    rewrite E3a in EQ.
    apply (points_rel (stress_one P a) (fun G => vis_frame G1 G)
      (fun ph p p' => strained p p' /\ pm p' = pm p /\
        pstress p' = t_stress SC (mp_of 0 ph p) (t_strain SC B (mp_of 0 ph p)) /\
        ppressure p' = t_pressure (mp_of 0 ph p) (t_strain SC B (mp_of 0 ph p))) L3 G1 L4 Ga) in EQ.
    - apply EQ.
    - apply vis_frame_refl.
    - intros k ph p G2 p' G2' A C V X. pose proof (stress_one_rel _ _ _ _ _ _ _ _ X) as (X1 & X2 & _ & X3).
      split; [exact (vis_frame_trans _ _ _ V X2)|]. split; [exact X1|].
      split; [apply X3; destruct (HL3 ph A) as [Q|Q]; rewrite Q; discriminate|].
      assert (EM : gm G2 = gm G1) by (rewrite V; reflexivity). assert (EQ2 : gq G2 = gq G1) by (rewrite V; reflexivity).
      destruct (stress_scheme P a k ph p p' G2 G2' (mp_of 0 ph p) SC HP) as [Y1 Y2]; auto.
      + apply (D3 ph p A C).
      + rewrite EM. exact Lm1.
      + rewrite EQ2. exact Lq1.
      + assert (EV : forall a k, node_v P G2 a k = t_vel SC B a k)
          by (intros; rewrite <- VK; unfold node_v; rewrite EM, EQ2; reflexivity).
        assert (ED : m3 (fun a b => p_dt P * fsum (nodes (pG P)) (fun j =>
           (node_v P G2 a j * ghat (pG P) (px p) b j + node_v P G2 b j * ghat (pG P) (px p) a j) / 2)) = t_strain SC B (mp_of 0 ph p)).
        { apply m3_ext. intros x y. unfold t_strain. rewrite !el_m3. cbn [SC e_dt scheme_of]. f_equal.
          apply fsum_ext. intros j Hj. rewrite !EV. reflexivity. }
        rewrite ED in Y1, Y2. split; assumption. }
  assert (D4 : all_live L4 (fun ph p => located Pg p /\ exists v, pv p = Own v)).
  { eapply (Lrel_all_live _ L3 L4); [exact R5| |exact D3]. cbv beta. intros ph p ph' p' _ _ _ _ _ (X & _) [Y Z].
    split; [eapply strained_located; eauto|]. unfold strained, law_frame in X. rewrite X. exact Z. }
  assert (B4 : bodies L4 = map (t_strained SC B) B).
  { unfold bodies. rewrite (Lrel_bodies _ (fun q => mkMp (q_mat q) (q_m q) (q_V q) (q_x q) (q_v q) (t_stress SC q (t_strain SC B q))
        (t_pressure q (t_strain SC B q)) (q_b q) (q_first q)) L3 L4 R5).
    - change (bodies_from 0 L3) with (bodies L3). rewrite B3, map_map. apply map_ext. intros q. reflexivity.
    - cbv beta. intros k ph ph' p p' _ _ ES EV (X & X1 & X2 & X3). unfold mp_of at 1. rewrite ES, X1, X2, X3.
      unfold strained, law_frame in X. unfold velocity. rewrite EV. rewrite X. reflexivity. }
  (* forces *)
  assert (FK : forall a k, (k < nodes Pg)%nat -> net_force P G5 a k = e_damp SC * t_force SC (map (t_strained SC B) B) a k).
  { intros a k Hk. unfold net_force. change (if p_damping P then 7/10 else 1) with (e_damp SC). f_equal. rewrite FI5.
    assert (PZ : forall n i, push n i 0 = 0). { intros n i. unfold push. destruct (Nat.eqb i 0), (Nat.eqb i (n - 1)); lra. }
    destruct (SL k Hk) as (A1 & A2 & A3).
    change (pB P) with (pB (sP s)) in A1, A2. change (p_loads P) with (uf (sP s)) in A1, A2.
    assert (Z2 : comp a (nth k (gfe G5) v0) = comp a (nth k (gfe G4) v0)).
    { destruct a; cbn [comp].
      - rewrite A1. destruct (horizontal_force (pB (sP s))); [|lra]. rewrite (LH eq_refl), PZ. unfold Rdiv. ring.
      - rewrite A2. destruct (vertical_force (pB (sP s))); [|lra]. rewrite (LV eq_refl), PZ. unfold Rdiv. ring.
      - exact A3. }
    rewrite Z2, FI, FE, FI3, FE3, nth_repeat_same, comp_v0, !Rplus_0_l.
    transitivity (psum L4 (fun _ p => pm p * comp a (pb p) * hat Pg (px p) k - pV p * over (fun b => el a b (pstress p) * ghat Pg (px p) b k))).
    - transitivity (psum L4 (fun _ p => pm p * wt P p k * comp a (pb p) + -1 * fint_at P p a k)); [rewrite psum_plus, psum_scal; lra|].
      apply psum_ext. intros ph p A C. destruct (D4 ph p A C) as [Y _]. rewrite (wt_hat P p k HP Y), (fint_ghat P p a k HP Y).
        change (pG P) with Pg. ring.
    - rewrite (psum_bodies (fun _ p => pm p * comp a (pb p) * hat Pg (px p) k - pV p * over (fun b => el a b (pstress p) * ghat Pg (px p) b k)) (fun q => q_m q * comp a (q_b q) * hat Pg (q_x q) k - q_V q * over (fun b => el a b (q_s q) * ghat Pg (q_x q) b k)) L4 (fun _ _ _ => eq_refl) 0%nat).
      change (bodies_from 0 L4) with (bodies L4). rewrite B4. reflexivity. }
  set (B1 := map (t_strained SC B) B) in *.
  assert (AK : forall a k, (k < nodes Pg)%nat -> node_acc P G6 a k = t_acc SC B B1 a k).
  { intros a k Hk. unfold node_acc, t_acc. rewrite EM6, MK. change (p_Mtol P) with (e_tol SC). rewrite Rltb_dec.
    destruct (Rlt_dec _ _); [|reflexivity]. f_equal. rewrite (no_rub_rate P G5 G6 Z5 E6 NR), FK by exact Hk.
    rewrite BV, BH, open_passes. reflexivity. }
  assert (VK6 : forall a k, (k < nodes Pg)%nat -> node_v P G6 a k = t_vel SC B a k + e_dt SC * t_acc SC B B1 a k).
  { intros a k Hk. rewrite <- AK, <- VK by exact Hk. unfold node_v, node_acc. rewrite EM6.
    destruct (Rltb _ _); [|lra].
    destruct (um_q P G5 G6 Z5 E6 k Hk) as [U1 U2]. assert (CP : conveyor (pB P) = false) by exact Hv. rewrite CP in U1. cbn [andb] in U1.
    rewrite EQ5 in U1, U2. assert (U : comp a (nth k (gq G6) v0) = comp a (nth k (gq G1) v0) + p_dt P * comp a (nth k (gqd G6) v0))
      by (destruct a; [exact U1|apply U2; discriminate..]).
    rewrite U. change (e_dt SC) with (p_dt P). unfold Rdiv. ring. }
  (* the move *)
  assert (IO : inout P L5 = Ok L5).
  { unfold inout. change (pB P) with (pB (sP s)). rewrite O1, O2, I1, I2, Hc. reflexivity. }
  rewrite IO in EI. injection EI as EI. rewrite <- EI.
  assert (B5 : bodies L5 = map (t_moved SC B B1) (bodies L4)).
  { unfold bodies. apply (moved_bodies P G6 (t_moved SC B B1) L4 L5 PM).
    - intros ph p A C. split; [|apply (D4 ph p A C)].
      destruct (map_in_sol L3 L4 ph (Lrel_sol _ _ _ R5) A) as (ph0 & A0 & <-). destruct (HL3 ph0 A0) as [Q|Q]; rewrite Q; reflexivity.
    - intros k ph ph' p p' A C ES (Y1 & Y2 & Y3). destruct (D4 ph p A C) as [LO [v V]]. rewrite V in Y3. destruct Y3 as (v' & V1 & V2).
      assert (PX : px p' = v3 (fun a => comp a (px p) + e_dt SC * fsum (nodes Pg) (fun k => hat Pg (px p) k * (t_vel SC B a k + e_dt SC * t_acc SC B B1 a k)))).
      { apply v3_ext. intros a. rewrite Y2. transitivity (comp a (px p) + e_dt SC * fsum (nodes Pg) (fun k => hat Pg (px p) k * (t_vel SC B a k + e_dt SC * t_acc SC B B1 a k))); [|destruct a; reflexivity].
        change (e_dt SC) with (p_dt P) at 1. do 2 f_equal. apply fsum_ext. intros j Hj. rewrite VK6 by exact Hj. reflexivity. }
      assert (PV : v' = v3 (fun a => comp a v + e_dt SC * fsum (nodes Pg) (fun k => hat Pg (px p) k * t_acc SC B B1 a k))).
      { apply v3_ext. intros a. rewrite V2. transitivity (comp a v + e_dt SC * fsum (nodes Pg) (fun k => hat Pg (px p) k * t_acc SC B B1 a k)); [|destruct a; reflexivity].
        change (e_dt SC) with (p_dt P). do 2 f_equal. apply fsum_ext. intros j Hj. rewrite AK by exact Hj. reflexivity. }
      unfold mp_of at 1. unfold velocity at 1. rewrite V1, PX, PV, ES. unfold t_moved, mp_of, velocity. rewrite V.
      cbn [q_mat q_m q_V q_x q_v q_s q_p q_b q_first]. rewrite Y1. cbn [pm pV pstress ppressure pb set]. reflexivity. }
  rewrite B5, B4. reflexivity.
Qed.

(** A moving, stressed body in a box, under gravity. *)
Example x_C84_step : forall uf fill, exists s s' : state R, proper (pG (sP s)) /\ grid_ok (pG (sP s)) (sG s) /\
  all_live (sL s) (fun _ p => in_dom (pG (sP s)) (px p)) /\ shut (sP s) /\ no_rub (pB (sP s)) /\
  simple_laws (sL s) /\ own_velocities (sL s) /\ no_surface (sP s) (uf (sP s)) /\
  closed (pG (sP s)) (sG s) /\ (length (bodies (sL s)) = 2)%nat /\ ~ all_live (sL s) (fun _ p => pstress p = m0) /\ time_march uf fill s = Ok s'.
Proof.
  intros uf fill. destruct (grid_init_ok ex_gridp ex_box ex_proper) as (G & EG & OK).
  pose proof (ex_ready ex_box G EG OK eq_refl eq_refl eq_refl Elastic (or_introl eq_refl)) as HR.
  destruct (march_total uf fill _ HR) as [s' E]. exists (start (ex_params ex_box) G Elastic), s'.
  split; [exact ex_proper|]. split; [exact OK|]. split; [intros ph p A C; apply (ex_dom Elastic ph p A C)|].
  split; [repeat split; reflexivity|]. split; [left; reflexivity|]. split; [intros ph [<-|[]]; left; reflexivity|].
  split; [intros ph p [<-|[]] [<-|[<-|[]]]; eexists; reflexivity|].
  split; [split; discriminate|]. split; [|split; [reflexivity|split; [|exact E]]].
  - intros k Hk. destruct (p_C10_wall_masks R Num_R ex_gridp ex_box G EG) with (k := k) as (A & B & _); [repeat split; reflexivity|exact Hk|].
    cbn [start sP sG ex_params pG]. cbn [has_bottom has_top has_left has_right no_slip_bottom ex_box] in A, B.
    split; intros [C|C]; [apply B|apply B|apply A|apply A]; auto.
  - intros H. specialize (H (ex_phase Elastic) ex_p1 (or_introl eq_refl) (or_introl eq_refl)).
    apply (f_equal (@xx R)) in H. cbn in H. unR. lra.
Qed.

Lemma no_rub_mu B : no_rub B -> roughness B = false \/ truthy_mu (wall_mu B) = None.
Proof.
  intros [H|[H|H]]; [left; exact H|right; rewrite H; reflexivity|right; rewrite H]. unfold truthy_mu.
  change ((0 =? n0)%num) with (Reqb 0 0). unfold Reqb. destruct (Req_EM_T 0 0); [reflexivity|contradiction].
Qed.
Lemma scheme_masks P l (G G' : grid R) : bv G' = bv G -> bh G' = bh G -> scheme_of P l G' = scheme_of P l G.
Proof. intros A B. unfold scheme_of, passes. rewrite A, B. reflexivity. Qed.
Lemma t_run_masks uf n : forall P (G G' : grid R) B, bv G' = bv G -> bh G' = bh G -> t_run uf n P G' B = t_run uf n P G B.
Proof. induction n as [|n IH]; intros P G G' B A C; [reflexivity|]. cbn [t_run]. rewrite (scheme_masks P _ G G' A C). apply IH; assumption. Qed.
Lemma pass_fixed uf fill (s : state R) tr s' tr' : p_dynamic (sP s) = false -> pass uf fill s tr = Ok (s', tr') ->
  exists s1, time_march uf fill s = Ok s1 /\ sL s' = sL s1 /\ sG s' = sG s1 /\ sP s' = ticked uf (sP s).
Proof.
  intros Hd E. unfold pass in E. apply bind_ok in E. destruct E as (s1 & E1 & E). exists s1.
  pose proof (step_params _ _ _ _ E1) as EP. cbv zeta in E. destruct (p_tf (sP s1) =? n0)%num; [discriminate|].
  apply bind_ok in E. destruct E as (b & _ & E).
  replace (p_dynamic (sP s1 <| p_t := (p_t (sP s1) + p_dt (sP s1))%num |> <| p_tstep := (p_tstep (sP s1) + 1)%Z |>)) with false in E
    by (rewrite EP; symmetry; exact Hd).
  cbn [bind] in E. injection E as <- _. split; [exact E1|]. split; [reflexivity|]. split; [reflexivity|].
  cbn [sP set]. rewrite EP. unfold ticked. destruct (sP s). reflexivity.
Qed.
Lemma bodies_live L (Q : V3 R -> Prop) : forall k, Forall (fun q => Q (q_x q)) (bodies_from k L) -> all_live L (fun _ p => Q (px p)).
Proof.
  induction L as [|ph L IH]; intros k H ph0 p0 A C; [destruct A|]. cbn [bodies_from] in H. apply Forall_app in H. destruct H as [H1 H2].
  destruct A as [<-|A]; [|exact (IH _ H2 ph0 p0 A C)].
  rewrite Forall_forall in H1. apply (H1 (mp_of k ph p0)). apply in_map. exact C.
Qed.

(** What a run of the scheme needs from the state it starts with. *)
Record plain (s : state R) : Prop := {
  pl_proper : proper (pG (sP s));
  pl_grid : grid_ok (pG (sP s)) (sG s);
  pl_count : counted (sL s);
  pl_laws : simple_laws (sL s);
  pl_equip : exists S0, sol0 (sL s) = Ok S0 /\ forall ph, In ph (sL s) -> equipped S0 (ph_sol ph);
  pl_own : own_velocities (sL s);
  pl_shut : shut (sP s);
  pl_rub : no_rub (pB (sP s));
  pl_aniso : p_aniso (sP s) = false;
  pl_dt : p_dynamic (sP s) = false;
  pl_tf : p_tf (sP s) <> 0;
  pl_save : p_savetime (sP s) <> 0 }.

Lemma plain_ready s : plain s -> all_live (sL s) (fun _ p => in_dom (pG (sP s)) (px p) /\ (p_check (sP s) = true -> vz (px p) = 0)) -> ready s.
Proof.
  intros [H1 H2 H3 H4 H5 H6 (Hs & Hc & Hv & O1 & O2 & I1 & I2) H8 H9 H10 H11 H12] HD. constructor; auto.
  - intros ph A B. destruct (H4 ph A) as [C|C]; rewrite C in B; discriminate.
  - rewrite Hv. discriminate.
  - rewrite O1. discriminate.
Qed.

Lemma plain_step uf fill s tr s' tr' : plain s -> all_live (sL s) (fun _ p => in_dom (pG (sP s)) (px p)) ->
  no_surface (sP s) (uf (sP s)) -> pass uf fill s tr = Ok (s', tr') ->
  plain s' /\ sP s' = ticked uf (sP s) /\ bv (sG s') = bv (sG s) /\ bh (sG s') = bh (sG s) /\
  bodies (sL s') = t_step (scheme_of (sP s) (uf (sP s)) (sG s)) (bodies (sL s)).
Proof.
  intros HPl HD HN E. pose proof HPl as [H1 H2 H3 H4 H5 H6 H7 H8 H9 H10 H11 H12]. pose proof H7 as (Hs & Hc & _).
  assert (RR : reach uf fill s s') by (eapply reach_S; [apply reach_0|exact E]).
  destruct (p_C82_mesh R Num_R uf fill s s' RR) as [_ HM]. specialize (HM (no_rub_mu _ H8)). destruct HM as [MV MH].
  destruct (pass_fixed uf fill s tr s' tr' H10 E) as (s1 & E1 & EL & EG & EP).
  assert (HR : forall ph, In ph (sL s) -> s_law (ph_sol ph) <> Rigid) by (intros ph A C; destruct (H4 ph A) as [D|D]; rewrite D in C; discriminate).
  pose proof (march_points uf fill s s1 H1 H2 HD H7 HR E1) as PR. pose proof (Prel_sol _ _ _ PR) as SO.
  split; [|split; [exact EP|split; [exact MV|split; [exact MH|]]]].
  - constructor; rewrite ?EP; try assumption; unfold ticked; try assumption.
    + rewrite EG. apply (march_geo uf fill s s1); assumption.
    + rewrite EL. clear - PR H3. unfold counted in *. induction PR as [|ph ph' L L' (A1 & A2 & A3 & _) PR IH]; [intros ? []|].
      intros ph1 [<-|A]; [rewrite A2, A3; apply H3; left; reflexivity|apply IH; [intros; apply H3; right; assumption|exact A]].
    + rewrite EL. intros ph A. destruct (map_in_sol _ _ _ SO A) as (ph0 & A0 & <-). apply H4. exact A0.
    + destruct H5 as (S0 & A & B). exists S0. rewrite EL. split; [eapply sol0_map; eauto|]. exact (sol_in _ _ (equipped S0) SO B).
    + rewrite EL. eapply (Prel_all_live _ (sL s) (sL s1)); [exact PR| |exact H6]. cbv beta.
      intros ph ph' p p' _ _ _ (_ & _ & X) [v V]. rewrite V in X. destruct X as (v' & X & _). eauto.
  - rewrite EL. apply (p_C84_step uf fill s s1); assumption.
Qed.

(** A run of [n] steps with a fixed time step never fails as long as the scheme, run on its own, keeps its points in the
    domain; and then its points are those of the scheme after [n] steps. *)
Lemma p_C84_run : forall uf fill n (s : state R) tr, plain s -> (forall P, no_surface (sP s) (uf P)) ->
  (forall j, (j < n)%nat -> Forall (fun q => in_dom (pG (sP s)) (q_x q) /\ (p_check (sP s) = true -> vz (q_x q) = 0))
                                  (t_run uf j (sP s) (sG s) (bodies (sL s)))) ->
  exists s' tr', after uf fill n s tr = Ok (s', tr') /\ sP s' = clock uf n (sP s) /\
  bodies (sL s') = t_run uf n (sP s) (sG s) (bodies (sL s)).
Proof.
  intros uf fill n. induction n as [|n IH]; intros s tr HPl HN HI.
  - exists s, tr. repeat split; reflexivity.
  - pose proof (HI 0%nat (Nat.lt_0_succ n)) as H0. cbn [t_run] in H0.
    assert (HD := bodies_live (sL s) (fun x => in_dom (pG (sP s)) x /\ (p_check (sP s) = true -> vz x = 0)) 0 H0).
    assert (HR := plain_ready s HPl HD).
    destruct (p_C58_pass_total uf fill s tr HR (pl_dt _ HPl) (pl_tf _ HPl) (pl_save _ HPl)) as [[s1 tr1] E].
    assert (HD' : all_live (sL s) (fun _ p => in_dom (pG (sP s)) (px p))) by (intros ph p A C; apply (HD ph p A C)).
    destruct (plain_step uf fill s tr s1 tr1 HPl HD' (HN _) E) as (HP1 & EP & MV & MH & EB).
    destruct (IH s1 tr1 HP1) as (s' & tr' & A1 & A2 & A3).
    + intros P. rewrite EP. exact (HN P).
    + intros j Hj. specialize (HI (Datatypes.S j) (proj1 (Nat.succ_lt_mono j n) Hj)). cbn [t_run] in HI.
      rewrite EP, EB, (t_run_masks uf j (ticked uf (sP s)) (sG s) (sG s1) _ MV MH). exact HI.
    + exists s', tr'. cbn [after clock t_run]. rewrite E. split; [exact A1|]. rewrite A2, A3, EP, EB.
      split; [reflexivity|]. apply t_run_masks; assumption.
Qed.
(** Two steps of free fall under a tilted gravity. *)
Example x_C84_run : forall fill, exists s : state R, plain s /\ (forall P, no_surface (sP s) (fall_loads P)) /\
  (forall j, (j < 2)%nat -> Forall (fun q => in_dom (pG (sP s)) (q_x q) /\ (p_check (sP s) = true -> vz (q_x q) = 0))
                                  (t_run fall_loads j (sP s) (sG s) (bodies (sL s)))) /\
  (length (bodies (sL s)) = 2)%nat /\ exists r, after fall_loads fill 2 s [] = Ok r.
Proof.
  intros fill. destruct (grid_init_ok ex_gridp ex_bounds ex_proper) as (G & EG & OK).
  destruct (march_total fall_loads fill _ (fall_ready false G v0 OK)) as [s1 E].
  set (s := fall_state false G v0) in *. exists s.
  assert (SH : shut (sP s)) by (repeat split; reflexivity).
  assert (NRB : no_rub (pB (sP s))) by (left; reflexivity).
  assert (OV : own_velocities (sL s)) by (intros ph p [<-|[]] [<-|[<-|[]]]; eexists; reflexivity).
  assert (PL : plain s).
  { constructor; try assumption; try reflexivity; try (cbn; lra).
    - exact ex_proper.
    - intros ph [<-|[]]. reflexivity.
    - intros ph [<-|[]]. left. reflexivity.
    - destruct (rd_laws _ (fall_ready false G v0 OK)) as (S0 & A & B). exists S0. auto. }
  assert (NS : forall P, no_surface (sP s) (fall_loads P)) by (intros; split; reflexivity).
  assert (IN : forall j, (j < 2)%nat -> Forall (fun q => in_dom (pG (sP s)) (q_x q) /\ (p_check (sP s) = true -> vz (q_x q) = 0))
                                  (t_run fall_loads j (sP s) (sG s) (bodies (sL s)))).
  { intros [|[|j]] Hj; [| |lia].
    - repeat constructor; cbn; try lra; discriminate.
    - cbn [t_run]. rewrite <- (p_C84_step fall_loads fill s s1); try assumption; [|exact ex_proper|exact (dr_dom' v0)|apply (pl_laws _ PL)|apply NS].
      assert (M0 : 0 <= p_Mtol (sP s)) by (cbn; lra).
      pose proof (p_C62_free_fall fall_loads fill s s1 v0 ex_proper OK (dr_dom' v0) SH NRB M0) as F.
      specialize (F ltac:(eexists; split; reflexivity)).
      specialize (F ltac:(intros ph p A B; destruct (dr_drift v0 ph p A B) as (_ & X & Y & _); auto)).
      specialize (F (NS _) (no_walls G EG OK) E (fall_heavy fall_loads fill false G v0 s1 OK E)). cbv zeta in F.
      assert (F' : all_live (sL s1) (fun _ p => in_dom (pG (sP s)) (px p))).
      { eapply (Prel_all_live _ (sL s) (sL s1) (fun _ p => 1/2 <= vx (px p) <= 3/2 /\ 1/2 <= vy (px p) <= 5/4)); [exact F| |].
        - cbv beta. intros ph ph' p p' _ _ _ (X & _) (Y1 & Y2). rewrite X. unfold in_dom.
          pose proof (SIN_bound (1/2)) as S1. pose proof (COS_bound (1/2)) as S2.
          cbn. unR. lra.
        - intros ph p [<-|[]] [<-|[<-|[]]]; cbn; unR; lra. }
      clear - F'. unfold bodies. revert F'. generalize (sL s1). intros L F'. generalize 0%nat. induction L as [|ph L IH]; intros k; [constructor|].
      cbn [bodies_from]. apply Forall_app. split.
      + apply Forall_forall. intros q Hq. apply in_map_iff in Hq. destruct Hq as (p & <- & Hp). split; [|discriminate].
        exact (F' ph p (or_introl eq_refl) Hp).
      + apply IH. intros ph1 p1 A C. apply (F' ph1 p1 (or_intror A) C). }
  split; [exact PL|]. split; [exact NS|]. split; [exact IN|]. split; [reflexivity|].
  destruct (p_C84_run fall_loads fill 2 s [] PL NS IN) as (s' & tr' & A & _). eauto.
Qed.
