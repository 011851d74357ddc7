(** * Runs with joined ends and any of eight materials: C107. *)
From Coq Require Import ZArith Reals List Bool Arith Lra Lia.
From Verif Require Import State NumR Spec SpecLaws SpecStep SpecScheme SpecRing SpecLocal SpecHoop LibList LibR ModelGrid ModelConstit ModelParticle ModelMPList
  ModelIntegr ModelMain ProofsSlice ProofsGrid ProofsMap ProofsP2G ProofsWalls ProofsLaws ProofsInOut ProofsHist Concrete
  ThmMapping ThmWalls ThmLaws ThmInOut ThmHist ProofsStep ProofsPoints ThmStep ThmBalance ThmEnergy ThmFall ThmGeo ProofsScheme ThmScheme
  ProofsRing ThmRing ProofsLocal ThmLocal.
Import ListNotations.
Local Open Scope R_scope.

(** Joined ends; no sideways load, no point enters or leaves, no grains segregate. *)
Definition looped (P : params R) : Prop :=
  p_seg P = false /\ cyclic_lr (pB P) = true /\ horizontal_force (pB P) = false /\
  outlet_left (pB P) = false /\ outlet_bottom (pB P) = false /\ inlet_right (pB P) = false /\ inlet_top (pB P) = false.

Lemma join_agree P G : ends_join P G -> ends_agree P G.
Proof. intros H j Hj. destruct (H j Hj) as (A & B & _). auto. Qed.
Lemma join_at {A} P (l : list A) d k : proper P -> (k < nodes P)%nat ->
  (forall j, (j < ny P)%nat -> nth (j * nx P) l d = nth (j * nx P + (nx P - 1)) l d) -> nth (k / nx P * nx P + rc P k) l d = nth k l d.
Proof.
  intros HP Hk H. pose proof (row_lt P HP k Hk) as Hr. pose proof (node_eq P HP k) as EK. unfold rc.
  destruct (Nat.eqb_spec (k mod nx P) (nx P - 1)) as [C|C]; [|rewrite <- EK; reflexivity].
  rewrite Nat.add_0_r, (H _ Hr). rewrite C in EK. rewrite <- EK. reflexivity.
Qed.
Lemma join_row P k : proper P -> (k < nodes P)%nat -> ((k / nx P * nx P + rc P k) / nx P = k / nx P)%nat.
Proof. intros HP Hk. pose proof (rc_lt P HP k). apply (node_at P HP). lia. Qed.
Lemma home_back E x : home E x = back (mkScheme (a_P E) (a_dt E) (a_tol E) (a_damp E) (a_open E) (a_g E)) x.
Proof. reflexivity. Qed.

(** One step of the code with joined ends is one step of the scheme of SpecHoop.v. *)
Lemma p_C107_step : forall uf fill (s s' : state R) S0, proper (pG (sP s)) -> grid_ok (pG (sP s)) (sG s) ->
  all_live (sL s) (fun _ p => in_dom (pG (sP s)) (px p)) -> looped (sP s) -> ends_join (pG (sP s)) (sG s) -> no_rub (pB (sP s)) ->
  covered (sL s) -> own_velocities (sL s) -> 0 < p_dt (sP s) -> 0 <= p_Mtol (sP s) -> sol0 (sL s) = Ok S0 ->
  time_march uf fill s = Ok s' ->
  cloud (sP s) (sL s') = o_step (ambient_of (sP s) (s_rho S0) (uf (sP s)) (sG s)) (cloud (sP s) (sL s)).
Proof.
  intros uf fill s s' S0 HP HG HD HS HJ NR HL HO Hdt Htol HS0 E.
  pose proof HS as (Hs & Hc & Hh & O1 & O2 & I1 & I2). pose proof (join_agree _ _ HJ) as HE.
  destruct (march_ring uf fill s s' HP HG HD Hs Hc E) as
    (S1 & L1 & L3 & L4 & L5 & G1 & Gc & G3 & G4 & Gf & G5 & G6 & HS1 & E1 & R1 & R3 & E2 & F1 & EC & FC & Lm1 & Lq1 & Lmc & Lqc &
     E3 & R4 & F3 & Lo & E4 & LF & EF & FF & LF4 & E5 & Z4 & Z5 & E6 & EP & EG & PM & EI).
  rewrite HS0 in HS1. injection HS1 as <-.
  set (P := sP s <| p_loads := uf (sP s) |>) in *. set (Pg := pG (sP s)) in *.
  set (SC := ambient_of (sP s) (s_rho S0) (uf (sP s)) (sG s)). set (B := cloud (sP s) (sL s)).
  destruct (force_loop_spec P L4 G3 G4 LF E4) as (F4 & _ & FI & FE).
  pose proof (BCs_frame _ _ _ _ E5) as F5. destruct (um_shape P G5 G6 E6) as [F6 UQ].
  pose proof (p_C49_surface_loads P (s_rho S0) Gf G5 Z4 HP) as SL.
  destruct (wipe_geo (sP s) (sG s)) as (W1 & W2 & _ & _ & WV & W6 & W7 & _ & WC).
  assert (M1 := p2g_all_mass P L3 (wipe (sP s) (sG s)) G1 (wipe_lens (sP s) (sG s)) E2).
  assert (Q1 := p2g_all_mom P L3 (wipe (sP s) (sG s)) G1 (wipe_lens (sP s) (sG s))).
  rewrite W6, W7 in Q1. specialize (Q1 (go_bv _ _ HG) (go_bh _ _ HG) E2).
  destruct M1 as (_ & _ & M1). destruct Q1 as (_ & Q1).
  unfold frame_all in F1. unfold vis_frame in F3. unfold frame_f in F4. unfold force_frame in F5.
  assert (EX : forall k, nth k (gext Gf) v0 = v0).
  { intros k. rewrite FF. cbn. rewrite F4. cbn. rewrite F3. cbn. rewrite FC. cbn. rewrite F1. cbn. rewrite wipe_ext. apply nth_repeat_same. }
  assert (FI3 : gfi G3 = repeat v0 (nodes Pg)). { rewrite F3. cbn. rewrite FC. cbn. rewrite F1. cbn. apply wipe_fi. }
  assert (FE3 : gfe G3 = repeat v0 (nodes Pg)). { rewrite F3. cbn. rewrite FC. cbn. rewrite F1. cbn. apply wipe_fe. }
  assert (FI5 : gfi G5 = gfi Gf) by (eapply BCs_fi; exact E5).
  assert (EQ5 : gq G5 = gq Gc). { rewrite F5. cbn. rewrite FF. cbn. rewrite F4. cbn. rewrite F3. reflexivity. }
  assert (EMf : gm Gf = gm Gc). { rewrite FF. cbn. rewrite F4. cbn. rewrite F3. reflexivity. }
  assert (EM5 : gm G5 = gm Gc). { rewrite F5. cbn. exact EMf. }
  assert (EM6 : gm G6 = gm Gc). { rewrite F6. cbn. exact EM5. }
  assert (EV6 : gV G6 = gV (sG s)). { rewrite F6. cbn. rewrite F5. cbn. rewrite FF. cbn. rewrite F4. cbn. rewrite F3. cbn. rewrite FC. cbn. rewrite F1. cbn. exact WV. }
  assert (DX : gdx Gf = cell_w Pg /\ gdy Gf = cell_h Pg).
  { rewrite FF. cbn. rewrite F4. cbn. rewrite F3. cbn. rewrite FC. cbn. rewrite F1. cbn. rewrite W1, W2. split; [exact (go_dx _ _ HG)|exact (go_dy _ _ HG)]. }
  assert (BC : bconv G5 = bconv (sG s)). { rewrite F5. cbn. rewrite FF. cbn. rewrite F4. cbn. rewrite F3. cbn. rewrite FC. cbn. rewrite F1. cbn. exact WC. }
  assert (BV : bv G5 = bv (sG s) /\ bh G5 = bh (sG s)).
  { rewrite F5. cbn. rewrite FF. cbn. rewrite F4. cbn. rewrite F3. cbn. rewrite FC. cbn. rewrite F1. cbn. split; assumption. }
  destruct BV as [BV BH]. destruct DX as [DX DY].
  specialize (SL EX E5). cbv zeta in SL.
  apply covered_lawful in HL. destruct HL as [HL HL2].
  pose proof EC as EC'. unfold cyc_mq in EC'. pbinds EC'.
  match goal with H : cyc nadd _ _ = Ok ?x, H' : cyc vadd _ _ = Ok ?y |- _ => rename H into ECM; rename H' into ECQ; rename x into m1; rename y into q1 end.
  assert (gmc : gm Gc = m1 /\ gq Gc = q1) by (injection EC' as <-; auto). destruct gmc as [Em1 Eq1]. subst m1 q1. clear EC'.
  pose proof EF as EF'. unfold cyc_forces in EF'. pbinds EF'.
  match goal with H : cyc vadd _ (gfi G4) = Ok ?x, H' : cyc vadd _ (gfe G4) = Ok ?y |- _ => rename H into ECI; rename H' into ECE; rename x into i1; rename y into e1 end.
  assert (gff : gfi Gf = i1 /\ gfe Gf = e1) by (injection EF' as <-; auto). destruct gff as [Ei1 Ee1]. subst i1 e1. clear EF'.
  change (nx (pG P)) with (nx Pg) in ECM, ECQ, ECI, ECE.
  (* the located points *)
  assert (D1 : all_live L1 (fun ph p => lawful (ph_sol ph) p /\ exists v, pv p = Own v)).
  { eapply (Lrel_all_live _ (sL s) L1 (fun ph p => lawful (ph_sol ph) p /\ exists v, pv p = Own v)); [exact R1| |].
    - cbv beta. intros ph p ph' p' _ _ ES _ _ [b ->] [X1 X2]. rewrite ES. split; [exact X1|exact X2].
    - intros ph p A C. split; [exact (HL ph p A C)|exact (HO ph p A C)]. }
  assert (D3 : all_live L3 (fun ph p => located Pg p /\ in_dom Pg (px p) /\ lawful (ph_sol ph) p /\ exists v, pv p = Own v)).
  { eapply (Lrel_all_live _ L1 L3); [exact R3| |exact D1]. cbv beta. intros ph p ph' p' _ _ ES _ _ [D ->] [X1 X2]. rewrite ES.
    split; [apply locate_located; exact D|]. split; [exact D|]. split; [exact X1|exact X2]. }
  assert (SO3 : map ph_sol L3 = map ph_sol (sL s)) by (rewrite (Lrel_sol _ _ _ R3); apply (Lrel_sol _ _ _ R1)).
  set (gr := fun q => mkPoint (z_stuff q) (z_m q) (z_V q) (z_x q) (z_v q) (z_s q) (if z_first q then a_g SC else z_b q) (z_first q)).
  assert (B3 : cloud (sP s) L3 = map gr B).
  { unfold cloud. rewrite (Lrel_cloud (sP s) _ (fun q => q) L1 L3 R3).
    - rewrite map_id. unfold update_forces, points_, points in E1. pbinds E1. injection E1 as ->.
      match goal with X : forM _ _ _ _ = Ok _ |- _ => rename X into EE end.
      eapply (points_cloud (sP s) _ (fun _ => True) gr (sL s)) in EE; [exact EE| |exact I].
      intros k ph p u p' u' _ _ _ X. injection X as <- _. split; [exact I|]. unfold increment_gravity, point_of, gr, velocity.
      cbn [z_stuff z_m z_V z_x z_v z_s z_b z_first]. destruct (Nat.eqb k 0); reflexivity.
    - cbv beta. intros k ph ph' p p' _ _ ES EV [_ ->]. unfold point_of, velocity. rewrite ES, EV. reflexivity. }
  assert (DB : forall q, In q B -> in_dom Pg (z_x q)).
  { assert (X : forall k L, all_live L (fun _ p => in_dom Pg (px p)) -> forall q, In q (cloud_from (sP s) k L) -> in_dom Pg (z_x q)).
    { intros k L. revert k. induction L as [|ph L IH]; intros k HA q A; [destruct A|]. cbn [cloud_from] in A. apply in_app_iff in A. destruct A as [A|A].
      - apply in_map_iff in A. destruct A as (p & <- & A). apply (HA ph p (or_introl eq_refl) A).
      - apply (IH (Datatypes.S k)); [|exact A]. intros ph0 p0 C. apply HA. right. exact C. }
    exact (X 0%nat (sL s) HD). }
  assert (TH : forall k x, (k < nodes Pg)%nat -> in_dom Pg x -> tie Pg (hat Pg x) k = rhat Pg x (rc Pg k) (k / nx Pg)).
  { intros k x Hk X. rewrite tie_ring by exact HP. apply tie_hat; [exact HP|exact X|apply rc_lt; exact HP]. }
  assert (TG : forall k x b, (k < nodes Pg)%nat -> in_dom Pg x -> tie Pg (ghat Pg x b) k = rghat Pg x b (rc Pg k) (k / nx Pg)).
  { intros k x b Hk X. rewrite tie_ring by exact HP. apply tie_ghat; [exact HP|exact X|apply rc_lt; exact HP]. }
  (* nodal mass and velocity *)
  assert (MK : forall k, (k < nodes Pg)%nat -> nth k (gm Gc) 0 = o_mass SC B (rc Pg k) (k / nx Pg)).
  { intros k Hk. destruct (cyc_tie Pg HP nadd 0 (fun x => x) (gm G1) (gm Gc) nadd_R Lm1 ECM) as [_ X].
    rewrite X by exact Hk.
    rewrite (tie_ext Pg HP _ (fun k => Rsum (map (fun q => z_m q * hat Pg (z_x q) k) B)) k Hk).
    - rewrite tie_Rsum. unfold o_mass. apply Rsum_ext. intros q A. rewrite tie_scal, (TH k _ Hk (DB q A)). reflexivity.
    - intros j Hj. rewrite M1, wipe_m, Rplus_0_l. unfold mass_at.
      rewrite (psum_ext L3 _ (fun _ p => pm p * hat Pg (px p) j)).
      2:{ intros ph p A C. rewrite (wt_hat P p j HP); [reflexivity|apply (D3 ph p A C)]. }
      rewrite (psum_cloud (sP s) (fun _ p => pm p * hat Pg (px p) j) (fun q => z_m q * hat Pg (z_x q) j) L3 (fun _ _ _ => eq_refl) 0%nat).
      change (cloud_from (sP s) 0 L3) with (cloud (sP s) L3). rewrite B3, Rsum_map_map. reflexivity. }
  assert (OP : forall a k, (k < nodes Pg)%nat -> o_at SC (a_open SC a) (rc Pg k) (k / nx Pg) = passes (roughness (pB (sP s))) (sG s) a k).
  { intros c k Hk. unfold o_at. cbn [SC a_open ambient_of]. apply ends_open; assumption. }
  assert (VK : forall a k, (k < nodes Pg)%nat -> node_v P Gc a k = o_vel SC B a (rc Pg k) (k / nx Pg)).
  { intros c k Hk. unfold node_v, o_vel. rewrite <- MK by exact Hk. change (p_Mtol P) with (a_tol SC). rewrite Rltb_dec.
    destruct (Rlt_dec _ _); [|reflexivity]. f_equal.
    destruct (cyc_tie Pg HP vadd v0 (comp c) (gq G1) (gq Gc) (comp_vadd c) Lq1 ECQ) as [_ X]. rewrite X by exact Hk.
    rewrite (tie_ext Pg HP _ (fun k => passes (roughness (pB (sP s))) (sG s) c k * Rsum (map (fun q => z_m q * comp c (z_v q) * hat Pg (z_x q) k) B)) k Hk).
    - rewrite (tie_open Pg (sG s)) by assumption. rewrite tie_Rsum, OP by exact Hk. f_equal.
      apply Rsum_ext. intros q A. rewrite tie_scal, (TH k _ Hk (DB q A)). reflexivity.
    - intros j Hj. rewrite Q1, wipe_q, comp_v0, Rplus_0_l, open_passes. f_equal.
      unfold mom_at. rewrite (psum_ext L3 _ (fun ph p => pm p * comp c (velocity ph p) * hat Pg (px p) j)).
      2:{ intros ph p A C. rewrite (wt_hat P p j HP); [change (pG P) with Pg; ring|apply (D3 ph p A C)]. }
      rewrite (psum_cloud (sP s) (fun ph p => pm p * comp c (velocity ph p) * hat Pg (px p) j) (fun q => z_m q * comp c (z_v q) * hat Pg (z_x q) j) L3 (fun _ _ _ => eq_refl) 0%nat).
      change (cloud_from (sP s) 0 L3) with (cloud (sP s) L3). rewrite B3, Rsum_map_map. reflexivity. }
  (* strain and stress *)
  assert (SD : forall x a b, in_dom Pg x -> fsum (nodes Pg) (fun k => (node_v P Gc a k * ghat Pg x b k + node_v P Gc b k * ghat Pg x a k) / 2) =
     o_sum SC (fun i j => (o_vel SC B a i j * rghat Pg x b i j + o_vel SC B b i j * rghat Pg x a i j) / 2)).
  { intros x a b X.
    rewrite (fsum_ext _ _ (fun k => / 2 * (ghat Pg x b k * o_vel SC B a (rc Pg k) (k / nx Pg)) + / 2 * (ghat Pg x a k * o_vel SC B b (rc Pg k) (k / nx Pg))))
      by (intros k Hk; rewrite !VK by exact Hk; unfold Rdiv; ring).
    rewrite fsum_plus, !fsum_scal, (gather Pg HP (ghat Pg x b) (o_vel SC B a)), (gather Pg HP (ghat Pg x a) (o_vel SC B b)).
    rewrite <- !fsum_scal, <- fsum_plus. unfold o_sum. change (a_P SC) with Pg. apply fsum_ext. intros j Hj.
    rewrite <- !fsum_scal, <- fsum_plus. apply fsum_ext. intros i Hi. rewrite !(tie_ghat Pg HP x) by assumption. unfold Rdiv. ring. }
  set (st := fun q => mkPoint (z_memory (z_stuff q) (o_strain SC B q)) (z_shed SC q) (z_V q) (z_x q) (z_v q) (z_stress SC q (o_strain SC B q)) (z_b q) (z_first q)).
  unfold stress_strain in E3. pbinds E3. change (cyclic_lr (pB P)) with (cyclic_lr (pB (sP s))) in E3. rewrite Hc in E3. pbinds E3. injection E3 as E3a E3b.
  match goal with H : points _ _ _ = Ok (?l, ?g) |- _ => rename H into EQ; rename l into La; rename g into Ga end.
  rewrite E3a in EQ.
  assert (ST : forall k ph p G2 p' G2', In ph L3 -> In p (live ph) -> vis_frame Gc G2 -> stress_one P a k ph p G2 = Ok (p', G2') ->
     vis_frame Gc G2' /\ strained p p' /\ lawful (ph_sol ph) p' /\ point_of (sP s) k ph p' = st (point_of (sP s) k ph p)).
  { intros k ph p G2 p' G2' A C V X. pose proof (stress_one_rel _ _ _ _ _ _ _ _ X) as (X1 & X2 & _ & _).
    split; [exact (vis_frame_trans _ _ _ V X2)|]. split; [exact X1|].
    assert (EM : gm G2 = gm Gc) by (rewrite V; reflexivity). assert (EQ2 : gq G2 = gq Gc) by (rewrite V; reflexivity).
    destruct (D3 ph p A C) as (Y1 & Y2 & Y3 & _).
    destruct (stress_local P a k ph p p' G2 G2' SC HP Y1) as (A1 & A2 & A3 & A4); auto.
    + rewrite EM. exact Lmc.
    + rewrite EQ2. exact Lqc.
    + assert (ED : m3 (fun a b => p_dt P * fsum (nodes (pG P)) (fun j =>
         (node_v P G2 a j * ghat (pG P) (px p) b j + node_v P G2 b j * ghat (pG P) (px p) a j) / 2)) = o_strain SC B (point_of (sP s) k ph p)).
      { apply m3_ext. intros x y. unfold o_strain. rewrite !el_m3. cbn [SC a_dt ambient_of]. f_equal.
        change (z_x (point_of (sP s) k ph p)) with (px p). change (a_P SC) with Pg. rewrite <- SD by exact Y2.
        apply fsum_ext. intros j Hj. unfold node_v. rewrite EM, EQ2. reflexivity. }
      rewrite ED in A1, A3. split; [exact A4|].
      change (point_of P) with (point_of (sP s)) in A1, A2. change (stuff_of P) with (stuff_of (sP s)) in A3.
      unfold point_of at 1. rewrite A1, A2, A3. unfold st. unfold strained, law_frame in X1. unfold velocity. rewrite X1. reflexivity. }
  assert (R5 : Lrel (fun ph p p' => strained p p' /\ lawful (ph_sol ph) p') L3 L4).
  { apply (points_rel (stress_one P a) (fun G => vis_frame Gc G) (fun ph p p' => strained p p' /\ lawful (ph_sol ph) p') L3 Gc L4 Ga) in EQ; [apply EQ|apply vis_frame_refl|].
    intros k ph p G2 p' G2' A C V X. destruct (ST k ph p G2 p' G2' A C V X) as (Y1 & Y2 & Y3 & _). auto. }
  assert (B4 : cloud (sP s) L4 = map (o_strained SC B) B).
  { unfold cloud. unfold points in EQ. eapply (points_cloud (sP s) (stress_one P a) (fun G => vis_frame Gc G) st L3) in EQ.
    - rewrite EQ. change (cloud_from (sP s) 0 L3) with (cloud (sP s) L3). rewrite B3, map_map. apply map_ext. intros q. reflexivity.
    - intros k ph p G2 p' G2' A C V X. destruct (ST k ph p G2 p' G2' A C V X) as (Y1 & Y2 & Y3 & Y4). auto.
    - apply vis_frame_refl. }
  assert (D4 : all_live L4 (fun ph p => located Pg p /\ in_dom Pg (px p) /\ exists v, pv p = Own v)).
  { eapply (Lrel_all_live _ L3 L4); [exact R5| |exact D3]. cbv beta. intros ph p ph' p' _ _ _ _ _ (X & _) (Y & Y2 & _ & Z).
    split; [eapply strained_located; eauto|]. unfold strained, law_frame in X. rewrite X. split; [exact Y2|exact Z]. }
  (* forces *)
  set (B1 := map (o_strained SC B) B) in *.
  assert (DB1 : forall q, In q B1 -> in_dom Pg (z_x q)).
  { intros q A. apply in_map_iff in A. destruct A as (q0 & <- & A). apply (DB q0 A). }
  assert (FK : forall a k, (k < nodes Pg)%nat -> net_force P G5 a k =
    a_damp SC * (o_force SC B1 a (rc Pg k) (k / nx Pg) + o_at SC (a_load SC a) (rc Pg k) (k / nx Pg) * o_mass SC B (rc Pg k) (k / nx Pg))).
  { intros c k Hk. unfold net_force. change (if p_damping P then 7/10 else 1) with (a_damp SC). f_equal. rewrite FI5.
    destruct (SL k Hk) as (A1 & A2 & A3). rewrite EMf, MK, DY in A2 by exact Hk.
    change (pB P) with (pB (sP s)) in A1, A2. change (p_loads P) with (uf (sP s)) in A1, A2. rewrite Hh in A1.
    assert (Z2 : comp c (nth k (gfe G5) v0) = comp c (nth k (gfe Gf) v0) + o_at SC (a_load SC c) (rc Pg k) (k / nx Pg) * o_mass SC B (rc Pg k) (k / nx Pg)).
    { unfold o_at. cbn [SC a_load ambient_of]. unfold load_of. change (a_P SC) with Pg. destruct c; cbn [comp].
      - rewrite A1, Hh. ring.
      - rewrite A2. destruct (vertical_force (pB (sP s))); [|lra]. fold Pg. cbn [SC a_P ambient_of]. fold Pg. rewrite (join_row Pg k HP Hk). unfold push, ends, row. change (pG P) with Pg. unfold Rdiv. ring.
      - rewrite A3. ring. }
    rewrite Z2. destruct LF4 as [LI4 LE4].
    destruct (cyc_tie Pg HP vadd v0 (comp c) (gfi G4) (gfi Gf) (comp_vadd c) LI4 ECI) as [_ XI].
    destruct (cyc_tie Pg HP vadd v0 (comp c) (gfe G4) (gfe Gf) (comp_vadd c) LE4 ECE) as [_ XE].
    rewrite XI, XE by exact Hk.
    assert (ZF : tie Pg (fun k => comp c (nth k (gfe G4) v0)) k - tie Pg (fun k => comp c (nth k (gfi G4) v0)) k = o_force SC B1 c (rc Pg k) (k / nx Pg)).
    { transitivity (tie Pg (fun k => 1 * comp c (nth k (gfe G4) v0) + -1 * comp c (nth k (gfi G4) v0)) k); [rewrite tie_lin; lra|].
      rewrite (tie_ext Pg HP _ (fun k => Rsum (map (fun q => z_m q * comp c (z_b q) * hat Pg (z_x q) k
                        - z_V q * over (fun b => el c b (z_s q) * ghat Pg (z_x q) b k)) B1)) k Hk).
      - rewrite tie_Rsum. unfold o_force. apply Rsum_ext. intros q A. change (a_P SC) with Pg.
        rewrite <- (TH k _ Hk (DB1 q A)). unfold over. rewrite <- !(TG k _ _ Hk (DB1 q A)).
        unfold tie. destruct (Nat.eqb _ _); [|destruct (Nat.eqb _ _)]; ring.
      - intros j Hj. rewrite FI, FE, FI3, FE3, nth_repeat_same, comp_v0, !Rplus_0_l.
        transitivity (psum L4 (fun _ p => pm p * comp c (pb p) * hat Pg (px p) j - pV p * over (fun b => el c b (pstress p) * ghat Pg (px p) b j))).
        + transitivity (psum L4 (fun _ p => pm p * wt P p j * comp c (pb p) + -1 * fint_at P p c j)); [rewrite psum_plus, psum_scal; lra|].
          apply psum_ext. intros ph p A C. destruct (D4 ph p A C) as [Y _]. rewrite (wt_hat P p j HP Y), (fint_ghat P p c j HP Y).
            change (pG P) with Pg. ring.
        + rewrite (psum_cloud (sP s) (fun _ p => pm p * comp c (pb p) * hat Pg (px p) j - pV p * over (fun b => el c b (pstress p) * ghat Pg (px p) b j)) (fun q => z_m q * comp c (z_b q) * hat Pg (z_x q) j - z_V q * over (fun b => el c b (z_s q) * ghat Pg (z_x q) b j)) L4 (fun _ _ _ => eq_refl) 0%nat).
          change (cloud_from (sP s) 0 L4) with (cloud (sP s) L4). rewrite B4. reflexivity. }
    rewrite <- ZF. lra. }
  assert (AK : forall a k, (k < nodes Pg)%nat -> node_acc P G6 a k = o_acc SC B B1 a (rc Pg k) (k / nx Pg)).
  { intros c k Hk. unfold node_acc, o_acc. rewrite EM6, MK by exact Hk. change (p_Mtol P) with (a_tol SC). rewrite Rltb_dec.
    destruct (Rlt_dec _ _); [|reflexivity]. f_equal. rewrite (no_rub_rate P G5 G6 Z5 E6 NR), FK by exact Hk.
    rewrite BV, BH, open_passes, OP by exact Hk. reflexivity. }
  assert (VK6 : forall a k, (k < nodes Pg)%nat -> node_v P G6 a k = o_end SC B B1 a (rc Pg k) (k / nx Pg)).
  { intros c k Hk. destruct (um_q P G5 G6 Z5 E6 k Hk) as [U1 U2]. rewrite EQ5 in U1, U2.
    assert (NB : comp c (nth k (gq G6) v0) = comp c (nth k (gq Gc) v0) + p_dt P * comp c (nth k (gqd G6) v0) ->
      node_v P G6 c k = o_vel SC B c (rc Pg k) (k / nx Pg) + a_dt SC * o_acc SC B B1 c (rc Pg k) (k / nx Pg)).
    { intros U. rewrite <- AK, <- VK by exact Hk. unfold node_v, node_acc. rewrite EM6. destruct (Rltb _ _); [|lra].
      rewrite U. change (a_dt SC) with (p_dt P). unfold Rdiv. ring. }
    assert (CB : o_at SC (a_belt SC) (rc Pg k) (k / nx Pg) = if conveyor (pB (sP s)) then if nth k (bconv (sG s)) false then p_v0 (sP s) else None else None).
    { unfold o_at. cbn [SC a_belt ambient_of a_P]. fold Pg. rewrite (join_at Pg (bconv (sG s)) false k HP Hk) by (intros j Hj; apply (HJ j Hj)). reflexivity. }
    unfold o_end. rewrite CB. destruct c; try (apply NB, U2; discriminate).
    rewrite BC, EM5 in U1. change (pB P) with (pB (sP s)) in U1. change (p_v0 P) with (p_v0 (sP s)) in U1.
    destruct UQ as (w & UW & _). change (pB P) with (pB (sP s)) in UW. change (p_v0 P) with (p_v0 (sP s)) in UW.
    destruct (conveyor (pB (sP s))); cbn [andb] in U1; [|apply NB, U1].
    rewrite (UW eq_refl) in *. destruct (nth k (bconv (sG s)) false); [|apply NB, U1].
    unfold node_v. rewrite EM6. cbn [comp]. rewrite U1, MK by exact Hk. change (p_Mtol P) with (a_tol SC). rewrite Rltb_dec.
    destruct (Rlt_dec _ _) as [H|H]; [|reflexivity]. change (a_tol SC) with (p_Mtol (sP s)) in H. field. lra. }
  assert (RK : forall k, (k < nodes Pg)%nat -> node_rho P G6 k = o_rho SC B (rc Pg k) (k / nx Pg)).
  { intros k Hk. unfold node_rho, o_rho. rewrite EM6, EV6, MK by exact Hk. change (p_Mtol P) with (a_tol SC). rewrite Rltb_dec.
    unfold o_at. cbn [SC a_vol ambient_of a_P]. fold Pg. rewrite (join_at Pg (gV (sG s)) 0 k HP Hk) by (intros j Hj; apply (HJ j Hj)). reflexivity. }
  assert (GA : forall x (f : nat -> nat -> R), in_dom Pg x -> fsum (nodes Pg) (fun k => hat Pg x k * f (rc Pg k) (k / nx Pg)%nat) = o_sum SC (fun i j => rhat Pg x i j * f i j)).
  { intros x f X. rewrite (gather Pg HP (hat Pg x) f). unfold o_sum. change (a_P SC) with Pg. apply fsum_ext. intros j Hj. apply fsum_ext. intros i Hi.
    rewrite (tie_hat Pg HP x i j X Hi). reflexivity. }
  (* the move *)
  assert (IO : Lrel (fun _ p p' => p' = wrap Pg p) L5 (sL s')).
  { unfold inout in EI. change (pB P) with (pB (sP s)) in EI. rewrite O1, O2, I1, I2, Hc in EI. cbn [bind] in EI. exact (wrap_bodies P L5 (sL s') EI). }
  assert (LW : forall ph, In ph L4 -> match s_law (ph_sol ph) with Dp | DpRate | LinearMu | KenSimple | UnknownLaw _ => False | _ => True end).
  { intros ph A. destruct (map_in_sol L3 L4 ph (Lrel_sol _ _ _ R5) A) as (ph0 & A0 & <-). destruct (map_in_sol (sL s) L3 ph0 SO3 A0) as (ph1 & A1 & <-). apply HL2. exact A1. }
  set (MV := fun q => match z_stuff q with
    | Intruder => mkPoint Intruder (z_m q) (z_V q) (v3 (fun a => comp a (z_x q) + a_dt SC * comp a (a_w SC))) (a_w SC) (z_s q) (z_b q) (z_first q)
    | _ => mkPoint (o_dense SC B (z_x q) (z_stuff q)) (z_m q) (z_V q)
          (v3 (fun a => comp a (z_x q) + a_dt SC * o_sum SC (fun i j => rhat Pg (z_x q) i j * o_end SC B B1 a i j)))
          (v3 (fun a => comp a (z_v q) + a_dt SC * o_sum SC (fun i j => rhat Pg (z_x q) i j * o_acc SC B B1 a i j)))
          (z_s q) (z_b q) (z_first q) end).
  assert (B5 : cloud (sP s) L5 = map MV (cloud (sP s) L4)).
  { unfold cloud. apply (moved_cloud (sP s) P G6 MV L4 L5 PM).
    - intros k ph ph' p p' A C ES RI (Y1 & Y2 & Y3) YD. destruct (D4 ph p A C) as (LO' & LD & [v V]). rewrite V in Y3. destruct Y3 as (v' & V1 & V2).
      assert (PX : px p' = v3 (fun a => comp a (px p) + a_dt SC * o_sum SC (fun i j => rhat Pg (px p) i j * o_end SC B B1 a i j))).
      { apply v3_ext. intros c. rewrite Y2. transitivity (comp c (px p) + a_dt SC * o_sum SC (fun i j => rhat Pg (px p) i j * o_end SC B B1 c i j)); [|destruct c; reflexivity].
        change (a_dt SC) with (p_dt P) at 1. do 2 f_equal. rewrite <- (GA (px p) (o_end SC B B1 c) LD). apply fsum_ext. intros j Hj. rewrite VK6 by exact Hj. reflexivity. }
      assert (PV : v' = v3 (fun a => comp a v + a_dt SC * o_sum SC (fun i j => rhat Pg (px p) i j * o_acc SC B B1 a i j))).
      { apply v3_ext. intros c. rewrite V2. transitivity (comp c v + a_dt SC * o_sum SC (fun i j => rhat Pg (px p) i j * o_acc SC B B1 c i j)); [|destruct c; reflexivity].
        change (a_dt SC) with (p_dt P). do 2 f_equal. rewrite <- (GA (px p) (o_acc SC B B1 c) LD). apply fsum_ext. intros j Hj. rewrite AK by exact Hj. reflexivity. }
      assert (PR : prho p' = o_sum SC (fun i j => rhat Pg (px p) i j * o_rho SC B i j)).
      { rewrite YD. rewrite <- (GA (px p) (o_rho SC B) LD). apply fsum_ext. intros j Hj. rewrite RK by exact Hj. reflexivity. }
      specialize (LW ph A). unfold point_of at 1. unfold velocity at 1. rewrite V1, PX, PV, ES. rewrite Y1. cbn [pm pV pstress pb set].
      assert (SF : stuff_of (sP s) (ph_sol ph) (p <| px := px p' |> <| pv := pv p' |> <| prho := prho p' |>)
                   = o_dense SC B (px p) (stuff_of (sP s) (ph_sol ph) p)).
      { unfold stuff_of, o_dense. change (a_P SC) with Pg. rewrite <- PR. destruct (s_law (ph_sol ph)); reflexivity. }
      rewrite SF. unfold MV, point_of, velocity. rewrite V. cbn [z_stuff z_m z_V z_x z_v z_s z_b z_first].
      unfold stuff_of. destruct (s_law (ph_sol ph)); try contradiction; try discriminate; reflexivity.
    - intros k ph ph' p p' A C ES RI (w & W & ->). unfold point_of at 1. unfold velocity at 1. cbn [pv px pm pV pstress pb set]. rewrite ES.
      unfold MV, point_of. cbn [z_stuff z_m z_V z_x z_v z_s z_b z_first]. unfold stuff_of.
      destruct (s_law (ph_sol ph)); try discriminate. change (p_intruder_v P) with (p_intruder_v (sP s)) in W.
      cbn [SC a_w ambient_of]. rewrite W. f_equal. }
  set (hm := fun q => mkPoint (z_stuff q) (z_m q) (z_V q) (home SC (z_x q)) (z_v q) (z_s q) (z_b q) (z_first q)).
  assert (B6 : cloud (sP s) (sL s') = map hm (cloud (sP s) L5)).
  { unfold cloud. apply (Lrel_cloud (sP s) _ hm L5 (sL s') IO). cbv beta. intros k ph ph' p p' _ _ ES EV ->.
    pose proof (wrap_rest Pg p) as W. rewrite (wrap_back Pg p (mkScheme (a_P SC) (a_dt SC) (a_tol SC) (a_damp SC) (a_open SC) (a_g SC)) eq_refl), <- home_back in W.
    rewrite W. unfold point_of, velocity, hm. rewrite ES, EV. reflexivity. }
  rewrite B6, B5, B4, map_map. unfold o_step. fold B1. apply map_ext. intros q. unfold hm, MV, o_moved. destruct (z_stuff q); reflexivity.
Qed.

(** The ends of a grid with the same walls at both ends and [cyclic_lr], with or without a belt, agree. *)
Lemma p_C107_ends : forall (P : gridp R) (B : bounds R) (G : grid R), proper P -> grid_init P B = Ok G -> ThmWalls.plain B ->
  has_left B = has_right B -> cyclic_lr B = true -> ends_join P G.
Proof.
  intros P B G HP EG HB HLR HC j Hj. destruct (p_C91_ends P B G HP EG HB HLR j Hj) as [A1 A2].
  destruct (p_C15_volumes_cyclic P B G HP EG HC) as [_ V]. pose proof HP as (Hx & Hy & _).
  split; [exact A1|]. split; [exact A2|]. split; [|rewrite (V j (nx P - 1)%nat); [reflexivity|exact Hj|lia]].
  apply grid_init_parts in EG. destruct EG as (_ & _ & _ & _ & _ & Ec).
  assert (E : forall k, (k < nodes P)%nat -> ~ (2 <= k < nx P - 2)%nat -> nth k (bconv G) false = false).
  { intros k Hk NK. apply not_true_is_false. intros T. apply NK. revert T. rewrite Ec. unfold boundary_conv. marks. cbn [orb].
    rewrite andb_true_iff. intros [_ T]. revert T. destruct (Z_lt_le_dec (Z.of_nat (nx P) - 2) 0).
    - lia.
    - rewrite in_slice_range by (unfold nodes in *; lia). rewrite andb_true_iff, Z.leb_le, Z.ltb_lt. lia. }
  rewrite !E; [reflexivity| | | |]; unfold nodes; destruct j; nia.
Qed.

Lemma loop_keeps uf fill (s s' : state R) : proper (pG (sP s)) -> grid_ok (pG (sP s)) (sG s) ->
  all_live (sL s) (fun _ p => in_dom (pG (sP s)) (px p)) -> looped (sP s) -> covered (sL s) -> own_velocities (sL s) ->
  time_march uf fill s = Ok s' ->
  map ph_sol (sL s') = map ph_sol (sL s) /\ covered (sL s') /\ own_velocities (sL s') /\ (counted (sL s) -> counted (sL s')).
Proof.
  intros HP HG HD HS HL HO E. pose proof HS as (Hs & Hc & Hh & O1 & O2 & I1 & I2).
  destruct (march_ring uf fill s s' HP HG HD Hs Hc E) as
    (S1 & L1 & L3 & L4 & L5 & G1 & Gc & G3 & G4 & Gf & G5 & G6 & HS1 & E1 & R1 & R3 & E2 & F1 & EC & FC & Lm1 & Lq1 & Lmc & Lqc &
     E3 & R4 & F3 & Lo & E4 & LF & EF & FF & LF4 & E5 & Z4 & Z5 & E6 & EP & EG & PM & EI).
  set (P := sP s <| p_loads := uf (sP s) |>) in *. set (Pg := pG (sP s)) in *.
  assert (IO : Lrel (fun _ p p' => p' = wrap Pg p) L5 (sL s')).
  { unfold inout in EI. change (pB P) with (pB (sP s)) in EI. rewrite O1, O2, I1, I2, Hc in EI. cbn [bind] in EI. exact (wrap_bodies P L5 (sL s') EI). }
  apply covered_lawful in HL. destruct HL as [HL HL2].
  assert (D1 : all_live L1 (fun ph p => lawful (ph_sol ph) p /\ exists v, pv p = Own v)).
  { eapply (Lrel_all_live _ (sL s) L1 (fun ph p => lawful (ph_sol ph) p /\ exists v, pv p = Own v)); [exact R1| |].
    - cbv beta. intros ph p ph' p' _ _ ES _ _ [b ->] [X1 X2]. rewrite ES. split; [exact X1|exact X2].
    - intros ph p A C. split; [exact (HL ph p A C)|exact (HO ph p A C)]. }
  assert (D3 : all_live L3 (fun ph p => lawful (ph_sol ph) p /\ exists v, pv p = Own v)).
  { eapply (Lrel_all_live _ L1 L3); [exact R3| |exact D1]. cbv beta. intros ph p ph' p' _ _ ES _ _ [D ->] [X1 X2]. rewrite ES. split; [exact X1|exact X2]. }
  unfold stress_strain in E3. pbinds E3. change (cyclic_lr (pB P)) with (cyclic_lr (pB (sP s))) in E3. rewrite Hc in E3. pbinds E3. injection E3 as E3a E3b.
  match goal with H : points _ _ _ = Ok (?l, ?g) |- _ => rename H into EQ; rename l into La; rename g into Ga end.
  rewrite E3a in EQ.
  assert (R5 : Lrel (fun ph p p' => strained p p' /\ (lawful (ph_sol ph) p -> lawful (ph_sol ph) p')) L3 L4).
  { apply (points_rel (stress_one P a) (fun _ => True) (fun ph p p' => strained p p' /\ (lawful (ph_sol ph) p -> lawful (ph_sol ph) p')) L3 Gc L4 Ga) in EQ; [apply EQ|exact I|].
    intros k ph p G2 p' G2' A C V X. split; [exact I|]. pose proof (stress_one_rel _ _ _ _ _ _ _ _ X) as (X1 & _). split; [exact X1|]. apply (stress_lawful _ _ _ _ _ _ _ _ X). }
  assert (D4 : all_live L4 (fun ph p => lawful (ph_sol ph) p /\ exists v, pv p = Own v)).
  { eapply (Lrel_all_live _ L3 L4); [exact R5| |exact D3]. cbv beta. intros ph p ph' p' _ _ ES _ _ (X & Y) (Z1 & Z2). rewrite ES.
    split; [auto|]. unfold strained, law_frame in X. rewrite X. exact Z2. }
  assert (SO4 : map ph_sol L4 = map ph_sol (sL s)) by (rewrite (Lrel_sol _ _ _ R5), (Lrel_sol _ _ _ R3); apply (Lrel_sol _ _ _ R1)).
  assert (SO5 : map ph_sol L5 = map ph_sol L4).
  { clear - PM. induction PM as [|ph ph' L L' (A1 & _) PM IH]; [reflexivity|]. cbn [map]. rewrite A1, IH. reflexivity. }
  assert (D5 : all_live L5 (fun ph p => lawful (ph_sol ph) p /\ exists v, pv p = Own v)).
  { clear - PM D4. induction PM as [|ph ph' L L' (A1 & A2 & A3 & A4 & _) PM IH]; [intros ? ? []|].
    intros ph1 p1 [<-|A] C.
    - assert (K : forall p, In p (live ph) -> lawful (ph_sol ph) p /\ exists v, pv p = Own v) by (intros p Hp; apply (D4 ph p); [left; reflexivity|exact Hp]).
      clear - A1 A4 C K. rewrite A1. revert C K. set (l := live ph) in *. set (l' := live ph') in *. clearbody l l'.
      intros C K. induction A4 as [|p p' l l' X A4 IH]; [destruct C|]. destruct C as [<-|C]; [|apply IH; [exact C|intros; apply K; right; assumption]].
      destruct (K p (or_introl eq_refl)) as [K1 [v K2]]. destruct (is_rigid (s_law (ph_sol ph))).
      + destruct X as (w & _ & ->). split; [exact K1|exists w; reflexivity].
      + destruct X as (Y1 & Y2 & Y3). rewrite K2 in Y3. destruct Y3 as (v' & V & _). split; [rewrite Y1; exact K1|exists v'; exact V].
    - apply (IH (fun q p Q => D4 q p (or_intror Q)) ph1 p1 A C). }
  assert (D6 : all_live (sL s') (fun ph p => lawful (ph_sol ph) p /\ exists v, pv p = Own v)).
  { eapply (Lrel_all_live _ L5 (sL s')); [exact IO| |exact D5]. cbv beta. intros ph p ph' p' _ _ ES _ _ -> [X1 X2]. rewrite ES, (wrap_rest Pg p). split; [exact X1|exact X2]. }
  assert (SO6 : map ph_sol (sL s') = map ph_sol L4) by (rewrite (Lrel_sol _ _ _ IO); exact SO5).
  split; [rewrite SO6; exact SO4|]. split; [|split].
  - apply covered_lawful. split; [intros ph p A C; apply (D6 ph p A C)|].
    intros ph A. destruct (map_in_sol L4 (sL s') ph SO6 A) as (ph0 & A0 & <-). destruct (map_in_sol (sL s) L4 ph0 SO4 A0) as (ph1 & A1 & <-). apply HL2. exact A1.
  - intros ph p A C. apply (D6 ph p A C).
  - intros HC. apply (Lrel_counted _ _ _ IO).
    assert (C4 : counted L4) by (apply (Lrel_counted _ _ _ R5), (Lrel_counted _ _ _ R3), (Lrel_counted _ _ _ R1), HC).
    clear - PM C4. unfold counted in *. induction PM as [|ph ph' L L' (A1 & A2 & A3 & _) PM IH]; [intros ? []|].
    intros ph1 [<-|A]; [rewrite A2, A3; apply C4; left; reflexivity|apply IH; [intros; apply C4; right; assumption|exact A]].
Qed.

(** What a run of the scheme on the cylinder needs from the state it starts with. *)
Record hoop (s : state R) : Prop := {
  ho_proper : proper (pG (sP s));
  ho_grid : grid_ok (pG (sP s)) (sG s);
  ho_ends : ends_join (pG (sP s)) (sG s);
  ho_laws : covered (sL s);
  ho_own : own_velocities (sL s);
  ho_looped : looped (sP s);
  ho_rub : no_rub (pB (sP s));
  ho_dt : 0 < p_dt (sP s);
  ho_tol : 0 <= p_Mtol (sP s);
  ho_fixed : p_dynamic (sP s) = false }.

Lemma mesh_ok (P : gridp R) (G G' : grid R) : mesh G' = mesh G -> bv G' = bv G -> bh G' = bh G -> grid_ok P G -> grid_ok P G'.
Proof.
  intros ME MV MH H2. unfold mesh in ME.
  pose proof (f_equal (fun t => fst (fst (fst t))) ME) as X1. pose proof (f_equal (fun t => snd (fst (fst t))) ME) as X2.
  pose proof (f_equal (fun t => fst (snd (fst t))) ME) as X3. pose proof (f_equal (fun t => snd (snd (fst t))) ME) as X4.
  pose proof (f_equal (fun t => fst (fst (snd t))) ME) as X5. pose proof (f_equal (fun t => snd (fst (snd t))) ME) as X6.
  pose proof (f_equal (fun t => snd (snd t)) ME) as X7. cbn [fst snd] in X1, X2, X3, X4, X5, X6, X7.
  destruct H2. constructor; rewrite ?X1, ?X2, ?X3, ?X4, ?X5, ?X6, ?X7, ?MV, ?MH; assumption.
Qed.
Lemma o_run_grid uf rho n : forall P (G G' : grid R) B, bv G' = bv G -> bh G' = bh G -> bconv G' = bconv G -> gV G' = gV G ->
  o_run uf rho n P G' B = o_run uf rho n P G B.
Proof.
  induction n as [|n IH]; intros P G G' B A1 A2 A3 A4; [reflexivity|]. cbn [o_run]. rewrite (ambient_grid P rho _ G G') by assumption. apply IH; assumption.
Qed.

Lemma hoop_pass uf fill (s : state R) tr s' tr' S0 : hoop s -> all_live (sL s) (fun _ p => in_dom (pG (sP s)) (px p)) ->
  sol0 (sL s) = Ok S0 -> pass uf fill s tr = Ok (s', tr') ->
  hoop s' /\ sol0 (sL s') = Ok S0 /\ map ph_sol (sL s') = map ph_sol (sL s) /\ (counted (sL s) -> counted (sL s')) /\ sP s' = ticked uf (sP s) /\
  (bv (sG s') = bv (sG s) /\ bh (sG s') = bh (sG s) /\ bconv (sG s') = bconv (sG s) /\ gV (sG s') = gV (sG s)) /\
  cloud (sP s) (sL s') = o_step (ambient_of (sP s) (s_rho S0) (uf (sP s)) (sG s)) (cloud (sP s) (sL s)).
Proof.
  intros HW HD H0 E. pose proof HW as [H1 H2 HJ H3 H4 H5 H6 H7 H8 H9]. pose proof H5 as (Hs & Hc & _).
  assert (RR : reach uf fill s s') by (eapply reach_S; [apply reach_0|exact E]).
  destruct (p_C82_mesh R Num_R uf fill s s' RR) as [ME HM]. specialize (HM (no_rub_mu _ H6)). destruct HM as [MV MH].
  assert (MC : bconv (sG s') = bconv (sG s) /\ gV (sG s') = gV (sG s)) by (unfold mesh in ME; split; injection ME; auto). destruct MC as [MC MG].
  destruct (pass_fixed uf fill s tr s' tr' H9 E) as (s1 & E1 & EL & EG & EP).
  destruct (loop_keeps uf fill s s1 H1 H2 HD H5 H3 H4 E1) as (K1 & K2 & K3 & K4).
  split; [|split; [rewrite EL; eapply sol0_map; eauto|split; [rewrite EL; exact K1|split; [rewrite EL; exact K4|split; [exact EP|split]]]]].
  - constructor; rewrite ?EP; try assumption; unfold ticked; try assumption; rewrite ?EL; try assumption.
    + exact (mesh_ok _ _ _ ME MV MH H2).
    + intros j Hj. rewrite MV, MH, MC, MG. apply HJ. exact Hj.
  - auto.
  - rewrite EL. apply (p_C107_step uf fill s s1); assumption.
Qed.

(** A run with joined ends and a fixed time step, of any of the eight materials, gives the points of the scheme on the
    cylinder, pass by pass, as long as that scheme, run on its own, keeps its points in the domain. *)
Lemma p_C107_run : forall uf fill n (s : state R) tr s' tr' S0, hoop s -> sol0 (sL s) = Ok S0 ->
  (forall j, (j < n)%nat -> Forall (fun q => in_dom (pG (sP s)) (z_x q))
                                  (o_run uf (s_rho S0) j (sP s) (sG s) (cloud (sP s) (sL s)))) ->
  after uf fill n s tr = Ok (s', tr') ->
  sP s' = clock uf n (sP s) /\ cloud (sP s) (sL s') = o_run uf (s_rho S0) n (sP s) (sG s) (cloud (sP s) (sL s)).
Proof.
  intros uf fill n. induction n as [|n IH]; intros s tr s' tr' S0 HW H0 HI E.
  - cbn [after] in E. injection E as <- _. split; reflexivity.
  - cbn [after] in E. destruct (pass uf fill s tr) as [[s1 tr1]|] eqn:E1; [|discriminate].
    pose proof (HI 0%nat (Nat.lt_0_succ n)) as HI0. cbn [o_run] in HI0.
    assert (HD := cloud_live (sP s) (sL s) (fun x => in_dom (pG (sP s)) x) 0 HI0).
    destruct (hoop_pass uf fill s tr s1 tr1 S0 HW HD H0 E1) as (W1 & H1 & _ & _ & EP & (M1 & M2 & M3 & M4) & EB).
    assert (CC : forall L, cloud (sP s1) L = cloud (sP s) L) by (intros L; apply cloud_pG; rewrite EP; reflexivity).
    destruct (IH s1 tr1 s' tr' S0 W1 H1) as (A2 & A3); [|exact E|].
    + intros j Hj. specialize (HI (Datatypes.S j) (proj1 (Nat.succ_lt_mono j n) Hj)). cbn [o_run] in HI.
      rewrite CC, EP, EB, (o_run_grid uf _ j _ (sG s) (sG s1)) by assumption. exact HI.
    + cbn [clock o_run]. rewrite A2, <- (CC (sL s')), A3, CC, EP, EB. split; [reflexivity|]. apply o_run_grid; assumption.
Qed.

(** All but the grains, whose law reads lists: the passes never fail as long as the points stay in the domain. *)
Lemma p_C107_total : forall uf fill n (s : state R) tr S0, hoop s -> provided s -> sol0 (sL s) = Ok S0 ->
  (forall j, (j < n)%nat -> Forall (fun q => in_dom (pG (sP s)) (z_x q) /\ (p_check (sP s) = true -> vz (z_x q) = 0))
                                  (o_run uf (s_rho S0) j (sP s) (sG s) (cloud (sP s) (sL s)))) ->
  exists s' tr', after uf fill n s tr = Ok (s', tr') /\ cloud (sP s) (sL s') = o_run uf (s_rho S0) n (sP s) (sG s) (cloud (sP s) (sL s)).
Proof.
  intros uf fill n. induction n as [|n IH]; intros s tr S0 HW HV H0 HI.
  - exists s, tr. split; reflexivity.
  - pose proof (HI 0%nat (Nat.lt_0_succ n)) as HI0. cbn [o_run] in HI0.
    assert (HD := cloud_live (sP s) (sL s) (fun x => in_dom (pG (sP s)) x /\ (p_check (sP s) = true -> vz x = 0)) 0 HI0).
    assert (HD' : all_live (sL s) (fun _ p => in_dom (pG (sP s)) (px p))) by (intros ph p A C; apply (HD ph p A C)).
    pose proof HV as [V1 V2 V3 V4 V5 V6 V7]. pose proof (ho_looped _ HW) as (Hs & Hc & Hh & O1 & O2 & I1 & I2).
    assert (HR : ready s).
    { constructor; auto; try apply HW. rewrite O1. discriminate. }
    destruct (p_C58_pass_total uf fill s tr HR (ho_fixed _ HW) V6 V7) as [[s1 tr1] E].
    destruct (hoop_pass uf fill s tr s1 tr1 S0 HW HD' H0 E) as (W1 & H1 & SO & K & EP & (M1 & M2 & M3 & M4) & EB).
    assert (P1 : provided s1).
    { constructor; rewrite ?EP; unfold ticked; try assumption; auto.
      - destruct V2 as (S1 & A & B). exists S1. split; [eapply sol0_map; eauto|]. exact (sol_in _ _ (equipped S1) SO B).
      - intros ph A. destruct (map_in_sol _ _ _ SO A) as (ph0 & A0 & <-). apply (V3 ph0 A0). }
    assert (CC : forall L, cloud (sP s1) L = cloud (sP s) L) by (intros L; apply cloud_pG; rewrite EP; reflexivity).
    destruct (IH s1 tr1 S0 W1 P1 H1) as (s' & tr' & A1 & A2).
    + intros j Hj. specialize (HI (Datatypes.S j) (proj1 (Nat.succ_lt_mono j n) Hj)). cbn [o_run] in HI.
      rewrite CC, EP, EB, (o_run_grid uf _ j _ (sG s) (sG s1)) by assumption. exact HI.
    + exists s', tr'. cbn [after o_run]. rewrite E. split; [exact A1|]. rewrite <- (CC (sL s')), A2, CC, EP, EB. apply o_run_grid; assumption.
Qed.

Definition hoop_bounds : bounds R :=
  mkBounds false false false None false true true true false false false false false false false true false true false false.
Definition hoop_params : params R := ex_params hoop_bounds <| p_v0 := Some 1 |> <| p_intruder_v := Some (mkV3 (-3) 0 0) |>.
Definition hoop_state (G : grid R) : state R :=
  mkState hoop_params G [mix_phase ElasticTime (1/4); mix_phase KenKamrin (3/4); mix_phase Rigid (1/8); mix_phase Bingham (7/4); mix_phase VonMises (9/4)].
Lemma hoop_example G : grid_init ex_gridp hoop_bounds = Ok G -> hoop (hoop_state G) /\ provided (hoop_state G).
Proof.
  intros EG. destruct (grid_init_ok ex_gridp hoop_bounds ex_proper) as (G' & EG' & OK). rewrite EG in EG'. injection EG' as <-. split.
  - constructor; try reflexivity; try (cbn; unR; lra).
    + exact ex_proper.
    + exact OK.
    + apply (p_C107_ends ex_gridp hoop_bounds); try reflexivity; try assumption; [exact ex_proper|repeat split].
    + intros ph [<-|[<-|[<-|[<-|[<-|[]]]]]]; cbn [s_law ph_sol mix_phase mix_solid]; try exact I; intros p [<-|[]]; reflexivity.
    + intros ph p [<-|[<-|[<-|[<-|[<-|[]]]]]] [<-|[]]; eexists; reflexivity.
    + repeat split; reflexivity.
    + left. reflexivity.
  - constructor; try reflexivity; try (cbn; unfold lit; unR; lra).
    + intros ph [<-|[<-|[<-|[<-|[<-|[]]]]]]; reflexivity.
    + exists (mix_solid ElasticTime). split; [reflexivity|].
      intros ph [<-|[<-|[<-|[<-|[<-|[]]]]]]; unfold equipped; cbn [s_law ph_sol mix_phase mix_solid]; unfold scalar_attr, has; cbn; repeat split; try discriminate; eexists; reflexivity.
    + intros ph _ _. discriminate.
    + intros _. discriminate.
Qed.

(** Four materials on a cylinder with a belt and a load on the surface, and an intruder which leaves through one end
    and comes back at the other. *)
Example x_C107_total : forall fill, exists (s : state R) S0, hoop s /\ provided s /\ sol0 (sL s) = Ok S0 /\
  (forall j, (j < 1)%nat -> Forall (fun q => in_dom (pG (sP s)) (z_x q) /\ (p_check (sP s) = true -> vz (z_x q) = 0))
                                  (o_run mix_loads (s_rho S0) j (sP s) (sG s) (cloud (sP s) (sL s)))) /\
  conveyor (pB (sP s)) = true /\ vertical_force (pB (sP s)) = true /\ length (cloud (sP s) (sL s)) = 5%nat /\
  exists s' tr', after mix_loads fill 1 s [] = Ok (s', tr') /\ cloud (sP s) (sL s') = o_run mix_loads (s_rho S0) 1 (sP s) (sG s) (cloud (sP s) (sL s)) /\
  exists q, In q (cloud (sP s) (sL s')) /\ z_stuff q = Intruder /\ 2 < vx (z_x q).
Proof.
  intros fill. destruct (grid_init_ok ex_gridp hoop_bounds ex_proper) as (G & EG & OK).
  set (s := hoop_state G). destruct (hoop_example G EG) as [W V].
  assert (H : forall j, (j < 1)%nat -> Forall (fun q => in_dom (pG (sP s)) (z_x q) /\ (p_check (sP s) = true -> vz (z_x q) = 0))
                                  (o_run mix_loads (s_rho (mix_solid ElasticTime)) j (sP s) (sG s) (cloud (sP s) (sL s)))).
  { intros [|j] Hj; [|lia]. cbn [o_run]. repeat constructor; cbn; unR; lra. }
  exists s, (mix_solid ElasticTime). split; [exact W|]. split; [exact V|]. split; [reflexivity|]. split; [exact H|].
  split; [reflexivity|]. split; [reflexivity|]. split; [reflexivity|].
  destruct (p_C107_total mix_loads fill 1 s [] (mix_solid ElasticTime) W V eq_refl H) as (s' & tr' & A & B).
  exists s', tr'. split; [exact A|]. split; [exact B|].
  rewrite B. cbn [o_run]. unfold o_step. set (E := ambient_of _ _ _ _). set (C := cloud _ _). set (C1 := map _ C).
  exists (o_moved E C C1 (o_strained E C (point_of (sP s) 2 (mix_phase Rigid (1/8)) (ex_particle (1/8) (1/2) (mkV3 1 0 0) ex_stress)))).
  split; [|split].
  - apply in_map. apply in_map. right. right. left. reflexivity.
  - reflexivity.
  - cbn. unfold home. cbn. unfold girth. destruct (Rlt_dec _ _) as [X|X]; cbn in *; unR; lra.
Qed.
