(** * A run with cyclic boundaries is a run of the scheme on a cylinder: C91. *)
From Coq Require Import ZArith Reals List Bool Arith Lra Lia.
From Verif Require Import State NumR Spec SpecLaws SpecStep SpecScheme SpecRing LibList LibR ModelGrid ModelConstit ModelParticle ModelMPList
  ModelIntegr ModelMain ProofsGrid ProofsMap ProofsP2G ProofsWalls ProofsLaws ProofsInOut ProofsHist Concrete
  ThmMapping ThmWalls ThmLaws ThmInOut ThmHist ProofsStep ProofsPoints ThmStep ThmBalance ThmEnergy ThmFall ThmGeo ProofsScheme ThmScheme
  ProofsRing.
Import ListNotations.
Local Open Scope R_scope.

(** ** C91 *)
(** A simulation with cyclic_lr, and none of segregation, conveyor, inlets and outlets. *)
Definition ring_only {T} (P : params T) : Prop :=
  p_seg P = false /\ cyclic_lr (pB P) = true /\ conveyor (pB P) = false /\
  outlet_left (pB P) = false /\ outlet_bottom (pB P) = false /\ inlet_right (pB P) = false /\ inlet_top (pB P) = false.

Lemma ends_open P (G : grid R) rough a k : proper P -> ends_agree P G -> (k < nodes P)%nat ->
  passes rough G a (k / nx P * nx P + rc P k) = passes rough G a k.
Proof.
  intros HP HE Hk. pose proof (row_lt P HP k Hk) as Hr. pose proof (node_eq P HP k) as EK. unfold rc.
  destruct (Nat.eqb_spec (k mod nx P) (nx P - 1)) as [C|C]; [|rewrite <- EK; reflexivity].
  destruct (HE _ Hr) as [A B]. unfold passes. rewrite Nat.add_0_r, A, B. rewrite C in EK. rewrite <- EK. reflexivity.
Qed.
Lemma tie_open P (G : grid R) rough a g k : proper P -> ends_agree P G -> (k < nodes P)%nat ->
  tie P (fun k => passes rough G a k * g k) k = passes rough G a k * tie P g k.
Proof.
  intros HP HE Hk. pose proof (row_lt P HP k Hk) as Hr. pose proof (node_eq P HP k) as EK.
  destruct (HE _ Hr) as [A B]. unfold tie.
  destruct (Nat.eqb_spec (k mod nx P) 0) as [C|C].
  - rewrite C, Nat.add_0_r in EK. replace (passes rough G a (k + (nx P - 1))) with (passes rough G a k); [ring|].
    unfold passes. rewrite <- EK in A, B. rewrite A, B. reflexivity.
  - destruct (Nat.eqb_spec (k mod nx P) (nx P - 1)) as [D|D]; [|ring].
    replace (passes rough G a (k - (nx P - 1))) with (passes rough G a k); [ring|].
    unfold passes. rewrite D in EK. rewrite <- EK in A, B. replace (k - (nx P - 1))%nat with (k / nx P * nx P)%nat by lia. rewrite A, B. reflexivity.
Qed.
Lemma nadd_R (a b : R) : (a + b)%num = a + b.
Proof. unR. reflexivity. Qed.
Lemma comp_vadd a (u v : V3 R) : comp a (vadd u v) = comp a u + comp a v.
Proof. destruct a; reflexivity. Qed.

Lemma wrap_bodies (P : params R) L L' : cyclic_lr_f P L = Ok L' ->
  Lrel (fun _ p p' => p' = wrap (pG P) p) L L'.
Proof. intros E. eapply points__rel; [|exact E]. intros k ph p p' _ _ X. injection X as <-. reflexivity. Qed.
Lemma wrap_back P (p : particle R) E : e_P E = P -> px (wrap P p) = back E (px p).
Proof.
  intros EP. unfold wrap, back, girth. rewrite EP. cbv zeta.
  change (@nltb R _) with Rltb. destruct (Rlt_dec (vx (px p)) (x_m P)) as [C|C].
  - assert (B : Rltb (vx (px p)) (x_m P) = true) by (apply Rltb_true; exact C). rewrite B. cbn [px set setx vx].
    assert (B2 : Rltb (x_M P) (vx (px p) + (x_M P - x_m P))%num = false) by (unR; apply Rltb_false; lra).
    rewrite B2. reflexivity.
  - assert (B : Rltb (vx (px p)) (x_m P) = false) by (apply Rltb_false; lra). rewrite B. rewrite Rltb_dec.
    destruct (Rlt_dec _ _); reflexivity.
Qed.
Lemma wrap_rest P (p : particle R) : wrap P p = p <| px := px (wrap P p) |>.
Proof. unfold wrap. cbv zeta. destruct p. destruct (_ <? _)%num; cbn [State.px set]; destruct (_ <? _)%num; reflexivity. Qed.

(** One step of the code with cyclic_lr is one step of the scheme on the cylinder. *)
Lemma p_C91_step : forall uf fill (s s' : state R), proper (pG (sP s)) -> grid_ok (pG (sP s)) (sG s) ->
  all_live (sL s) (fun _ p => in_dom (pG (sP s)) (px p)) -> ring_only (sP s) -> ends_agree (pG (sP s)) (sG s) -> no_rub (pB (sP s)) ->
  simple_laws (sL s) -> own_velocities (sL s) -> no_surface (sP s) (uf (sP s)) ->
  time_march uf fill s = Ok s' ->
  bodies (sL s') = r_step (scheme_of (sP s) (uf (sP s)) (sG s)) (bodies (sL s)).
Proof.
  intros uf fill s s' HP HG HD HS HE NR HL HO (LV & LH) E.
  pose proof HS as (Hs & Hc & Hv & O1 & O2 & I1 & I2).
  destruct (march_ring uf fill s s' HP HG HD Hs Hc E) as
    (S1 & L1 & L3 & L4 & L5 & G1 & Gc & G3 & G4 & Gf & G5 & G6 & HS1 & E1 & R1 & R3 & E2 & F1 & EC & FC & Lm1 & Lq1 & Lmc & Lqc &
     E3 & R4 & F3 & Lo & E4 & LF & EF & FF & LF4 & E5 & Z4 & Z5 & E6 & EP & EG & PM & EI).
  set (P := sP s <| p_loads := uf (sP s) |>) in *. set (Pg := pG (sP s)) in *.
  set (SC := scheme_of (sP s) (uf (sP s)) (sG s)). set (B := bodies (sL s)).
  destruct (force_loop_spec P L4 G3 G4 LF E4) as (F4 & _ & FI & FE).
  pose proof (BCs_frame _ _ _ _ E5) as F5. destruct (um_shape P G5 G6 E6) as [F6 _].
  pose proof (p_C49_surface_loads P (s_rho S1) Gf G5 Z4 HP) as SL.
  destruct (wipe_geo (sP s) (sG s)) as (W1 & W2 & _ & _ & _ & W6 & W7 & _).
  assert (M1 := p2g_all_mass P L3 (wipe (sP s) (sG s)) G1 (wipe_lens (sP s) (sG s)) E2).
  assert (Q1 := p2g_all_mom P L3 (wipe (sP s) (sG s)) G1 (wipe_lens (sP s) (sG s))).
  rewrite W6, W7 in Q1. specialize (Q1 (go_bv _ _ HG) (go_bh _ _ HG) E2).
  destruct M1 as (_ & _ & M1). destruct Q1 as (_ & Q1).
  unfold frame_all in F1. unfold vis_frame in F3. unfold frame_f in F4. unfold force_frame in F5.
  assert (EX : forall k, nth k (gext Gf) v0 = v0).
  { intros k. rewrite FF. cbn. rewrite F4. cbn. rewrite F3. cbn. rewrite FC. cbn. rewrite F1. cbn. rewrite wipe_ext. apply nth_repeat_same. }
  assert (FI3 : gfi G3 = repeat v0 (nodes Pg)). { rewrite F3. cbn. rewrite FC. cbn. rewrite F1. cbn. apply wipe_fi. }
  assert (FE3 : gfe G3 = repeat v0 (nodes Pg)). { rewrite F3. cbn. rewrite FC. cbn. rewrite F1. cbn. apply wipe_fe. }
  assert (FI5 : gfi G5 = gfi Gf) by (eapply BCs_fi; exact E5).
  assert (EQ5 : gq G5 = gq Gc). { rewrite F5. cbn. rewrite FF. cbn. rewrite F4. cbn. rewrite F3. reflexivity. }
  assert (EM6 : gm G6 = gm Gc). { rewrite F6. cbn. rewrite F5. cbn. rewrite FF. cbn. rewrite F4. cbn. rewrite F3. reflexivity. }
  assert (BV : bv G5 = bv (sG s) /\ bh G5 = bh (sG s)).
  { rewrite F5. cbn. rewrite FF. cbn. rewrite F4. cbn. rewrite F3. cbn. rewrite FC. cbn. rewrite F1. cbn. split; assumption. }
  destruct BV as [BV BH].
  specialize (SL EX E5). cbv zeta in SL.
  pose proof EC as EC'. unfold cyc_mq in EC'. pbinds EC'.
  match goal with H : cyc nadd _ _ = Ok ?x, H' : cyc vadd _ _ = Ok ?y |- _ => rename H into ECM; rename H' into ECQ; rename x into m1; rename y into q1 end.
  assert (gmc : gm Gc = m1 /\ gq Gc = q1) by (injection EC' as <-; auto). destruct gmc as [Em1 Eq1]. subst m1 q1. clear EC'.
  pose proof EF as EF'. unfold cyc_forces in EF'. pbinds EF'.
  match goal with H : cyc vadd _ (gfi G4) = Ok ?x, H' : cyc vadd _ (gfe G4) = Ok ?y |- _ => rename H into ECI; rename H' into ECE; rename x into i1; rename y into e1 end.
  assert (gff : gfi Gf = i1 /\ gfe Gf = e1) by (injection EF' as <-; auto). destruct gff as [Ei1 Ee1]. subst i1 e1. clear EF'.
  change (nx (pG P)) with (nx Pg) in ECM, ECQ, ECI, ECE.
  (* the located points *)
  assert (D0 : all_live L1 (fun ph p => exists v, pv p = Own v)).
  { eapply (Lrel_all_live _ (sL s) L1); [exact R1| |exact HO]. cbv beta. intros ph p ph' p' _ _ _ _ _ [b ->] X. exact X. }
  assert (D3 : all_live L3 (fun ph p => located Pg p /\ in_dom Pg (px p) /\ exists v, pv p = Own v)).
  { eapply (Lrel_all_live _ L1 L3); [exact R3| |exact D0]. cbv beta. intros ph p ph' p' _ _ _ _ _ [D ->] X.
    split; [apply locate_located; exact D|]. split; [exact D|exact X]. }
  assert (B3 : bodies L3 = map (grav (e_g SC)) B).
  { unfold bodies. rewrite (Lrel_bodies _ (fun q => q) L1 L3 R3).
    - rewrite map_id. exact (gravity_bodies P (sL s) L1 E1).
    - cbv beta. intros k ph ph' p p' _ _ ES EV [_ ->]. unfold mp_of, velocity. rewrite ES, EV. reflexivity. }
  assert (DB : forall q, In q B -> in_dom Pg (q_x q)).
  { assert (X : forall k L, all_live L (fun _ p => in_dom Pg (px p)) -> forall q, In q (bodies_from k L) -> in_dom Pg (q_x q)).
    { intros k L. revert k. induction L as [|ph L IH]; intros k HA q A; [destruct A|]. cbn [bodies_from] in A. apply in_app_iff in A. destruct A as [A|A].
      - apply in_map_iff in A. destruct A as (p & <- & A). apply (HA ph p (or_introl eq_refl) A).
      - apply (IH (Datatypes.S k)); [|exact A]. intros ph0 p0 C. apply HA. right. exact C. }
    exact (X 0%nat (sL s) HD). }
  assert (HL3 : simple_laws L3).
  { intros ph A. destruct (map_in_sol (sL s) L3 ph) as (ph0 & A0 & <-); [rewrite (Lrel_sol _ _ _ R3); apply (Lrel_sol _ _ _ R1)|exact A|].
    apply HL; exact A0. }
  assert (TH : forall k x, (k < nodes Pg)%nat -> in_dom Pg x -> tie Pg (hat Pg x) k = rhat Pg x (rc Pg k) (k / nx Pg)).
  { intros k x Hk X. rewrite tie_ring by exact HP. apply tie_hat; [exact HP|exact X|apply rc_lt; exact HP]. }
  assert (TG : forall k x b, (k < nodes Pg)%nat -> in_dom Pg x -> tie Pg (ghat Pg x b) k = rghat Pg x b (rc Pg k) (k / nx Pg)).
  { intros k x b Hk X. rewrite tie_ring by exact HP. apply tie_ghat; [exact HP|exact X|apply rc_lt; exact HP]. }
  (* nodal mass and velocity *)
  assert (MK : forall k, (k < nodes Pg)%nat -> nth k (gm Gc) 0 = r_mass SC B (rc Pg k) (k / nx Pg)).
  { intros k Hk. destruct (cyc_tie Pg HP nadd 0 (fun x => x) (gm G1) (gm Gc) nadd_R Lm1 ECM) as [_ X].
    rewrite X by exact Hk.
    rewrite (tie_ext Pg HP _ (fun k => Rsum (map (fun q => q_m q * hat Pg (q_x q) k) B)) k Hk).
    - rewrite tie_Rsum. unfold r_mass. apply Rsum_ext. intros q A. rewrite tie_scal, (TH k _ Hk (DB q A)). reflexivity.
    - intros j Hj. rewrite M1, wipe_m, Rplus_0_l. unfold mass_at.
      rewrite (psum_ext L3 _ (fun _ p => pm p * hat Pg (px p) j)).
      2:{ intros ph p A C. rewrite (wt_hat P p j HP); [reflexivity|apply (D3 ph p A C)]. }
      rewrite (psum_bodies (fun _ p => pm p * hat Pg (px p) j) (fun q => q_m q * hat Pg (q_x q) j) L3 (fun _ _ _ => eq_refl) 0%nat).
      change (bodies_from 0 L3) with (bodies L3). rewrite B3, Rsum_map_map. reflexivity. }
  assert (VK : forall a k, (k < nodes Pg)%nat -> node_v P Gc a k = r_vel SC B a (rc Pg k) (k / nx Pg)).
  { intros a k Hk. unfold node_v, r_vel. rewrite <- MK by exact Hk. change (p_Mtol P) with (e_tol SC). rewrite Rltb_dec.
    destruct (Rlt_dec _ _); [|reflexivity]. f_equal.
    destruct (cyc_tie Pg HP vadd v0 (comp a) (gq G1) (gq Gc) (comp_vadd a) Lq1 ECQ) as [_ X]. rewrite X by exact Hk.
    rewrite (tie_ext Pg HP _ (fun k => passes (roughness (pB (sP s))) (sG s) a k * Rsum (map (fun q => q_m q * comp a (q_v q) * hat Pg (q_x q) k) B)) k Hk).
    - rewrite (tie_open Pg (sG s)) by assumption. rewrite tie_Rsum. unfold r_open. change (e_P SC) with Pg.
      cbn [SC e_open scheme_of]. rewrite (ends_open Pg (sG s)) by assumption. f_equal.
      apply Rsum_ext. intros q A. rewrite tie_scal, (TH k _ Hk (DB q A)). reflexivity.
    - intros j Hj. rewrite Q1, wipe_q, comp_v0, Rplus_0_l, open_passes. f_equal.
      unfold mom_at. rewrite (psum_ext L3 _ (fun ph p => pm p * comp a (velocity ph p) * hat Pg (px p) j)).
      2:{ intros ph p A C. rewrite (wt_hat P p j HP); [change (pG P) with Pg; ring|apply (D3 ph p A C)]. }
      rewrite (psum_bodies (fun ph p => pm p * comp a (velocity ph p) * hat Pg (px p) j) (fun q => q_m q * comp a (q_v q) * hat Pg (q_x q) j) L3 (fun _ _ _ => eq_refl) 0%nat).
      change (bodies_from 0 L3) with (bodies L3). rewrite B3, Rsum_map_map. reflexivity. }
  (* strain and stress *)
  assert (SD : forall x a b, in_dom Pg x -> fsum (nodes Pg) (fun k => (node_v P Gc a k * ghat Pg x b k + node_v P Gc b k * ghat Pg x a k) / 2) =
     rsum SC (fun i j => (r_vel SC B a i j * rghat Pg x b i j + r_vel SC B b i j * rghat Pg x a i j) / 2)).
  { intros x a b X.
    rewrite (fsum_ext _ _ (fun k => / 2 * (ghat Pg x b k * r_vel SC B a (rc Pg k) (k / nx Pg)) + / 2 * (ghat Pg x a k * r_vel SC B b (rc Pg k) (k / nx Pg))))
      by (intros k Hk; rewrite !VK by exact Hk; unfold Rdiv; ring).
    rewrite fsum_plus, !fsum_scal, (gather Pg HP (ghat Pg x b) (r_vel SC B a)), (gather Pg HP (ghat Pg x a) (r_vel SC B b)).
    rewrite <- !fsum_scal, <- fsum_plus. unfold rsum. change (e_P SC) with Pg. apply fsum_ext. intros j Hj.
    rewrite <- !fsum_scal, <- fsum_plus. apply fsum_ext. intros i Hi. rewrite !(tie_ghat Pg HP x) by assumption. unfold Rdiv. ring. }
  assert (R5 : Lrel (fun ph p p' => strained p p' /\ pm p' = pm p /\
     pstress p' = t_stress SC (mp_of 0 ph p) (r_strain SC B (mp_of 0 ph p)) /\
     ppressure p' = t_pressure (mp_of 0 ph p) (r_strain SC B (mp_of 0 ph p))) L3 L4).
  { unfold stress_strain in E3. pbinds E3. change (cyclic_lr (pB P)) with (cyclic_lr (pB (sP s))) in E3. rewrite Hc in E3.
    pbinds E3. injection E3 as E3a E3b.
    match goal with H : points _ _ _ = Ok (?l, ?g) |- _ => rename H into EQ; rename l into La; rename g into Ga end.
    rewrite E3a in EQ.
    apply (points_rel (stress_one P a) (fun G => vis_frame Gc G)
      (fun ph p p' => strained p p' /\ pm p' = pm p /\
        pstress p' = t_stress SC (mp_of 0 ph p) (r_strain SC B (mp_of 0 ph p)) /\
        ppressure p' = t_pressure (mp_of 0 ph p) (r_strain SC B (mp_of 0 ph p))) L3 Gc L4 Ga) in EQ.
    - apply EQ.
    - apply vis_frame_refl.
    - intros k ph p G2 p' G2' A C V X. pose proof (stress_one_rel _ _ _ _ _ _ _ _ X) as (X1 & X2 & _ & X3).
      split; [exact (vis_frame_trans _ _ _ V X2)|]. split; [exact X1|].
      split; [apply X3; destruct (HL3 ph A) as [Q|Q]; rewrite Q; discriminate|].
      assert (EM : gm G2 = gm Gc) by (rewrite V; reflexivity). assert (EQ2 : gq G2 = gq Gc) by (rewrite V; reflexivity).
      destruct (stress_scheme P a k ph p p' G2 G2' (mp_of 0 ph p) SC HP) as [Y1 Y2]; auto.
      + apply (D3 ph p A C).
      + rewrite EM. exact Lmc.
      + rewrite EQ2. exact Lqc.
      + assert (ED : m3 (fun a b => p_dt P * fsum (nodes (pG P)) (fun j =>
           (node_v P G2 a j * ghat (pG P) (px p) b j + node_v P G2 b j * ghat (pG P) (px p) a j) / 2)) = r_strain SC B (mp_of 0 ph p)).
        { apply m3_ext. intros x y. unfold r_strain. rewrite !el_m3. cbn [SC e_dt scheme_of]. f_equal.
          change (q_x (mp_of 0 ph p)) with (px p). change (e_P SC) with Pg.
          rewrite <- SD by apply (D3 ph p A C). apply fsum_ext. intros j Hj. unfold node_v. rewrite EM, EQ2. reflexivity. }
        rewrite ED in Y1, Y2. split; assumption. }
  assert (D4 : all_live L4 (fun ph p => located Pg p /\ in_dom Pg (px p) /\ exists v, pv p = Own v)).
  { eapply (Lrel_all_live _ L3 L4); [exact R5| |exact D3]. cbv beta. intros ph p ph' p' _ _ _ _ _ (X & _) (Y & Y2 & Z).
    split; [eapply strained_located; eauto|]. unfold strained, law_frame in X. rewrite X. split; [exact Y2|exact Z]. }
  assert (B4 : bodies L4 = map (r_strained SC B) B).
  { unfold bodies. rewrite (Lrel_bodies _ (fun q => mkMp (q_mat q) (q_m q) (q_V q) (q_x q) (q_v q) (t_stress SC q (r_strain SC B q))
        (t_pressure q (r_strain SC B q)) (q_b q) (q_first q)) L3 L4 R5).
    - change (bodies_from 0 L3) with (bodies L3). rewrite B3, map_map. apply map_ext. intros q. reflexivity.
    - cbv beta. intros k ph ph' p p' _ _ ES EV (X & X1 & X2 & X3). unfold mp_of at 1. rewrite ES, X1, X2, X3.
      unfold strained, law_frame in X. unfold velocity. rewrite EV. rewrite X. reflexivity. }
  (* forces *)
  set (B1 := map (r_strained SC B) B) in *.
  assert (DB1 : forall q, In q B1 -> in_dom Pg (q_x q)).
  { intros q A. apply in_map_iff in A. destruct A as (q0 & <- & A). apply (DB q0 A). }
  assert (FK : forall a k, (k < nodes Pg)%nat -> net_force P G5 a k = e_damp SC * r_force SC B1 a (rc Pg k) (k / nx Pg)).
  { intros a k Hk. unfold net_force. change (if p_damping P then 7/10 else 1) with (e_damp SC). f_equal. rewrite FI5.
    assert (PZ : forall n i, push n i 0 = 0). { intros n i. unfold push. destruct (Nat.eqb i 0), (Nat.eqb i (n - 1)); lra. }
    destruct (SL k Hk) as (A1 & A2 & A3).
    change (pB P) with (pB (sP s)) in A1, A2. change (p_loads P) with (uf (sP s)) in A1, A2.
    assert (Z2 : comp a (nth k (gfe G5) v0) = comp a (nth k (gfe Gf) v0)).
    { destruct a; cbn [comp].
      - rewrite A1. destruct (horizontal_force (pB (sP s))); [|lra]. rewrite (LH eq_refl), PZ. unfold Rdiv. ring.
      - rewrite A2. destruct (vertical_force (pB (sP s))); [|lra]. rewrite (LV eq_refl), PZ. unfold Rdiv. ring.
      - exact A3. }
    rewrite Z2. destruct LF4 as [LI4 LE4].
    destruct (cyc_tie Pg HP vadd v0 (comp a) (gfi G4) (gfi Gf) (comp_vadd a) LI4 ECI) as [_ XI].
    destruct (cyc_tie Pg HP vadd v0 (comp a) (gfe G4) (gfe Gf) (comp_vadd a) LE4 ECE) as [_ XE].
    rewrite XI, XE by exact Hk.
    transitivity (tie Pg (fun k => 1 * comp a (nth k (gfe G4) v0) + -1 * comp a (nth k (gfi G4) v0)) k); [rewrite tie_lin; lra|].
    rewrite (tie_ext Pg HP _ (fun k => Rsum (map (fun q => q_m q * comp a (q_b q) * hat Pg (q_x q) k
                        - q_V q * over (fun b => el a b (q_s q) * ghat Pg (q_x q) b k)) B1)) k Hk).
    - rewrite tie_Rsum. unfold r_force. apply Rsum_ext. intros q A. change (e_P SC) with Pg.
      rewrite <- (TH k _ Hk (DB1 q A)). unfold over. rewrite <- !(TG k _ _ Hk (DB1 q A)).
      unfold tie. destruct (Nat.eqb _ _); [|destruct (Nat.eqb _ _)]; ring.
    - intros j Hj. rewrite FI, FE, FI3, FE3, nth_repeat_same, comp_v0, !Rplus_0_l.
      transitivity (psum L4 (fun _ p => pm p * comp a (pb p) * hat Pg (px p) j - pV p * over (fun b => el a b (pstress p) * ghat Pg (px p) b j))).
      + transitivity (psum L4 (fun _ p => pm p * wt P p j * comp a (pb p) + -1 * fint_at P p a j)); [rewrite psum_plus, psum_scal; lra|].
        apply psum_ext. intros ph p A C. destruct (D4 ph p A C) as [Y _]. rewrite (wt_hat P p j HP Y), (fint_ghat P p a j HP Y).
          change (pG P) with Pg. ring.
      + rewrite (psum_bodies (fun _ p => pm p * comp a (pb p) * hat Pg (px p) j - pV p * over (fun b => el a b (pstress p) * ghat Pg (px p) b j)) (fun q => q_m q * comp a (q_b q) * hat Pg (q_x q) j - q_V q * over (fun b => el a b (q_s q) * ghat Pg (q_x q) b j)) L4 (fun _ _ _ => eq_refl) 0%nat).
        change (bodies_from 0 L4) with (bodies L4). rewrite B4. reflexivity. }
  assert (AK : forall a k, (k < nodes Pg)%nat -> node_acc P G6 a k = r_acc SC B B1 a (rc Pg k) (k / nx Pg)).
  { intros a k Hk. unfold node_acc, r_acc. rewrite EM6, MK by exact Hk. change (p_Mtol P) with (e_tol SC). rewrite Rltb_dec.
    destruct (Rlt_dec _ _); [|reflexivity]. f_equal. rewrite (no_rub_rate P G5 G6 Z5 E6 NR), FK by exact Hk.
    rewrite BV, BH, open_passes. f_equal. unfold r_open. change (e_P SC) with Pg. cbn [SC e_open scheme_of]. symmetry. apply ends_open; assumption. }
  assert (VK6 : forall a k, (k < nodes Pg)%nat -> node_v P G6 a k = r_vel SC B a (rc Pg k) (k / nx Pg) + e_dt SC * r_acc SC B B1 a (rc Pg k) (k / nx Pg)).
  { intros a k Hk. rewrite <- AK, <- VK by exact Hk. unfold node_v, node_acc. rewrite EM6.
    destruct (Rltb _ _); [|lra].
    destruct (um_q P G5 G6 Z5 E6 k Hk) as [U1 U2]. assert (CP : conveyor (pB P) = false) by exact Hv. rewrite CP in U1. cbn [andb] in U1.
    rewrite EQ5 in U1, U2. assert (U : comp a (nth k (gq G6) v0) = comp a (nth k (gq Gc) v0) + p_dt P * comp a (nth k (gqd G6) v0))
      by (destruct a; [exact U1|apply U2; discriminate..]).
    rewrite U. change (e_dt SC) with (p_dt P). unfold Rdiv. ring. }
  assert (GA : forall x (f : nat -> nat -> R), in_dom Pg x -> fsum (nodes Pg) (fun k => hat Pg x k * f (rc Pg k) (k / nx Pg)%nat) = rsum SC (fun i j => rhat Pg x i j * f i j)).
  { intros x f X. rewrite (gather Pg HP (hat Pg x) f). unfold rsum. change (e_P SC) with Pg. apply fsum_ext. intros j Hj. apply fsum_ext. intros i Hi.
    rewrite (tie_hat Pg HP x i j X Hi). reflexivity. }
  (* the move *)
  assert (IO : Lrel (fun _ p p' => p' = wrap Pg p) L5 (sL s')).
  { unfold inout in EI. change (pB P) with (pB (sP s)) in EI. rewrite O1, O2, I1, I2, Hc in EI. cbn [bind] in EI. exact (wrap_bodies P L5 (sL s') EI). }
  set (MV := fun q => mkMp (q_mat q) (q_m q) (q_V q)
      (v3 (fun a => comp a (q_x q) + e_dt SC * rsum SC (fun i j => rhat Pg (q_x q) i j * (r_vel SC B a i j + e_dt SC * r_acc SC B B1 a i j))))
      (v3 (fun a => comp a (q_v q) + e_dt SC * rsum SC (fun i j => rhat Pg (q_x q) i j * r_acc SC B B1 a i j)))
      (q_s q) (q_p q) (q_b q) (q_first q)).
  assert (B5 : bodies L5 = map MV (bodies L4)).
  { unfold bodies. apply (moved_bodies P G6 MV L4 L5 PM).
    - intros ph p A C. split; [|apply (D4 ph p A C)].
      destruct (map_in_sol L3 L4 ph (Lrel_sol _ _ _ R5) A) as (ph0 & A0 & <-). destruct (HL3 ph0 A0) as [Q|Q]; rewrite Q; reflexivity.
    - intros k ph ph' p p' A C ES (Y1 & Y2 & Y3). destruct (D4 ph p A C) as (LO & LD & [v V]). rewrite V in Y3. destruct Y3 as (v' & V1 & V2).
      assert (PX : px p' = v3 (fun a => comp a (px p) + e_dt SC * rsum SC (fun i j => rhat Pg (px p) i j * (r_vel SC B a i j + e_dt SC * r_acc SC B B1 a i j)))).
      { apply v3_ext. intros a. rewrite Y2. transitivity (comp a (px p) + e_dt SC * rsum SC (fun i j => rhat Pg (px p) i j * (r_vel SC B a i j + e_dt SC * r_acc SC B B1 a i j))); [|destruct a; reflexivity].
        change (e_dt SC) with (p_dt P) at 1. do 2 f_equal. rewrite <- (GA (px p) (fun i j => r_vel SC B a i j + e_dt SC * r_acc SC B B1 a i j) LD).
        apply fsum_ext. intros j Hj. rewrite VK6 by exact Hj. reflexivity. }
      assert (PV : v' = v3 (fun a => comp a v + e_dt SC * rsum SC (fun i j => rhat Pg (px p) i j * r_acc SC B B1 a i j))).
      { apply v3_ext. intros a. rewrite V2. transitivity (comp a v + e_dt SC * rsum SC (fun i j => rhat Pg (px p) i j * r_acc SC B B1 a i j)); [|destruct a; reflexivity].
        change (e_dt SC) with (p_dt P). do 2 f_equal. rewrite <- (GA (px p) (r_acc SC B B1 a) LD). apply fsum_ext. intros j Hj. rewrite AK by exact Hj. reflexivity. }
      unfold mp_of at 1. unfold velocity at 1. rewrite V1, PX, PV, ES. unfold MV, mp_of, velocity. rewrite V.
      cbn [q_mat q_m q_V q_x q_v q_s q_p q_b q_first]. rewrite Y1. cbn [pm pV pstress ppressure pb set]. reflexivity. }
  unfold bodies. rewrite (Lrel_bodies _ (fun q => mkMp (q_mat q) (q_m q) (q_V q) (back SC (q_x q)) (q_v q) (q_s q) (q_p q) (q_b q) (q_first q)) L5 (sL s') IO).
  - change (bodies_from 0 L5) with (bodies L5). rewrite B5, map_map, B4. reflexivity.
  - cbv beta. intros k ph ph' p p' _ _ ES EV ->. pose proof (wrap_rest Pg p) as W. rewrite (wrap_back Pg p SC eq_refl) in W.
    rewrite W. unfold mp_of, velocity. rewrite ES, EV. reflexivity.
Qed.

(** Without walls inside the domain, and with or without walls at both ends, the ends agree. *)
Lemma p_C91_ends : forall (P : gridp R) (B : bounds R) (G : grid R), proper P -> grid_init P B = Ok G -> ThmWalls.plain B ->
  has_left B = has_right B -> ends_agree P G.
Proof.
  intros P B G HP EG HB HLR j Hj. destruct HP as (Hn & Hm & _).
  assert (K1 : (j * nx P < nx P * ny P)%nat) by nia. assert (K2 : (j * nx P + (nx P - 1) < nx P * ny P)%nat) by nia.
  destruct (p_C10_wall_masks R Num_R P B G EG HB _ K1) as (A1 & B1 & _). destruct (p_C10_wall_masks R Num_R P B G EG HB _ K2) as (A2 & B2 & _).
  unfold row, col in *.
  rewrite Nat.mod_mul, Nat.div_mul in * by lia.
  assert (M2 : ((j * nx P + (nx P - 1)) mod nx P = nx P - 1)%nat) by (rewrite Nat.add_comm, Nat.mod_add by lia; apply Nat.mod_small; lia).
  assert (D2 : ((j * nx P + (nx P - 1)) / nx P = j)%nat) by (rewrite Nat.div_add_l by lia; rewrite (Nat.div_small (nx P - 1)) by lia; lia).
  rewrite M2, D2 in *. split; apply eq_true_iff_eq.
  - rewrite B1, B2, HLR. split; intros [[X Y]|[[X Y]|X]]; try lia; auto.
  - rewrite A1, A2. tauto.
Qed.
(** A floor and a ceiling. *)
Definition ring_bounds : bounds R :=
  mkBounds false false false None false true true true false false false
           false false false false false false false false false.
Example x_C91_ends : exists G, grid_init (@ex_gridp R _) ring_bounds = Ok G /\ ThmWalls.plain ring_bounds /\ has_left ring_bounds = has_right ring_bounds /\
  cyclic_lr ring_bounds = true /\ nth 0 (bh G) false = true.
Proof.
  destruct (grid_init_ok ex_gridp ring_bounds ex_proper) as (G & EG & OK). exists G. split; [exact EG|].
  split; [repeat split|]. split; [reflexivity|]. split; [reflexivity|].
  destruct (p_C10_wall_masks R Num_R ex_gridp ring_bounds G EG) with (k := 0%nat) as (A & _); [repeat split|cbn; lia|].
  apply A. left. split; reflexivity.
Qed.

(** What a run of the scheme on the cylinder needs from the state it starts with. *)
Record rplain (s : state R) : Prop := {
  rp_proper : proper (pG (sP s));
  rp_grid : grid_ok (pG (sP s)) (sG s);
  rp_ends : ends_agree (pG (sP s)) (sG s);
  rp_count : counted (sL s);
  rp_laws : simple_laws (sL s);
  rp_equip : exists S0, sol0 (sL s) = Ok S0 /\ forall ph, In ph (sL s) -> equipped S0 (ph_sol ph);
  rp_own : own_velocities (sL s);
  rp_ring : ring_only (sP s);
  rp_rub : no_rub (pB (sP s));
  rp_aniso : p_aniso (sP s) = false;
  rp_dt : p_dynamic (sP s) = false;
  rp_tf : p_tf (sP s) <> 0;
  rp_save : p_savetime (sP s) <> 0 }.

Lemma rplain_ready s : rplain s -> all_live (sL s) (fun _ p => in_dom (pG (sP s)) (px p) /\ (p_check (sP s) = true -> vz (px p) = 0)) -> ready s.
Proof.
  intros [H1 H2 H2' H3 H4 H5 H6 (Hs & Hc & Hv & O1 & O2 & I1 & I2) H8 H9 H10 H11 H12] HD. constructor; auto.
  - intros ph A B. destruct (H4 ph A) as [C|C]; rewrite C in B; discriminate.
  - rewrite Hv. discriminate.
  - rewrite O1. discriminate.
Qed.

Lemma ring_keeps uf fill (s s' : state R) : proper (pG (sP s)) -> grid_ok (pG (sP s)) (sG s) ->
  all_live (sL s) (fun _ p => in_dom (pG (sP s)) (px p)) -> ring_only (sP s) -> simple_laws (sL s) ->
  time_march uf fill s = Ok s' ->
  map ph_sol (sL s') = map ph_sol (sL s) /\ (counted (sL s) -> counted (sL s')) /\ (own_velocities (sL s) -> own_velocities (sL s')).
Proof.
  intros HP HG HD HS HL E. pose proof HS as (Hs & Hc & Hv & O1 & O2 & I1 & I2).
  destruct (march_ring uf fill s s' HP HG HD Hs Hc E) as
    (S1 & L1 & L3 & L4 & L5 & G1 & Gc & G3 & G4 & Gf & G5 & G6 & HS1 & E1 & R1 & R3 & E2 & F1 & EC & FC & Lm1 & Lq1 & Lmc & Lqc &
     E3 & R4 & F3 & Lo & E4 & LF & EF & FF & LF4 & E5 & Z4 & Z5 & E6 & EP & EG & PM & EI).
  set (P := sP s <| p_loads := uf (sP s) |>) in *.
  assert (IO : Lrel (fun _ p p' => p' = wrap (pG P) p) L5 (sL s')).
  { unfold inout in EI. change (pB P) with (pB (sP s)) in EI. rewrite O1, O2, I1, I2, Hc in EI. cbn [bind] in EI. exact (wrap_bodies P L5 (sL s') EI). }
  assert (SO4 : map ph_sol L4 = map ph_sol (sL s)) by (rewrite (Lrel_sol _ _ _ R4), (Lrel_sol _ _ _ R3); apply (Lrel_sol _ _ _ R1)).
  assert (SO5 : map ph_sol L5 = map ph_sol L4) by (clear - PM; induction PM as [|? ? ? ? (A & _) _ IH]; [reflexivity|]; cbn; rewrite A, IH; reflexivity).
  split; [rewrite (Lrel_sol _ _ _ IO), SO5; exact SO4|]. split.
  - intros C. apply (Lrel_counted _ _ _ IO).
    assert (C4 : counted L4) by (apply (Lrel_counted _ _ _ R4), (Lrel_counted _ _ _ R3), (Lrel_counted _ _ _ R1), C).
    clear - PM C4. unfold counted in *. induction PM as [|ph ph' L L' (A1 & A2 & A3 & _) PM IH]; [intros ? []|].
    intros ph1 [<-|A]; [rewrite A2, A3; apply C4; left; reflexivity|apply IH; [intros; apply C4; right; assumption|exact A]].
  - intros O. unfold own_velocities in *.
    assert (O4 : all_live L4 (fun _ p => exists v, pv p = Own v)).
    { assert (O1' : all_live L1 (fun _ p => exists v, pv p = Own v)).
      { eapply (Lrel_all_live _ (sL s) L1); [exact R1| |exact O]. cbv beta. intros ph p ph' p' _ _ _ _ _ [b ->] X. exact X. }
      assert (O3 : all_live L3 (fun _ p => exists v, pv p = Own v)).
      { eapply (Lrel_all_live _ L1 L3); [exact R3| |exact O1']. cbv beta. intros ph p ph' p' _ _ _ _ _ [_ ->] X. exact X. }
      eapply (Lrel_all_live _ L3 L4); [exact R4| |exact O3]. cbv beta. intros ph p ph' p' _ _ _ _ _ (X & _) Y.
      unfold strained, law_frame in X. rewrite X. exact Y. }
    assert (NR4 : forall ph, In ph L4 -> is_rigid (s_law (ph_sol ph)) = false).
    { intros ph A. destruct (map_in_sol _ _ _ SO4 A) as (ph0 & A0 & <-). destruct (HL ph0 A0) as [Q|Q]; rewrite Q; reflexivity. }
    eapply (Lrel_all_live _ L5 (sL s')); [exact IO| |].
    { cbv beta. intros ph p ph' p' _ _ _ _ _ -> X. rewrite (wrap_rest (pG P) p). exact X. }
    clear - PM O4 NR4. induction PM as [|ph ph' L L' (A1 & A2 & A3 & A4 & _) PM IH]; [intros ? ? []|].
    intros ph1 p1 [<-|A] C.
    + rewrite (NR4 ph (or_introl eq_refl)) in A4.
      assert (X : forall p, In p (live ph) -> exists v, pv p = Own v) by (intros p Y; apply (O4 ph p (or_introl eq_refl) Y)).
      clear - A4 X C. revert C. induction A4 as [|p p' l l' (_ & _ & Y) A4 IH]; intros C; [destruct C|]. destruct C as [<-|C].
      * destruct (X p (or_introl eq_refl)) as [v V]. rewrite V in Y. destruct Y as (v' & Y & _). eauto.
      * apply IH; [intros; apply X; right; assumption|exact C].
    + apply (IH ltac:(intros ph0 p0 D; apply O4; right; exact D) ltac:(intros ph0 D; apply NR4; right; exact D) ph1 p1 A C).
Qed.

Lemma rplain_step uf fill (s : state R) tr s' tr' : rplain s -> all_live (sL s) (fun _ p => in_dom (pG (sP s)) (px p)) ->
  no_surface (sP s) (uf (sP s)) -> pass uf fill s tr = Ok (s', tr') ->
  rplain s' /\ sP s' = ticked uf (sP s) /\ bv (sG s') = bv (sG s) /\ bh (sG s') = bh (sG s) /\
  bodies (sL s') = r_step (scheme_of (sP s) (uf (sP s)) (sG s)) (bodies (sL s)).
Proof.
  intros HPl HD HN E. pose proof HPl as [H1 H2 H2' H3 H4 H5 H6 H7 H8 H9 H10 H11 H12].
  assert (RR : reach uf fill s s') by (eapply reach_S; [apply reach_0|exact E]).
  destruct (p_C82_mesh R Num_R uf fill s s' RR) as [ME HM]. specialize (HM (no_rub_mu _ H8)). destruct HM as [MV MH].
  destruct (pass_fixed uf fill s tr s' tr' H10 E) as (s1 & E1 & EL & EG & EP).
  destruct (ring_keeps uf fill s s1 H1 H2 HD H7 H4 E1) as (SO & KC & KO).
  split; [|split; [exact EP|split; [exact MV|split; [exact MH|]]]].
  - constructor; rewrite ?EP; try assumption; unfold ticked; try assumption.
    + cbn [pG set]. unfold mesh in ME.
      pose proof (f_equal (fun t => fst (fst (fst t))) ME) as X1. pose proof (f_equal (fun t => snd (fst (fst t))) ME) as X2.
      pose proof (f_equal (fun t => fst (snd (fst t))) ME) as X3. pose proof (f_equal (fun t => snd (snd (fst t))) ME) as X4.
      pose proof (f_equal (fun t => fst (fst (snd t))) ME) as X5. pose proof (f_equal (fun t => snd (fst (snd t))) ME) as X6.
      pose proof (f_equal (fun t => snd (snd t)) ME) as X7. cbn [fst snd] in X1, X2, X3, X4, X5, X6, X7.
      destruct H2. constructor; rewrite ?X1, ?X2, ?X3, ?X4, ?X5, ?X6, ?X7, ?MV, ?MH; assumption.
    + intros j Hj. rewrite MV, MH. apply H2'. exact Hj.
    + rewrite EL. auto.
    + rewrite EL. intros ph A. destruct (map_in_sol _ _ _ SO A) as (ph0 & A0 & <-). apply H4. exact A0.
    + destruct H5 as (S0 & A & B). exists S0. rewrite EL. split; [eapply sol0_map; eauto|]. exact (sol_in _ _ (equipped S0) SO B).
    + rewrite EL. auto.
  - rewrite EL. apply (p_C91_step uf fill s s1); assumption.
Qed.
Lemma r_run_masks uf n : forall P (G G' : grid R) B, bv G' = bv G -> bh G' = bh G -> r_run uf n P G' B = r_run uf n P G B.
Proof. induction n as [|n IH]; intros P G G' B A C; [reflexivity|]. cbn [r_run]. rewrite (scheme_masks P _ G G' A C). apply IH; assumption. Qed.

(** A run of [n] steps with cyclic_lr and a fixed time step never fails as long as the scheme on the cylinder, run on its
    own, keeps its points in the domain; and then its points are those of the scheme after [n] steps. *)
Lemma p_C91_run : forall uf fill n (s : state R) tr, rplain s -> (forall P, no_surface (sP s) (uf P)) ->
  (forall j, (j < n)%nat -> Forall (fun q => in_dom (pG (sP s)) (q_x q) /\ (p_check (sP s) = true -> vz (q_x q) = 0))
                                  (r_run uf j (sP s) (sG s) (bodies (sL s)))) ->
  exists s' tr', after uf fill n s tr = Ok (s', tr') /\ sP s' = clock uf n (sP s) /\
  bodies (sL s') = r_run uf n (sP s) (sG s) (bodies (sL s)).
Proof.
  intros uf fill n. induction n as [|n IH]; intros s tr HPl HN HI.
  - exists s, tr. repeat split; reflexivity.
  - pose proof (HI 0%nat (Nat.lt_0_succ n)) as H0. cbn [r_run] in H0.
    assert (HD := bodies_live (sL s) (fun x => in_dom (pG (sP s)) x /\ (p_check (sP s) = true -> vz x = 0)) 0 H0).
    assert (HR := rplain_ready s HPl HD).
    destruct (p_C58_pass_total uf fill s tr HR (rp_dt _ HPl) (rp_tf _ HPl) (rp_save _ HPl)) as [[s1 tr1] E].
    assert (HD' : all_live (sL s) (fun _ p => in_dom (pG (sP s)) (px p))) by (intros ph p A C; apply (HD ph p A C)).
    destruct (rplain_step uf fill s tr s1 tr1 HPl HD' (HN _) E) as (HP1 & EP & MV & MH & EB).
    destruct (IH s1 tr1 HP1) as (s' & tr' & A1 & A2 & A3).
    + intros P. rewrite EP. exact (HN P).
    + intros j Hj. specialize (HI (Datatypes.S j) (proj1 (Nat.succ_lt_mono j n) Hj)). cbn [r_run] in HI.
      rewrite EP, EB, (r_run_masks uf j (ticked uf (sP s)) (sG s) (sG s1) _ MV MH). exact HI.
    + exists s', tr'. cbn [after clock r_run]. rewrite E. split; [exact A1|]. rewrite A2, A3, EP, EB.
      split; [reflexivity|]. apply r_run_masks; assumption.
Qed.
