(** * Free fall: C62. *)
From Coq Require Import ZArith Reals List Bool Arith Lra Lia.
From Verif Require Import State NumR Spec SpecLaws SpecStep LibList LibR ModelGrid ModelConstit ModelParticle ModelMPList
  ModelIntegr ModelMain ProofsGrid ProofsMap ProofsP2G ProofsWalls ProofsLaws ProofsInOut ProofsHist Concrete
  ThmMapping ThmWalls ThmLaws ThmInOut ThmHist ProofsStep ProofsPoints ThmStep ThmBalance ThmEnergy.
Import ListNotations.
Local Open Scope R_scope.

(** No surface load. *)
Definition no_surface (P : params R) (l : loads R) : Prop :=
  (vertical_force (pB P) = true -> ld_qv l = 0) /\ (horizontal_force (pB P) = true -> ld_qh l = 0).

(** A stress-free elastic body whose points all move with velocity [c]: in one
    step every point gains [dt g] (seven tenths of it with P.damping) and moves
    with the new velocity; no stress develops. *)
Lemma p_C62_free_fall : forall uf fill (s s' : state R) c, proper (pG (sP s)) -> grid_ok (pG (sP s)) (sG s) ->
  all_live (sL s) (fun _ p => in_dom (pG (sP s)) (px p)) -> shut (sP s) -> no_rub (pB (sP s)) -> 0 <= p_Mtol (sP s) ->
  (exists ph, sL s = [ph] /\ s_law (ph_sol ph) = Elastic) ->
  all_live (sL s) (fun _ p => pv p = Own c /\ pstress p = m0) -> no_surface (sP s) (uf (sP s)) ->
  wall_free (bv (sG s)) (bh (sG s)) -> time_march uf fill s = Ok s' ->
  all_live (sL s) (fun _ p => forall r, (r < 4)%nat -> heavy (sP s) (sG s') (corner_node (pG (sP s)) (cell_node (pG (sP s)) (px p)) r)) ->
  let g := mkV3 (ld_g (uf (sP s)) * sin (ld_theta (uf (sP s)))) (ld_g (uf (sP s)) * cos (ld_theta (uf (sP s)))) 0 in
  let c' := vadd c (vscale (p_dt (sP s)) (vscale (if p_damping (sP s) then 7/10 else 1) g)) in
  Prel (fun _ p p' => px p' = vadd (px p) (vscale (p_dt (sP s)) c') /\ pv p' = Own c' /\ pstress p' = m0 /\ pm p' = pm p) (sL s) (sL s').
Proof.
  intros uf fill s s' c HP HG HD HS NR HM (phs & HS0 & HL0) HQ (LV & LH) WF E HH b c'.
  assert (HL : forall ph, In ph (sL s) -> s_law (ph_sol ph) = Elastic) by (rewrite HS0; intros ph [<-|[]]; exact HL0).
  assert (HR : forall ph, In ph (sL s) -> s_law (ph_sol ph) <> Rigid) by (intros ph A; rewrite (HL ph A); discriminate).
  pose proof HS as (Hs & Hc & Hv & O1 & O2 & I1 & I2).
  destruct (march_stages uf fill s s' HP HG HD Hs Hc E) as
    (S1 & L1 & L3 & L4 & L5 & G1 & G3 & G4 & G5 & G6 & HS1 & E1 & R1 & R3 & E2 & F1 & E3 & R4 & F3 & Lo & E4 & LF & E5 & Z4 & Z5 & E6 & EP & EG & PM & EI).
  set (P := sP s <| p_loads := uf (sP s) |>) in *. set (Pg := pG (sP s)) in *.
  destruct (force_loop_spec P L4 G3 G4 LF E4) as (F4 & _ & FI & FE).
  pose proof (BCs_frame _ _ _ _ E5) as F5. destruct (um_shape P G5 G6 E6) as [F6 _].
  pose proof (p_C49_surface_loads P (s_rho S1) G4 G5 Z4 HP) as SL.
  destruct (wipe_geo (sP s) (sG s)) as (W1 & W2 & _ & _ & _ & W6 & W7 & _).
  assert (M1 := p2g_all_mass P L3 (wipe (sP s) (sG s)) G1 (wipe_lens (sP s) (sG s)) E2).
  assert (Q1 := p2g_all_mom P L3 (wipe (sP s) (sG s)) G1 (wipe_lens (sP s) (sG s))).
  rewrite W6, W7 in Q1. specialize (Q1 (go_bv _ _ HG) (go_bh _ _ HG) E2).
  destruct M1 as (Lm1 & _ & M1). destruct Q1 as (Lq1 & Q1).
  unfold frame_all in F1. unfold vis_frame in F3. unfold frame_f in F4. unfold force_frame in F5.
  assert (EM : gm (sG s') = gm G1).
  { rewrite EG. unfold calculate_gammadot. cbn. rewrite F6. cbn. rewrite F5. cbn. rewrite F4. cbn. rewrite F3. reflexivity. }
  assert (EX : forall k, nth k (gext G4) v0 = v0).
  { intros k. rewrite F4. cbn. rewrite F3. cbn. rewrite F1. cbn. rewrite wipe_ext. apply nth_repeat_same. }
  assert (FI3 : gfi G3 = repeat v0 (nodes Pg)). { rewrite F3. cbn. rewrite F1. cbn. apply wipe_fi. }
  assert (FE3 : gfe G3 = repeat v0 (nodes Pg)). { rewrite F3. cbn. rewrite F1. cbn. apply wipe_fe. }
  assert (FI5 : gfi G5 = gfi G4) by (eapply BCs_fi; exact E5).
  assert (EQ5 : gq G5 = gq G1). { rewrite F5. cbn. rewrite F4. cbn. rewrite F3. reflexivity. }
  specialize (SL EX E5). cbv zeta in SL.
  (* velocities and stresses of the located points *)
  assert (RG : Lrel (fun ph p p' => p' = p <| pb := b |>) (sL s) L1).
  { rewrite HS0 in E1 |- *. unfold update_forces in E1.
    apply (points__rel (fun _ _ p => Ok (increment_gravity P 0 p)) (fun ph p p' => p' = p <| pb := b |>) [phs] L1); [|exact E1].
    intros k ph p p' _ _ X. injection X as <-. reflexivity. }
  assert (RL : Lrel (fun ph p p' => p' = locate Pg (p <| pb := b |>) /\ in_dom Pg (px p)) (sL s) L3).
  { eapply Lrel_trans; [exact RG|exact R3|].
    cbv beta. intros ph ph' p p1 p2 _ _ _ _ -> [D ->]. auto. }
  assert (D3 : all_live L3 (fun ph p => s_law (ph_sol ph) = Elastic /\ pv p = Own c /\ pstress p = m0 /\ pb p = b /\ located Pg p)).
  { eapply (Lrel_all_live _ (sL s) L3); [exact RL| |exact HQ]. cbv beta. intros ph p ph' p' A _ ES _ _ [-> D] (X2 & X3). pose proof (HL ph A) as X1.
    rewrite ES. split; [exact X1|]. split; [exact X2|]. split; [exact X3|]. split; [reflexivity|]. apply locate_located. exact D. }
  (* nodal velocities before the forces *)
  assert (NV : all_live L3 (fun _ p => still P G1 c p)).
  { intros ph p A B r Hr a. set (k := corner_node _ _ r). unfold node_v. rewrite Q1, wipe_q.
    assert (MQ : mom_at P L3 a k = comp a c * mass_at P L3 k).
    { unfold mom_at, mass_at. rewrite <- psum_scal. apply psum_ext. intros ph0 p0 A0 B0. destruct (D3 ph0 p0 A0 B0) as (_ & V & _).
      unfold velocity. rewrite V. lra. }
    rewrite MQ. pose proof (M1 k) as MK. rewrite wipe_m, Rplus_0_l in MK. rewrite MK.
    assert (HV : heavy (sP s) (sG s') k).
      { assert (HH3 : all_live L3 (fun _ p => forall r, (r < 4)%nat -> heavy (sP s) (sG s') (corner_node Pg (cell_node Pg (px p)) r))).
        { eapply (Lrel_all_live _ (sL s) L3); [exact RL| |exact HH]. cbv beta. intros ? ? ? ? _ _ _ _ _ [-> _] X. exact X. }
        apply (HH3 ph p A B r Hr). }
      unfold heavy in HV. rewrite EM, MK in HV. change (p_Mtol (sP s)) with (p_Mtol P) in HV, HM.
      rewrite (proj2 (Rltb_true _ _)) by exact HV. destruct (WF k) as [V0 H0].
      assert (OA : open_a a (roughness (pB P)) (bv (sG s)) (bh (sG s)) k = 1).
      { destruct a; cbn [open_a]; unfold open_x, open_y; rewrite ?V0, ?H0, ?andb_false_r; reflexivity. }
      rewrite OA. destruct a; cbn [comp v0 vx vy vz]; cbn; field; lra. }
  (* stress *)
  assert (RS : Lrel (fun ph p p' => px p' = px p /\ pv p' = pv p /\ pb p' = pb p /\ (s_law (ph_sol ph) = Elastic -> pm p' = pm p) /\
      (s_law (ph_sol ph) = Elastic -> located Pg p -> still P G1 c p -> pstress p' = pstress p)) L3 L4).
  { pose proof (stress_quiet P L3 G1 L4 G3 c HP Lm1 Lq1 E3 Hc) as R5. clear - R4 R5.
    revert R5. induction R4 as [|ph ph' L L' (A1 & A2 & A3 & A4 & A5) R4 IH]; intros R5; inversion R5; subst; constructor; [|apply IH; auto].
    split; [exact A1|]. split; [exact A2|]. split; [exact A3|]. split; [|exact A5].
    match goal with H : _ /\ _ /\ _ /\ Forall2 _ (live ph) (live ph') /\ _ |- _ => destruct H as (_ & _ & _ & B4 & _) end.
    clear - A4 B4. revert B4. induction A4 as [|p p' l l' [X Y] A4 IH]; intros B4; inversion B4; subst; constructor; [|apply IH; auto].
    unfold strained, law_frame in X. split; [rewrite X; reflexivity|]. split; [rewrite X; reflexivity|]. split; [rewrite X; reflexivity|].
    split; [intros Q; apply Y; rewrite Q; discriminate|]. assumption. }
  assert (D4 : all_live L4 (fun ph p => pv p = Own c /\ pstress p = m0 /\ pb p = b /\ still P G1 c p)).
  { eapply (Lrel_all_live _ L3 L4 (fun ph p => (s_law (ph_sol ph) = Elastic /\ pv p = Own c /\ pstress p = m0 /\ pb p = b /\ located Pg p) /\ still P G1 c p)); [exact RS| |].
    - cbv beta. intros ph p ph' p' _ _ _ _ _ (X1 & X2 & X3 & _ & X4) ((Y1 & Y2 & Y3 & Y4 & Y5) & Y6). rewrite X2, X3, (X4 Y1 Y5 Y6).
      repeat split; auto. unfold still in *. rewrite X1. exact Y6.
    - intros ph p A B. split; [apply (D3 ph p A B)|apply (NV ph p A B)]. }
  (* the mass of a node seen from [L4] *)
  assert (M4 : forall k, psum L4 (fun _ p => pm p * wt P p k) = nth k (gm G1) 0).
  { intros k. rewrite M1, wipe_m, Rplus_0_l. unfold mass_at. symmetry. apply (Lrel_psum _ _ _ _ _ R4). cbv beta.
    intros ph p ph' p' A B _ _ _ [X Y]. destruct (D3 ph p A B) as (EL & _). rewrite Y by (rewrite EL; discriminate).
    unfold strained, law_frame in X. unfold wt. rewrite X. reflexivity. }
  set (w := if p_damping (sP s) then 7/10 else 1) in *.
  assert (FZ : forall a k, (k < nodes Pg)%nat -> net_force P G5 a k = w * (nth k (gm G1) 0 * comp a b)).
  { intros a k Hk. unfold net_force. rewrite FI5. change (p_damping P) with (p_damping (sP s)). fold w.
    assert (Z0 : comp a (nth k (gfi G4) v0) = 0).
    { rewrite FI, FI3, nth_repeat_same, psum_zero; [destruct a; cbn; lra|]. intros ph p A B. destruct (D4 ph p A B) as (_ & X & _).
      unfold fint_at. apply fsum_zero. intros r Hr. rewrite X, mv_zero. lra. }
    assert (Z1 : forall d, comp d (nth k (gfe G4) v0) = nth k (gm G1) 0 * comp d b).
    { intros d. rewrite FE, FE3, nth_repeat_same, comp_v0, Rplus_0_l, <- (M4 k), Rmult_comm, <- psum_scal. apply psum_ext.
      intros ph p A B. destruct (D4 ph p A B) as (_ & _ & X & _). rewrite X. ring. }
    destruct (SL k Hk) as (A1 & A2 & A3). pose proof (Z1 AX) as ZX. pose proof (Z1 AY) as ZY. pose proof (Z1 AZ) as ZZ. cbn [comp] in ZX, ZY, ZZ.
    change (pB P) with (pB (sP s)) in A1, A2. change (p_loads P) with (uf (sP s)) in A1, A2.
    assert (PZ : forall n i, push n i 0 = 0). { intros n i. unfold push. destruct (Nat.eqb i 0), (Nat.eqb i (n - 1)); lra. }
    assert (Z2 : comp a (nth k (gfe G5) v0) = nth k (gm G1) 0 * comp a b).
    { destruct a; cbn [comp].
      - rewrite A1, ZX. destruct (horizontal_force (pB (sP s))); [|lra]. rewrite (LH eq_refl), PZ. unfold Rdiv. ring.
      - rewrite A2, ZY. destruct (vertical_force (pB (sP s))); [|lra]. rewrite (LV eq_refl), PZ. unfold Rdiv. ring.
      - rewrite A3. exact ZZ. }
    rewrite Z0, Z2. lra. }
  assert (BV : bv G5 = bv (sG s) /\ bh G5 = bh (sG s)).
  { rewrite F5. cbn. rewrite F4. cbn. rewrite F3. cbn. rewrite F1. cbn. split; assumption. }
  destruct BV as [BV BH].
  assert (QD : forall a k, (k < nodes Pg)%nat -> comp a (nth k (gqd G6) v0) = w * (nth k (gm G1) 0 * comp a b)).
  { intros a k Hk. rewrite (no_rub_rate P G5 G6 Z5 E6 NR), FZ by exact Hk. destruct (WF k) as [V0 H0]. rewrite BV, BH.
    destruct a; cbn [open_a]; unfold open_x, open_y; rewrite ?V0, ?H0, ?andb_false_r; cbn [orb]; lra. }
  assert (QQ : forall a k, (k < nodes Pg)%nat -> comp a (nth k (gq G6) v0) = comp a (nth k (gq G1) v0) + p_dt P * (w * (nth k (gm G1) 0 * comp a b))).
  { intros a k Hk. destruct (um_q P G5 G6 Z5 E6 k Hk) as [U1 U2]. assert (CP : conveyor (pB P) = false) by exact Hv. rewrite CP in U1. cbn [andb] in U1.
    rewrite EQ5 in U1, U2. rewrite <- QD by exact Hk. destruct a; [exact U1|apply U2; discriminate..]. }
  assert (EM6 : gm G6 = gm G1). { rewrite F6. cbn. rewrite F5. cbn. rewrite F4. cbn. rewrite F3. reflexivity. }
  (* at the corners of an occupied cell *)
  assert (NV6 : all_live L4 (fun _ p => forall r a, (r < 4)%nat ->
    node_v P G6 a (corner_node (pG P) (cell_node (pG P) (px p)) r) = comp a c' /\
    node_acc P G6 a (corner_node (pG P) (cell_node (pG P) (px p)) r) = w * comp a b)).
  { assert (HH4 : all_live L4 (fun _ p => forall r, (r < 4)%nat -> heavy (sP s) (sG s') (corner_node Pg (cell_node Pg (px p)) r))).
    { eapply (Lrel_all_live _ L3 L4); [exact RS| |].
      { cbv beta. intros ph p ph' p' _ _ _ _ _ (X & _) Y. rewrite X. exact Y. }
      eapply (Lrel_all_live _ (sL s) L3); [exact RL| |exact HH]. cbv beta. intros ? ? ? ? _ _ _ _ _ [-> _] X. exact X. }
    intros ph p A B r a Hr. specialize (HH4 ph p A B r Hr). unfold heavy in HH4. rewrite EM in HH4.
    destruct (D4 ph p A B) as (_ & _ & _ & ST). specialize (ST r Hr a).
    assert (Hk : (corner_node Pg (cell_node Pg (px p)) r < nodes Pg)%nat) by (apply corner_colrow; auto; apply (Lo ph p A B)).
    change (pG P) with Pg in *. set (k := corner_node Pg (cell_node Pg (px p)) r) in *.
    unfold node_v, node_acc in *. rewrite EM6, QQ, QD by exact Hk. change (p_Mtol P) with (p_Mtol (sP s)) in *.
    rewrite (proj2 (Rltb_true _ _)) in * by exact HH4.
    assert (Mn : nth k (gm G1) 0 <> 0) by lra.
    split; [|field; exact Mn]. unfold c'. rewrite comp_vadd, !comp_vscale, <- ST. change (p_dt P) with (p_dt (sP s)). fold w. field. exact Mn. }
  assert (IO : inout P L5 = Ok L5).
  { unfold inout. change (pB P) with (pB (sP s)). rewrite O1, O2, I1, I2, Hc. reflexivity. }
  rewrite IO in EI. injection EI as EI. rewrite <- EI.
  assert (RA : Lrel (fun ph p p' => s_law (ph_sol ph) = Elastic /\ px p' = px p /\ pv p' = Own c /\ pstress p' = m0 /\ pb p' = b /\ pm p' = pm p /\ located Pg p' /\ (forall r a, (r < 4)%nat -> node_v P G6 a (corner_node (pG P) (cell_node (pG P) (px p')) r) = comp a c' /\
    node_acc P G6 a (corner_node (pG P) (cell_node (pG P) (px p')) r) = w * comp a b)) (sL s) L4).
  { assert (RA : Lrel (fun ph p p' => px p' = px p /\ pm p' = pm p) (sL s) L4).
    { eapply Lrel_trans; [exact RL| exact RS|]. cbv beta. intros ph ph' p p1 p2 A _ ES _ [-> D] (X1 & _ & _ & X2 & _).
      rewrite ES in X2. rewrite X2 by (apply HL; exact A). rewrite X1. split; reflexivity. }
    clear - RA D4 Lo HL NV6. induction RA as [|ph ph' L L' (A1 & A2 & A3 & A4 & A5) RA IH]; constructor.
    - split; [exact A1|]. split; [exact A2|]. split; [exact A3|]. split; [|exact A5].
      assert (HE : s_law (ph_sol ph) = Elastic) by (apply HL; left; reflexivity).
      assert (X : forall p, In p (live ph') -> (pv p = Own c /\ pstress p = m0 /\ pb p = b /\ still P G1 c p) /\ located Pg p /\
        (forall r a, (r < 4)%nat -> node_v P G6 a (corner_node (pG P) (cell_node (pG P) (px p)) r) = comp a c' /\
          node_acc P G6 a (corner_node (pG P) (cell_node (pG P) (px p)) r) = w * comp a b)).
      { intros p Hp. split; [apply (D4 ph'); [left; auto|auto]|]. split; [apply (Lo ph'); [left; auto|auto]|apply (NV6 ph'); [left; auto|auto]]. }
      clear - A4 X HE. induction A4 as [|p p' l l' [K1 K2] A4 IH]; constructor.
      + destruct (X p' (or_introl eq_refl)) as ((Y1 & Y2 & Y3 & Y4) & Y5 & Y6). do 7 (split; [assumption|]). exact Y6.
      + apply IH. intros; apply X; right; auto.
    - apply IH; [intros q X; apply HL; right; exact X|intros q r X Y; apply (Lo q); [right; exact X|exact Y]|intros q r X Y; apply (D4 q); [right; exact X|exact Y]|intros q r X Y; apply (NV6 q); [right; exact X|exact Y]]. }
  assert (HL4 : forall ph, In ph L4 -> is_rigid (s_law (ph_sol ph)) = false).
  { intros ph Hph. destruct (map_in_sol (sL s) L4 ph (Lrel_sol _ _ _ RA) Hph) as (ph0 & A & <-). rewrite (HL ph0 A). reflexivity. }
  assert (RB : Forall2 (fun ph ph' => is_rigid (s_law (ph_sol ph)) = false /\ phase_moved P G6 ph ph') L4 L5)
    by (apply Forall2_conj_l; assumption).
  eapply Forall2_imp; [|exact (Forall2_comp _ _ _ _ _ RA RB)].
  cbv beta. intros ph ph2 (ph1 & (A1 & A2 & A3 & A4 & A5) & (IR & B1 & B2 & B3 & B4 & _)).
  split; [congruence|]. split; [congruence|]. split; [congruence|]. rewrite IR in B4.
  eapply Forall2_imp; [|exact (Forall2_comp _ _ _ _ _ A4 B4)].
  cbv beta. intros p p2 (p1 & (X0 & X1 & X2 & X3 & X4 & X5 & X6 & X7) & (Y1 & Y2 & Y3)).
  rewrite X2 in Y3. destruct Y3 as (v' & V1 & V2).
  assert (SUM : forall X z, (forall r, (r < 4)%nat -> X (corner_node (pG P) (cell_node (pG P) (px p1)) r) = z) ->
    fsum (nodes Pg) (fun k => hat Pg (px p1) k * X k) = z).
  { intros X z HX. transitivity (fsum 4 (fun r => X (corner_node (pG P) (cell_node (pG P) (px p1)) r) * Nr p1 r)); [symmetry; exact (corner_sum P p1 X HP X6)|].
    rewrite (fsum_ext _ _ (fun r => z * Nr p1 r)) by (intros r Hr; rewrite (HX r Hr); reflexivity).
    rewrite (fsum_scal _ _ (fun r => Nr p1 r)).
    rewrite (fsum_ext _ _ (wN (cell_w Pg) (cell_h Pg) (loc Pg (px p1)))) by (intros; apply (located_N Pg p1); exact X6).
    pose proof (cell_w_pos _ HP). pose proof (cell_h_pos _ HP). rewrite shape_unity by lra. lra. }
  assert (PX : forall a, comp a (px p2) = comp a (px p) + p_dt (sP s) * comp a c').
  { intros a. rewrite Y2. change (pG P) with Pg. rewrite (SUM _ (comp a c')) by (intros r Hr; apply X7; exact Hr). rewrite X1. reflexivity. }
  assert (VZ : v' = c').
  { apply v3_ext. intros a. rewrite V2. change (pG P) with Pg. rewrite (SUM _ (w * comp a b)) by (intros r Hr; apply X7; exact Hr).
    unfold c'. rewrite comp_vadd, !comp_vscale. reflexivity. }
  split; [apply v3_ext; intros a; rewrite comp_vadd, comp_vscale; apply PX|].
  split; [rewrite V1, VZ; reflexivity|]. rewrite Y1. cbn [pstress pb pm set]. auto.
Qed.

(** The two points of C55 under a tilted gravity, with and without damping. *)
Definition fall_loads (_ : params R) : loads R := mkLoads (-10) (1/2) 0 0.
Definition fall_state (d : bool) (G : grid R) (c : V3 R) : state R :=
  mkState (ex_params ex_bounds <| p_damping := d |>) G (dr_L c).
Lemma fall_ready d G c : grid_ok ex_gridp G -> ready (fall_state d G c).
Proof.
  intros OK. pose proof (dr_ready ex_bounds G c OK eq_refl eq_refl eq_refl) as H. destruct H. constructor; assumption.
Qed.
Lemma fall_heavy uf fill d G c s' : grid_ok ex_gridp G -> time_march uf fill (fall_state d G c) = Ok s' ->
  all_live (dr_L c) (fun _ p => forall r, (r < 4)%nat ->
    heavy (ex_params ex_bounds <| p_damping := d |>) (sG s') (corner_node ex_gridp (cell_node ex_gridp (px p)) r)).
Proof.
  intros OK E ph p A C r Hr. unfold heavy.
  rewrite (march_mass uf fill (fall_state d G c) s' ex_proper OK (dr_dom' c)) by (exact E || (repeat split; reflexivity)).
  cbn [fall_state sL sP]. change (p_Mtol (ex_params (T := R) ex_bounds <| p_damping := d |>)) with (p_Mtol (ex_params (T := R) ex_bounds)).
  change (pG (ex_params (T := R) ex_bounds <| p_damping := d |>)) with (ex_gridp (T := R)).
  destruct (dr_in c ph p A C) as (ph0 & p0 & A0 & C0 & EX & EM).
  pose proof (ex_hat Elastic ph0 p0 A0 C0 r Hr) as H8. rewrite EX in H8. set (k := corner_node _ _ r) in *.
  assert (M : forall ph p, In ph (dr_L c) -> In p (live ph) -> pm p = 2).
  { intros ph1 p1 [<-|[]] [<-|[<-|[]]]; cbn; lra. }
  apply Rlt_le_trans with (pm p * hat ex_gridp (px p) k).
  - rewrite (M ph p A C). cbn. lra.
  - apply (psum_ge_elem (dr_L c) (fun _ p => pm p * hat ex_gridp (px p) k) ph p); auto.
    intros ph1 p1 A1 C1. rewrite (M ph1 p1 A1 C1). pose proof (hat_nonneg ex_gridp (px p1) k). lra.
Qed.
Example x_C62_free_fall : forall fill c d, exists s s' : state R, proper (pG (sP s)) /\ grid_ok (pG (sP s)) (sG s) /\
  all_live (sL s) (fun _ p => in_dom (pG (sP s)) (px p)) /\ shut (sP s) /\ no_rub (pB (sP s)) /\ 0 <= p_Mtol (sP s) /\
  (exists ph, sL s = [ph] /\ s_law (ph_sol ph) = Elastic) /\
  all_live (sL s) (fun _ p => pv p = Own c /\ pstress p = m0) /\ no_surface (sP s) (fall_loads (sP s)) /\
  wall_free (bv (sG s)) (bh (sG s)) /\ time_march fall_loads fill s = Ok s' /\ p_damping (sP s) = d /\ ld_g (fall_loads (sP s)) = -10 /\
  all_live (sL s) (fun _ p => forall r, (r < 4)%nat -> heavy (sP s) (sG s') (corner_node (pG (sP s)) (cell_node (pG (sP s)) (px p)) r)).
Proof.
  intros fill c d. destruct (grid_init_ok ex_gridp ex_bounds ex_proper) as (G & EG & OK).
  destruct (march_total fall_loads fill _ (fall_ready d G c OK)) as [s' E].
  exists (fall_state d G c), s'.
  split; [exact ex_proper|]. split; [exact OK|]. split; [exact (dr_dom' c)|]. split; [repeat split; reflexivity|]. split; [left; reflexivity|].
  split; [cbn; lra|]. split; [eexists; split; reflexivity|].
  split; [intros ph p A B; destruct (dr_drift c ph p A B) as (_ & X & Y & _); auto|].
  split; [split; reflexivity|]. split; [exact (no_walls G EG OK)|]. split; [exact E|]. split; [reflexivity|]. split; [reflexivity|].
  exact (fall_heavy fall_loads fill d G c s' OK E).
Qed.

(** ** C63 *)
(** P.damping is meant to take energy out of the motion.  A body in uniform
    motion, however fast, is not slowed at all by it. *)
Lemma p_C63_damping_refuted : forall fill c, exists s s' : state R, p_damping (sP s) = true /\
  time_march no_loads fill s = Ok s' /\ (length (concat (map live (sL s))) = 2)%nat /\
  Prel (fun _ p p' => pv p = Own c /\ pv p' = Own c /\ pm p' = pm p /\ 0 < pm p) (sL s) (sL s').
Proof.
  intros fill c. destruct (grid_init_ok ex_gridp ex_bounds ex_proper) as (G & EG & OK).
  destruct (march_total no_loads fill _ (fall_ready true G c OK)) as [s' E].
  exists (fall_state true G c), s'. split; [reflexivity|]. split; [exact E|]. split; [reflexivity|].
  assert (SH : shut (ex_params (T := R) ex_bounds <| p_damping := true |>)) by (repeat split; reflexivity).
  assert (U : unloaded (sP (fall_state true G c)) (no_loads (sP (fall_state true G c)))) by (repeat split; reflexivity).
  pose proof (p_C55_uniform_motion no_loads fill (fall_state true G c) s' c ex_proper OK (dr_dom' c) SH (or_introl eq_refl)) as Q.
  assert (M0 : 0 <= p_Mtol (sP (fall_state true G c))) by (cbn; lra).
  specialize (Q M0). specialize (Q ltac:(intros ph [<-|[]]; reflexivity) (dr_drift c) U (no_walls G EG OK) E (fall_heavy no_loads fill true G c s' OK E)).
  assert (W : forall ph p, In ph (dr_L c) -> In p (live ph) -> pv p = Own c /\ 0 < pm p).
  { intros ph p [<-|[]] [<-|[<-|[]]]; cbn; split; auto; lra. }
  cbn [fall_state sL] in *. revert Q W. generalize (dr_L c) (sL s'). clear. intros L L' Q W.
  induction Q as [|ph ph' L L' (A1 & A2 & A3 & A4) Q IH]; constructor.
  - do 3 (split; [assumption|]). assert (X : forall p, In p (live ph) -> pv p = Own c /\ 0 < pm p) by (intros; apply (W ph); [left|]; auto).
    clear - A4 X. induction A4 as [|p p' l l' (_ & K2 & _ & _ & K5) A4 IH]; constructor.
    + destruct (X p (or_introl eq_refl)). auto.
    + apply IH. intros; apply X; right; auto.
  - apply IH. intros; eapply W; eauto. right; auto.
Qed.
