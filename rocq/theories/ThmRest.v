(** * Layers that start under their own weight stay at rest: C96 *)
From Coq Require Import ZArith Reals List Bool Arith Lra Lia.
From Verif Require Import State NumR Spec SpecLaws SpecStep SpecScheme SpecRing LibList LibR ModelGrid ModelInputs ModelConstit ModelParticle ModelMPList
  ModelIntegr ModelMain ProofsGrid ProofsMap ProofsP2G ProofsWalls ProofsLaws ProofsInOut ProofsHist Concrete
  ThmMapping ThmWalls ThmLaws ThmInOut ThmHist ProofsStep ProofsPoints ThmStep ThmBalance ThmEnergy ThmFall ThmGeo ProofsScheme ThmScheme
  ThmDensity ProofsRing ThmRing ProofsFill ThmFill ProofsRest.
Import ListNotations.
Local Open Scope R_scope.

(** ** The start *)
(** A layer of [rows] rows of cells, [c] points per cell and direction, at rest,
    with the stress that P.initial_pressure = 'lithostatic' gives; G.top_gap is
    the height of the empty cells (or is not defined, when there are none). *)
Record settled (P : params R) (c rows : nat) (So : solid R) (sv : V3 R) (L : list (phase R)) : Prop := {
  se_pressure : p_pressure P = PLithostatic;
  se_flow : p_flow P = FNone;
  se_still : s_has_iv So = false;
  se_gap : match top_gap (pG P) with Some g => g | None => 0 end = INR (ny (pG P) - 1 - rows) * cell_h (pG P);
  se_count : (1 <= c)%nat /\ (1 <= rows <= ny (pG P) - 1)%nat;
  se_list : mplist_init P [(So, sv, places (layer (pG P) c rows (INR (ny (pG P) - 1 - rows) * cell_h (pG P))))] = Ok L }.

Lemma settled_bodies P c rows So sv L : proper (pG P) -> settled P c rows So sv L ->
  bodies L = rest (pG P) c rows (matter_of So) (s_rho So) (s_A So * thickness (pG P))
    (p_max_g P * sin (ld_theta (p_loads P))) (p_max_g P * cos (ld_theta (p_loads P))) (body (p_loads P)) /\
  counted L /\ map ph_sol L = [So] /\ own_velocities L.
Proof.
  intros HP [H1 H2 H3 H4 [H5 H6] H7]. destruct (init_layer _ _ _ _ _ H7) as (ps & -> & F). fold (head (pG P) rows) in *.
  set (l := layer (pG P) c rows (head (pG P) rows)) in *.
  assert (X : forall xy p, particle_init P So So (fst xy) (snd xy) (s_phi So) = Ok p ->
    pv p = Own v0 /\ px p = mkV3 (fst xy) (snd xy) 0 /\ pV p = s_A So * thickness (pG P) /\ pm p = s_rho So * (s_A So * thickness (pG P)) /\ pb p = body (p_loads P) /\
    pstress p = litho (pG P) rows (s_rho So) (p_max_g P * sin (ld_theta (p_loads P))) (p_max_g P * cos (ld_theta (p_loads P))) (snd xy) /\
    ppressure p = s_rho So * (p_max_g P * cos (ld_theta (p_loads P))) * (surface (pG P) rows - snd xy)).
  { intros xy p E. unfold particle_init, init_state, init_flow in E. rewrite H1, H2, H3 in E. cbv zeta in E. pbinds E.
    pbinds E0. injection E0 as <- <-. injection E1 as <- <- <-. injection E as <-.
    assert (D : match top_gap (pG P) with Some g => y_M (pG P) - g - snd xy | None => y_M (pG P) - snd xy end = surface (pG P) rows - snd xy).
    { unfold surface. destruct (ch (pG P) HP) as [_ Y]. rewrite Y. unfold head in H4. rewrite minus_INR in H4 by lia. destruct (top_gap (pG P)); lra. }
    change (@nsub R _) with Rminus. rewrite D. cbn [pv px pV pm pb pstress ppressure]. do 5 (split; [reflexivity|]). unfold litho, trace, n3. cbn [xx yy zz]. unR. split; [f_equal; ring|]. field. }
  split; [|split; [|split]].
  - unfold bodies, rest. cbn [bodies_from]. rewrite app_nil_r. unfold live. cbn [ph_n ph_pts].
    fold l. replace (firstn (length l) ps) with ps by (rewrite (Forall2_len _ _ _ F), firstn_all; reflexivity).
    assert (Y : forall ph, ph_sol ph = So -> map (mp_of 0 ph) ps = map (rest_mp (pG P) rows (matter_of So) (s_rho So) (s_A So * thickness (pG P))
      (p_max_g P * sin (ld_theta (p_loads P))) (p_max_g P * cos (ld_theta (p_loads P))) (body (p_loads P))) l).
    { intros ph Hph. clear H7. clearbody l. induction F as [|z p l' ps A F IH]; [reflexivity|]. cbn [map]. f_equal; [|exact IH].
      destruct (X z p A) as (X1 & X2 & X3 & X4 & X5 & X6 & X7). unfold mp_of, rest_mp, velocity. rewrite X1, X2, X3, X4, X5, X6, X7, Hph. reflexivity. }
    apply Y. reflexivity.
  - intros ph [<-|[]]. cbn [ph_n ph_pts]. apply (Forall2_len _ _ _ F).
  - reflexivity.
  - apply (new_live P So _ _ _ _ _ F). intros z p _ A. destruct (X z p A) as (X1 & _). eauto.
Qed.

(** What the two theorems below share: an elastic material, or a viscous one on
    level ground; loads that stay those of the start; the usual options. *)
Record quiet_run (uf : params R -> loads R) (n : nat) (P : params R) (So : solid R) : Prop := {
  qr_law : s_law So = Elastic \/ (s_law So = Viscous /\ p_max_g P * sin (ld_theta (p_loads P)) = 0);
  qr_equip : equipped So So;
  qr_g : ld_g (p_loads P) = p_max_g P;
  qr_loads : forall j, (j < n)%nat -> body (uf (clock uf j P)) = body (p_loads P);
  qr_surface : forall Q, no_surface P (uf Q);
  qr_walls : ThmWalls.plain (pB P);
  qr_rub : no_rub (pB P);
  qr_aniso : p_aniso P = false;
  qr_dynamic : p_dynamic P = false;
  qr_tf : p_tf P <> 0;
  qr_save : p_savetime P <> 0 }.

Lemma quiet_matter uf n P So : quiet_run uf n P So ->
  match matter_of So with Solid _ _ => True | Fluid _ _ _ => p_max_g P * sin (ld_theta (p_loads P)) = 0 end.
Proof. intros [H _ _ _ _ _ _ _ _ _ _]. unfold matter_of. destruct H as [-> |[-> H]]; [exact I|exact H]. Qed.

Lemma rest_run uf (P0 : gridp R) (HP : proper P0) c rows (Hc : (1 <= c)%nat) (Hr : (1 <= rows <= ny P0 - 1)%nat) mat rho V gx gy rough (G : grid R)
  (Hm : match mat with Solid _ _ => True | Fluid _ _ _ => gx = 0 end)
  (HW : forall a k, (k < nodes P0)%nat -> passes rough G a k = 0 \/
     (((0 < k / nx P0)%nat \/ gvec gx gy a = 0) /\ ((0 < k mod nx P0 < nx P0 - 1)%nat \/ cross gx gy a = 0)) \/ a = AZ) :
  forall n (P : params R), pG P = P0 -> roughness (pB P) = rough -> (forall j, (j < n)%nat -> body (uf (clock uf j P)) = mkV3 gx gy 0) ->
  t_run uf n P G (rest P0 c rows mat rho V gx gy (mkV3 gx gy 0)) = rest P0 c rows mat rho V gx gy (mkV3 gx gy 0).
Proof.
  induction n as [|n IH]; intros P EP ER HU; [reflexivity|]. cbn [t_run]. pose proof (HU 0%nat (Nat.lt_0_succ n)) as U0. cbn [clock] in U0.
  assert (EG : e_g (scheme_of P (uf P) G) = mkV3 gx gy 0) by exact U0.
  assert (CG : forall a, comp a (e_g (scheme_of P (uf P) G)) = gvec gx gy a) by (intros a; rewrite EG; destruct a; reflexivity).
  rewrite (rest_step P0 HP c rows Hc Hr mat rho V gx gy (scheme_of P (uf P) G) EP Hm).
  - rewrite (map_ext _ (rest_mp P0 rows mat rho V gx gy (mkV3 gx gy 0))).
    + apply IH; [exact EP|exact ER|]. intros j Hj. apply (HU (Datatypes.S j)). lia.
    + intros z. rewrite <- EG. apply kicked_rest. exact CG.
  - rewrite EG. reflexivity.
  - right. exact CG.
  - intros a k Hk. unfold scheme_of. cbn [e_open]. rewrite ER. apply HW. exact Hk.
Qed.
Lemma rest_ring uf (P0 : gridp R) (HP : proper P0) c rows (Hc : (1 <= c)%nat) (Hr : (1 <= rows <= ny P0 - 1)%nat) mat rho V gx gy rough (G : grid R)
  (Hm : match mat with Solid _ _ => True | Fluid _ _ _ => gx = 0 end)
  (HW : forall a i j, (i < nx P0 - 1)%nat -> (j < ny P0)%nat -> passes rough G a (j * nx P0 + i) = 0 \/ ((0 < j)%nat \/ gvec gx gy a = 0) \/ a = AZ) :
  forall n (P : params R), pG P = P0 -> roughness (pB P) = rough -> (forall j, (j < n)%nat -> body (uf (clock uf j P)) = mkV3 gx gy 0) ->
  r_run uf n P G (rest P0 c rows mat rho V gx gy (mkV3 gx gy 0)) = rest P0 c rows mat rho V gx gy (mkV3 gx gy 0).
Proof.
  induction n as [|n IH]; intros P EP ER HU; [reflexivity|]. cbn [r_run]. pose proof (HU 0%nat (Nat.lt_0_succ n)) as U0. cbn [clock] in U0.
  assert (EG : e_g (scheme_of P (uf P) G) = mkV3 gx gy 0) by exact U0.
  assert (CG : forall a, comp a (e_g (scheme_of P (uf P) G)) = gvec gx gy a) by (intros a; rewrite EG; destruct a; reflexivity).
  rewrite (r_rest_step P0 HP c rows Hc Hr mat rho V gx gy (scheme_of P (uf P) G) EP Hm).
  - rewrite EG. apply IH; [exact EP|exact ER|]. intros j Hj. apply (HU (Datatypes.S j)). lia.
  - rewrite EG. reflexivity.
  - exact CG.
  - intros a i j Hi Hj. unfold r_open, scheme_of. cbn [e_open e_P]. rewrite ER, EP. apply HW; assumption.
Qed.

Lemma ends_from_walls (P : gridp R) B (G : grid R) : proper P -> grid_init P B = Ok G -> ThmWalls.plain B -> has_left B = has_right B -> ends_agree P G.
Proof.
  intros HP EG K6 B2 j Hj. pose proof HP as (Nx & _).
  destruct (ProofsRing.node_at P HP j 0 ltac:(lia)) as [C1 C2]. destruct (ProofsRing.node_at P HP j (nx P - 1) ltac:(lia)) as [C3 C4].
  destruct (p_C10_wall_masks R _ _ _ _ EG K6 (j * nx P + 0) ltac:(nia)) as (MH & MV & _). destruct (p_C10_wall_masks R _ _ _ _ EG K6 (j * nx P + (nx P - 1)) ltac:(nia)) as (MH' & MV' & _).
  unfold row, col in *. rewrite C1, C2 in *. rewrite C3, C4 in *. rewrite Nat.add_0_r in *. rewrite B2 in *. clear - MH MV MH' MV' Nx.
  assert (EQ : forall u v : bool, (u = true <-> v = true) -> u = v) by (intros [|] [|] [I1 I2]; try reflexivity; [symmetry; auto|auto]).
  split; apply EQ; [rewrite MV, MV'|rewrite MH, MH'; reflexivity]. clear - Nx. split; (intros [[X1 X2]|[[X1 X2]|X]]; [try lia; auto|try lia; auto|auto]).
Qed.

Lemma box_walls (P : gridp R) B (G : grid R) gx gy : proper P -> grid_init P B = Ok G -> ThmWalls.plain B ->
  has_bottom B = true -> has_left B = true -> has_right B = true -> roughness B = true \/ gx = 0 ->
  forall a k, (k < nodes P)%nat -> passes (roughness B) G a k = 0 \/
     (((0 < k / nx P)%nat \/ gvec gx gy a = 0) /\ ((0 < k mod nx P < nx P - 1)%nat \/ cross gx gy a = 0)) \/ a = AZ.
Proof.
  intros HP EG K6 B1 B2 B3 HT a k Hk. destruct (p_C10_wall_masks R _ _ _ _ EG K6 k Hk) as (MH & MV & _). change (k / nx P)%nat with (row P k). change (k mod nx P)%nat with (col P k).
      unfold passes. destruct a; [| |right; right; reflexivity]; unfold removed.
      + destruct (nth k (bv G) false) eqn:V; [left; reflexivity|]. destruct (nth k (bh G) false) eqn:W.
        * destruct HT as [-> |HT]; [left; reflexivity|]. right. left. split; [right; exact HT|]. left.
          assert (col P k < nx P)%nat by (apply Nat.mod_upper_bound; destruct HP; lia).
          destruct (Nat.eq_dec (col P k) 0), (Nat.eq_dec (col P k) (nx P - 1)); try lia; exfalso; assert (false = true) by (apply MV; auto); discriminate.
        * right. left. assert (row P k <> 0%nat) by (intros Z; assert (false = true) by (apply MH; auto); discriminate). split; [left; lia|]. left.
          assert (col P k < nx P)%nat by (apply Nat.mod_upper_bound; destruct HP; lia).
          destruct (Nat.eq_dec (col P k) 0), (Nat.eq_dec (col P k) (nx P - 1)); try lia; exfalso; assert (false = true) by (apply MV; auto); discriminate.
      + destruct (nth k (bh G) false) eqn:W; [left; reflexivity|].
        assert (row P k <> 0%nat) by (intros Z; assert (false = true) by (apply MH; auto); discriminate).
        destruct HT as [-> |HT]; [|right; left; split; [left; lia|right; exact HT]].
        destruct (nth k (bv G) false) eqn:V; [left; reflexivity|]. right. left. split; [left; lia|]. left.
        assert (col P k < nx P)%nat by (apply Nat.mod_upper_bound; destruct HP; lia).
        destruct (Nat.eq_dec (col P k) 0), (Nat.eq_dec (col P k) (nx P - 1)); try lia; exfalso; assert (false = true) by (apply MV; auto); discriminate.
Qed.

(** ** C96 *)
(** Between walls (a floor and two sides): a settled layer does not move at all,
    in any number of passes of the main loop - not only to the accuracy of the
    grid.  Rough walls hold it under any tilt, smooth walls on level ground. *)
Lemma p_C96_box : forall uf fill n (P : params R) (G : grid R) c rows So sv L tr, proper (pG P) -> grid_init (pG P) (pB P) = Ok G -> shut P ->
  settled P c rows So sv L -> quiet_run uf n P So ->
  has_bottom (pB P) = true -> has_left (pB P) = true -> has_right (pB P) = true ->
  roughness (pB P) = true \/ p_max_g P * sin (ld_theta (p_loads P)) = 0 ->
  exists s' tr', after uf fill n (mkState P G L) tr = Ok (s', tr') /\ bodies (sL s') = bodies L /\
    Forall (fun q => q_v q = mkV3 0 0 0 /\ inside (pG P) (q_x q) /\ vz (q_x q) = 0) (bodies (sL s')).
Proof.
  intros uf fill n P G c rows So sv L tr HP EG HS HL HQ B1 B2 B3 HT. destruct (settled_bodies P c rows So sv L HP HL) as (EB & CL & SL & OL).
  pose proof HL as [_ _ _ _ [Hc Hr] _]. pose proof (quiet_matter uf n P So HQ) as Hm. pose proof HQ as [K1 K2 K3 K4 K5 K6 K7 K8 K9 K10 K11].
  destruct (grid_init_ok (pG P) (pB P) HP) as (G0 & E0 & OK). assert (G0 = G) by congruence. subst G0.
  set (gx := p_max_g P * sin (ld_theta (p_loads P))) in *. set (gy := p_max_g P * cos (ld_theta (p_loads P))) in *.
  assert (EBd : body (p_loads P) = mkV3 gx gy 0) by (unfold body, gx, gy; rewrite K3; reflexivity). rewrite EBd in EB.
  assert (HI : Forall (fun q => q_v q = mkV3 0 0 0 /\ inside (pG P) (q_x q) /\ vz (q_x q) = 0) (bodies L)).
  { rewrite EB. unfold rest. apply Forall_forall. intros q. rewrite in_map_iff. intros (z & <- & A).
    destruct (layer_inside (pG P) HP c rows Hc Hr z A) as [X Y].
    assert (0 <= head (pG P) rows). { unfold head. apply Rmult_le_pos; [apply pos_INR|]. destruct (ch (pG P) HP). lra. }
    split; [reflexivity|]. split; [|reflexivity]. unfold inside, rest_mp. cbn [q_x vx vy]. lra. }
  assert (TR : forall j, (j <= n)%nat -> t_run uf j P G (bodies L) = bodies L).
  { intros j Hj. rewrite EB. apply (rest_run uf (pG P) HP c rows Hc Hr _ _ _ gx gy (roughness (pB P)) G Hm); [|reflexivity|reflexivity|].
    - apply box_walls; assumption.
    - intros i Hi. rewrite <- EBd. apply K4. lia. }
  assert (PL : ThmScheme.plain (mkState P G L)).
  { constructor; cbn [sP sG sL]; try assumption.
    - intros ph A. apply (in_map ph_sol) in A. rewrite SL in A. destruct A as [A|[]]. rewrite <- A. tauto.
    - exists So. destruct L as [|ph [|? ?]]; try discriminate. injection SL as SL. cbn. rewrite SL. split; [reflexivity|]. intros ph' [<-|[]]. rewrite SL. exact K2. }
  destruct (p_C84_run uf fill n (mkState P G L) tr PL K5) as (s' & tr' & A1 & A2 & A3).
  { cbn [sP sG sL]. intros j Hj. rewrite TR by lia. eapply Forall_impl; [|exact HI]. cbv beta. intros q (_ & X & Z). split; [unfold inside, in_dom in *; lra|auto]. }
  cbn [sP sG sL] in A3. rewrite TR in A3 by lia. exists s', tr'. rewrite A3. auto.
Qed.
(** On a domain with joined ends: a settled layer on a rough floor, or one that
    does not let it slip, stays where it is under any tilt; on a smooth one on
    level ground. *)
Lemma p_C96_ring : forall uf fill n (P : params R) (G : grid R) c rows So sv L tr, proper (pG P) -> grid_init (pG P) (pB P) = Ok G -> ring_only P ->
  settled P c rows So sv L -> quiet_run uf n P So ->
  has_bottom (pB P) = true -> has_left (pB P) = has_right (pB P) ->
  roughness (pB P) = true \/ no_slip_bottom (pB P) = true \/ p_max_g P * sin (ld_theta (p_loads P)) = 0 ->
  exists s' tr', after uf fill n (mkState P G L) tr = Ok (s', tr') /\ bodies (sL s') = bodies L /\
    Forall (fun q => q_v q = mkV3 0 0 0 /\ inside (pG P) (q_x q) /\ vz (q_x q) = 0) (bodies (sL s')).
Proof.
  intros uf fill n P G c rows So sv L tr HP EG HS HL HQ B1 B2 HT. destruct (settled_bodies P c rows So sv L HP HL) as (EB & CL & SL & OL).
  pose proof HL as [_ _ _ _ [Hc Hr] _]. pose proof (quiet_matter uf n P So HQ) as Hm. pose proof HQ as [K1 K2 K3 K4 K5 K6 K7 K8 K9 K10 K11].
  destruct (grid_init_ok (pG P) (pB P) HP) as (G0 & E0 & OK). assert (G0 = G) by congruence. subst G0.
  set (gx := p_max_g P * sin (ld_theta (p_loads P))) in *. set (gy := p_max_g P * cos (ld_theta (p_loads P))) in *.
  assert (EBd : body (p_loads P) = mkV3 gx gy 0) by (unfold body, gx, gy; rewrite K3; reflexivity). rewrite EBd in EB.
  assert (HI : Forall (fun q => q_v q = mkV3 0 0 0 /\ inside (pG P) (q_x q) /\ vz (q_x q) = 0) (bodies L)).
  { rewrite EB. unfold rest. apply Forall_forall. intros q. rewrite in_map_iff. intros (z & <- & A).
    destruct (layer_inside (pG P) HP c rows Hc Hr z A) as [X Y].
    assert (0 <= head (pG P) rows). { unfold head. apply Rmult_le_pos; [apply pos_INR|]. destruct (ch (pG P) HP). lra. }
    split; [reflexivity|]. split; [|reflexivity]. unfold inside, rest_mp. cbn [q_x vx vy]. lra. }
  assert (TR : forall j, (j <= n)%nat -> r_run uf j P G (bodies L) = bodies L).
  { intros j Hj. rewrite EB. apply (rest_ring uf (pG P) HP c rows Hc Hr _ _ _ gx gy (roughness (pB P)) G Hm); [|reflexivity|reflexivity|].
    - intros a i j0 Hi Hj0. pose proof HP as (Nx & _). destruct (ProofsRing.node_at (pG P) HP j0 i ltac:(lia)) as [C1 C2].
      assert (Hk : (j0 * nx (pG P) + i < nx (pG P) * ny (pG P))%nat) by nia.
      destruct (p_C10_wall_masks R _ _ _ _ EG K6 _ Hk) as (MH & MV & _). unfold row, col in MH, MV. rewrite C1, C2 in *.
      unfold passes. destruct a; [| |right; right; reflexivity]; unfold removed.
      + destruct j0 as [|j0]; [|right; left; left; lia]. rewrite (proj2 MH) by auto. destruct HT as [-> |[HT|HT]].
        * left. rewrite orb_true_r. reflexivity.
        * left. rewrite (proj2 MV) by auto. reflexivity.
        * right. left. right. exact HT.
      + destruct j0 as [|j0]; [|right; left; left; lia]. rewrite (proj2 MH) by auto. left. reflexivity.
    - intros i Hi. rewrite <- EBd. apply K4. lia. }
  assert (PL : rplain (mkState P G L)).
  { constructor; cbn [sP sG sL]; try assumption.
    - apply (ends_from_walls (pG P) (pB P)); assumption.
    - intros ph A. apply (in_map ph_sol) in A. rewrite SL in A. destruct A as [A|[]]. rewrite <- A. tauto.
    - exists So. destruct L as [|ph [|? ?]]; try discriminate. injection SL as SL. cbn. rewrite SL. split; [reflexivity|]. intros ph' [<-|[]]. rewrite SL. exact K2. }
  destruct (p_C91_run uf fill n (mkState P G L) tr PL K5) as (s' & tr' & A1 & A2 & A3).
  { cbn [sP sG sL]. intros j Hj. rewrite TR by lia. eapply Forall_impl; [|exact HI]. cbv beta. intros q (_ & X & Z). split; [unfold inside, in_dom in *; lra|auto]. }
  cbn [sP sG sL] in A3. rewrite TR in A3 by lia. exists s', tr'. rewrite A3. auto.
Qed.
(** The scripts that set full gravity, or leave the loads alone, keep them those
    of the start. *)
Lemma p_C96_loads : forall (P : params R), ld_g (p_loads P) = p_max_g P ->
  (forall n, body (constant_forces (clock constant_forces n P)) = body (p_loads P)) /\
  (forall n, body (no_forces (clock no_forces n P)) = body (p_loads P)).
Proof.
  intros P H.
  assert (A : forall n (Q : params R), p_max_g Q = p_max_g P -> ld_theta (p_loads Q) = ld_theta (p_loads P) ->
    p_max_g (clock constant_forces n Q) = p_max_g P /\ ld_theta (p_loads (clock constant_forces n Q)) = ld_theta (p_loads P)).
  { induction n as [|n IH]; intros Q X Y; [split; assumption|]. cbn [clock]. apply IH; [exact X|exact Y]. }
  assert (B : forall n (Q : params R), p_loads Q = p_loads P -> p_loads (clock no_forces n Q) = p_loads P).
  { induction n as [|n IH]; intros Q X; [assumption|]. cbn [clock]. apply IH. exact X. }
  split; intros n.
  - destruct (A n P eq_refl eq_refl) as [X Y]. set (Q := clock constant_forces n P) in *. clearbody Q. unfold constant_forces, body. cbn [ld_g ld_theta]. rewrite X, Y, H. reflexivity.
  - change (body (p_loads (clock no_forces n P)) = body (p_loads P)). rewrite (B n P eq_refl). reflexivity.
Qed.
(** With other loads than those of the start the layer is thrown: if the stress
    carries the gravity [p_max_g] and the script says [g], every point gets the
    velocity [dt (g - p_max_g)] in the first pass (times 7/10 with P.damping), as
    far as the nodes around it are heavy and not walls. *)
Lemma p_C96_thrown : forall uf fill (P : params R) (G : grid R) c rows So sv L tr, proper (pG P) -> grid_init (pG P) (pB P) = Ok G -> shut P ->
  settled P c rows So sv L -> quiet_run uf 0 P So -> has_bottom (pB P) = true -> has_left (pB P) = true -> has_right (pB P) = true ->
  ld_theta (p_loads P) = 0 -> ld_theta (uf P) = 0 -> 0 <= p_Mtol P ->
  exists s' tr', after uf fill 1 (mkState P G L) tr = Ok (s', tr') /\
    Forall2 (fun q q' => vx (q_v q') = 0 /\ vy (q_v q') = p_dt P * ((if p_damping P then 7/10 else 1) * (ld_g (uf P) - p_max_g P)) *
      fsum (nodes (pG P)) (fun k => hat (pG P) (q_x q) k *
        (if Rlt_dec (p_Mtol P) (Rsum (map (fun r => q_m r * hat (pG P) (q_x r) k) (bodies L))) then passes (roughness (pB P)) G AY k else 0)))
      (bodies L) (bodies (sL s')).
Proof.
  intros uf fill P G c rows So sv L tr HP EG HS HL HQ B1 B2 B3 T1 T2 HM. destruct (settled_bodies P c rows So sv L HP HL) as (EB & CL & SL & OL).
  pose proof HL as [_ _ _ _ [Hc Hr] _]. pose proof (quiet_matter uf 0 P So HQ) as Hm. pose proof HQ as [K1 K2 K3 K4 K5 K6 K7 K8 K9 K10 K11].
  destruct (grid_init_ok (pG P) (pB P) HP) as (G0 & E0 & OK). assert (G0 = G) by congruence. subst G0.
  assert (GX : p_max_g P * sin (ld_theta (p_loads P)) = 0) by (rewrite T1, sin_0; lra).
  assert (GY : p_max_g P * cos (ld_theta (p_loads P)) = p_max_g P) by (rewrite T1, cos_0; lra). rewrite GX in Hm. rewrite GX, GY in EB.
  set (b0 := body (p_loads P)) in *. 
  assert (PL : ThmScheme.plain (mkState P G L)).
  { constructor; cbn [sP sG sL]; try assumption.
    - intros ph A. apply (in_map ph_sol) in A. rewrite SL in A. destruct A as [A|[]]. rewrite <- A. tauto.
    - exists So. destruct L as [|ph [|? ?]]; try discriminate. injection SL as SL. cbn. rewrite SL. split; [reflexivity|]. intros ph' [<-|[]]. rewrite SL. exact K2. }
  destruct (p_C84_run uf fill 1 (mkState P G L) tr PL K5) as (s' & tr' & A1 & A2 & A3).
  { cbn [sP sG sL]. intros j Hj. assert (j = 0%nat) by lia. subst j. cbn [t_run]. rewrite EB. apply Forall_forall. intros q A.
    split; [exact (rest_dom (pG P) HP c rows Hc Hr _ _ _ _ _ b0 q A)|]. intros _. unfold rest in A. rewrite in_map_iff in A. destruct A as (z & <- & _). reflexivity. }
  cbn [sP sG sL t_run] in A3. exists s', tr'. split; [exact A1|]. rewrite A3. set (E := scheme_of P (uf P) G) in *.
  assert (EGV : e_g E = mkV3 0 (ld_g (uf P)) 0) by (unfold E, scheme_of; cbn [e_g]; rewrite T2, sin_0, cos_0; f_equal; ring).
  match goal with |- Forall2 ?Q _ _ => set (QQ := Q) end. rewrite EB. rewrite (rest_step (pG P) HP c rows Hc Hr (matter_of So) _ _ 0 (p_max_g P) E eq_refl Hm).
  - unfold rest. generalize (layer (pG P) c rows (head (pG P) rows)). intros l. induction l as [|z l IH]; [constructor|]. cbn [map]. constructor; [|exact IH].
    unfold QQ. unfold kicked, kick. cbn [q_v v3 vx vy]. rewrite EGV. cbn [comp vx vy gvec]. split; [unfold v3; cbn [vx]; ring|]. unfold v3. cbn [vy rest_mp q_x].
    unfold E at 1 2. cbn [scheme_of e_dt e_damp]. f_equal. unfold felt, e_nodes. change (e_P E) with (pG P). fold (nodes (pG P)). apply fsum_ext. intros k _.
    f_equal. change (e_tol E) with (p_Mtol P). change (e_open E AY k) with (passes (roughness (pB P)) G AY k).
    rewrite (rest_mass (pG P) HP c rows Hc Hr _ _ _ _ _ E eq_refl).
    assert (TM : Rsum (map (fun r => q_m r * hat (pG P) (q_x r) k) (bodies L)) = t_mass E (bodies L) k) by reflexivity.
    rewrite TM, EB, (rest_mass (pG P) HP c rows Hc Hr _ _ _ _ _ E eq_refl). reflexivity.
  - rewrite EGV. reflexivity.
  - left. exact HM.
  - apply box_walls; auto.
Qed.

(** ** Such runs exist *)
Definition rest_params (B : bounds R) (th : R) : params R :=
  ex_params B <| p_pressure := PLithostatic |> <| p_loads := mkLoads (-1) th 0 0 |>.
(** [ex_box] with rough walls, and a rough floor below joined ends. *)
Definition rough_ring : bounds R := mkBounds false false true None false true false true false false false
             false false false false false false false false false.
Lemma rest_start B th A : exists G L, grid_init (pG (rest_params B th)) (pB (rest_params B th)) = Ok G /\ settled (rest_params B th) 3 2 (fill_solid A) v0 L.
Proof.
  destruct (grid_init_ok ex_gridp B ex_proper) as (G & EG & OK). exists G. set (P := rest_params B th). set (So := fill_solid A).
  set (l := layer (pG P) 3 2 (INR (ny (pG P) - 1 - 2) * cell_h (pG P))).
  destruct (mapM_total (fun xy : R * R * option (list R) => let '(x, y, phi) := xy in
            particle_init P So So x y (match phi with Some f => f | None => s_phi So end)) (places l)) as [ps EP].
  { intros [[x y] f] _. eexists. unfold particle_init, init_state, init_flow. cbn [P rest_params ex_params p_pressure p_flow set]. cbv zeta.
    cbn [So fill_solid s_K s_G attr bind]. reflexivity. }
  exists [mkPhase So (length (places l)) v0 ps]. split; [exact EG|]. constructor; try reflexivity.
  - cbn. unR. lra.
  - split; [lia|]. cbn. lia.
  - fold l. unfold mplist_init. cbn [bind mapM]. rewrite EP. reflexivity.
Qed.
Lemma rest_quiet uf n B th A : (forall j, (j < n)%nat -> body (uf (clock uf j (rest_params B th))) = body (p_loads (rest_params B th))) ->
  vertical_force B = false -> horizontal_force B = false -> ThmWalls.plain B -> no_rub B -> quiet_run uf n (rest_params B th) (fill_solid A).
Proof.
  intros HU V1 V2 HB HN. constructor; try reflexivity; try assumption.
  - left. reflexivity.
  - split; discriminate.
  - intros Q. split; intros X; cbn in X; congruence.
  - cbn. unR. lra.
  - cbn. unfold nhalf. unR. lra.
Qed.
Example x_C96_box : forall n, exists (P : params R) (G : grid R) L, proper (pG P) /\ grid_init (pG P) (pB P) = Ok G /\ shut P /\
  settled P 3 2 (fill_solid (1/9)) v0 L /\ quiet_run constant_forces n P (fill_solid (1/9)) /\
  has_bottom (pB P) = true /\ has_left (pB P) = true /\ has_right (pB P) = true /\ p_max_g P * sin (ld_theta (p_loads P)) = 0 /\
  p_max_g P < 0 /\ bodies L <> [].
Proof.
  intros n. destruct (rest_start ex_box 0 (1/9)) as (G & L & EG & HL). exists (rest_params ex_box 0), G, L. split; [exact ex_proper|]. split; [exact EG|]. split; [repeat split|]. split; [exact HL|].
  split; [|repeat (split; [reflexivity|])].
  - apply rest_quiet; try reflexivity; [|repeat split|left; reflexivity]. intros j _. apply (p_C96_loads (rest_params ex_box 0)). reflexivity.
  - split; [cbn; rewrite sin_0; unR; lra|]. split; [cbn; unR; lra|].
    destruct (settled_bodies (rest_params ex_box 0) _ _ _ _ _ ex_proper HL) as (-> & _). unfold rest. intros Z. apply map_eq_nil in Z. apply (f_equal (@length _)) in Z. rewrite layer_length in Z. cbn in Z. discriminate.
Qed.
(** Tilted by 45 degrees. *)
Example x_C96_ring : forall n, exists (P : params R) (G : grid R) L, proper (pG P) /\ grid_init (pG P) (pB P) = Ok G /\ ring_only P /\
  settled P 3 2 (fill_solid (1/9)) v0 L /\ quiet_run no_forces n P (fill_solid (1/9)) /\
  has_bottom (pB P) = true /\ has_left (pB P) = has_right (pB P) /\ roughness (pB P) = true /\ p_max_g P * sin (ld_theta (p_loads P)) <> 0.
Proof.
  intros n. destruct (rest_start rough_ring (PI / 4) (1/9)) as (G & L & EG & HL). exists (rest_params rough_ring (PI / 4)), G, L.
  split; [exact ex_proper|]. split; [exact EG|]. split; [repeat split|]. split; [exact HL|]. split; [|repeat (split; [reflexivity|])].
  - apply rest_quiet; try reflexivity; [|repeat split|right; left; reflexivity]. intros j _. apply (p_C96_loads (rest_params rough_ring (PI / 4))). reflexivity.
  - cbn. unR. pose proof PI_RGT_0. assert (0 < sin (PI / 4)) by (apply sin_gt_0; lra). lra.
Qed.
(** The ramp of dam_break.py starts from no gravity: the layer is thrown upwards. *)
Example x_C96_thrown : exists (P : params R) (G : grid R) L, proper (pG P) /\ grid_init (pG P) (pB P) = Ok G /\ shut P /\
  settled P 3 2 (fill_solid (1/9)) v0 L /\ quiet_run (ramp_forces 1) 0 P (fill_solid (1/9)) /\
  has_bottom (pB P) = true /\ has_left (pB P) = true /\ has_right (pB P) = true /\ ld_theta (p_loads P) = 0 /\ ld_theta (ramp_forces 1 P) = 0 /\ 0 <= p_Mtol P /\
  ld_g (ramp_forces 1 P) - p_max_g P = 1.
Proof.
  destruct (rest_start ex_box 0 (1/9)) as (G & L & EG & HL). exists (rest_params ex_box 0), G, L. split; [exact ex_proper|]. split; [exact EG|]. split; [repeat split|]. split; [exact HL|].
  split; [|repeat (split; [reflexivity|])].
  - apply rest_quiet; try reflexivity; [intros j Hj; lia|repeat split|left; reflexivity].
  - split; [cbn; unfold lit; unR; lra|]. cbn. unfold ramp. unR. replace (-3 * (0 * 0) / (1 * 1)) with 0 by field. rewrite exp_0. lra.
Qed.
