(** * Domains filled by the input scripts start with the declared density: C94 *)
From Coq Require Import ZArith Reals List Bool Arith Lra Lia.
From Verif Require Import State NumR Spec SpecLaws SpecStep SpecScheme SpecRing LibList LibR ModelGrid ModelInputs ModelConstit ModelParticle ModelMPList
  ModelIntegr ModelMain ProofsGrid ProofsMap ProofsP2G ProofsWalls ProofsLaws ProofsInOut ProofsHist Concrete
  ThmMapping ThmWalls ThmLaws ThmInOut ThmHist ProofsStep ProofsPoints ThmStep ThmBalance ThmEnergy ThmFall ThmGeo ProofsScheme ThmScheme
  ThmDensity ProofsRing ThmRing ProofsFill.
Import ListNotations.
Local Open Scope R_scope.

(** ** Nodal masses after a step *)
Lemma march_mass uf fill (s s' : state R) : proper (pG (sP s)) -> grid_ok (pG (sP s)) (sG s) ->
  all_live (sL s) (fun _ p => in_dom (pG (sP s)) (px p)) -> p_seg (sP s) = false -> time_march uf fill s = Ok s' ->
  let M k := psum (sL s) (fun _ p => pm p * hat (pG (sP s)) (px p) k) in
  gV (sG s') = gV (sG s) /\ forall k, (k < nodes (pG (sP s)))%nat ->
  nth k (gm (sG s')) 0 = if cyclic_lr (pB (sP s)) then tie (pG (sP s)) M k else M k.
Proof.
  intros HP HG HD Hs E M. destruct (cyclic_lr (pB (sP s))) eqn:Hc.
  - destruct (march_ring uf fill s s' HP HG HD Hs Hc E) as
    (S1 & L1 & L3 & L4 & L5 & G1 & Gc & G3 & G4 & Gf & G5 & G6 & HS1 & E1 & R1 & R3 & E2 & F1 & EC & FC & Lm1 & Lq1 & Lmc & Lqc &
     E3 & R4 & F3 & Lo & E4 & LF & EF & FF & LF4 & E5 & Z4 & Z5 & E6 & EP & EG & PM & EI).
    set (P := sP s <| p_loads := uf (sP s) |>) in *. set (Pg := pG (sP s)) in *.
    destruct (force_loop_spec P L4 G3 G4 LF E4) as (F4 & _). pose proof (BCs_frame _ _ _ _ E5) as F5. destruct (um_shape P G5 G6 E6) as [F6 _].
    assert (M1 := p2g_all_mass P L3 (wipe (sP s) (sG s)) G1 (wipe_lens (sP s) (sG s)) E2). destruct M1 as (_ & _ & M1).
    destruct (wipe_frame (sP s) (sG s)) as (WV & _).
    unfold frame_all in F1. unfold vis_frame in F3. unfold frame_f in F4. unfold force_frame in F5.
    assert (EM6 : gm (sG s') = gm Gc). { rewrite EG. cbn. rewrite F6. cbn. rewrite F5. cbn. rewrite FF. cbn. rewrite F4. cbn. rewrite F3. reflexivity. }
    assert (EV6 : gV (sG s') = gV (sG s)).
    { rewrite EG. cbn. rewrite F6. cbn. rewrite F5. cbn. rewrite FF. cbn. rewrite F4. cbn. rewrite F3. cbn. rewrite FC. cbn. rewrite F1. cbn. exact WV. }
    split; [exact EV6|]. intros k Hk. rewrite EM6.
    pose proof EC as EC'. unfold cyc_mq in EC'. pbinds EC'.
    match goal with H : cyc nadd _ _ = Ok ?x |- _ => rename H into ECM; rename x into m1 end.
    assert (Em1 : gm Gc = m1) by (injection EC' as <-; auto). subst m1. change (nx (pG P)) with (nx Pg) in ECM.
    destruct (cyc_tie Pg HP nadd 0 (fun x => x) (gm G1) (gm Gc) nadd_R Lm1 ECM) as [_ X]. rewrite X by exact Hk.
    apply tie_ext; [exact HP|exact Hk|]. intros j Hj. rewrite M1, wipe_m, Rplus_0_l. unfold mass_at, M.
    rewrite (psum_ext L3 _ (fun _ p => pm p * hat Pg (px p) j)).
    2:{ intros ph p A C. rewrite (wt_hat P p j HP); [reflexivity|].
        assert (D3 : all_live L3 (fun ph p => located Pg p)).
        { eapply (Lrel_all_live _ L1 L3); [exact R3| |intros ? ? ? ?; exact I]. cbv beta. intros ? ? ? ? _ _ _ _ _ [D ->] _. apply locate_located. exact D. }
        apply (D3 ph p A C). }
    symmetry. eapply Lrel_psum; [eapply Lrel_trans; [exact R1|exact R3|]|].
    + cbv beta. intros ph ph' p p1 p2 _ _ _ _ [b ->] [_ ->]. instantiate (1 := fun _ p p' => pm p' = pm p /\ px p' = px p). split; reflexivity.
    + cbv beta. intros ph p ph' p' _ _ _ _ _ [A C]. rewrite A, C. reflexivity.
  - destruct (march_stages uf fill s s' HP HG HD Hs Hc E) as
    (S1 & L1 & L3 & L4 & L5 & G1 & G3 & G4 & G5 & G6 & HS1 & E1 & R1 & R3 & E2 & F1 & E3 & R4 & F3 & Lo & E4 & LF & E5 & Z4 & Z5 & E6 & EP & EG & PM & EI).
    set (P := sP s <| p_loads := uf (sP s) |>) in *. set (Pg := pG (sP s)) in *.
    destruct (force_loop_spec P L4 G3 G4 LF E4) as (F4 & _). pose proof (BCs_frame _ _ _ _ E5) as F5. destruct (um_shape P G5 G6 E6) as [F6 _].
    assert (M1 := p2g_all_mass P L3 (wipe (sP s) (sG s)) G1 (wipe_lens (sP s) (sG s)) E2). destruct M1 as (_ & _ & M1).
    destruct (wipe_frame (sP s) (sG s)) as (WV & _).
    unfold frame_all in F1. unfold vis_frame in F3. unfold frame_f in F4. unfold force_frame in F5.
    assert (EM6 : gm (sG s') = gm G1). { rewrite EG. cbn. rewrite F6. cbn. rewrite F5. cbn. rewrite F4. cbn. rewrite F3. reflexivity. }
    assert (EV6 : gV (sG s') = gV (sG s)).
    { rewrite EG. cbn. rewrite F6. cbn. rewrite F5. cbn. rewrite F4. cbn. rewrite F3. cbn. rewrite F1. cbn. exact WV. }
    split; [exact EV6|]. intros j Hk. rewrite EM6.
    rewrite M1, wipe_m, Rplus_0_l. unfold mass_at, M.
    rewrite (psum_ext L3 _ (fun _ p => pm p * hat Pg (px p) j)).
    2:{ intros ph p A C. rewrite (wt_hat P p j HP); [reflexivity|].
        assert (D3 : all_live L3 (fun ph p => located Pg p)).
        { eapply (Lrel_all_live _ L1 L3); [exact R3| |intros ? ? ? ?; exact I]. cbv beta. intros ? ? ? ? _ _ _ _ _ [D ->] _. apply locate_located. exact D. }
        apply (D3 ph p A C). }
    symmetry. eapply Lrel_psum; [eapply Lrel_trans; [exact R1|exact R3|]|].
    + cbv beta. intros ph ph' p p1 p2 _ _ _ _ [b ->] [_ ->]. instantiate (1 := fun _ p p' => pm p' = pm p /\ px p' = px p). split; reflexivity.
    + cbv beta. intros ph p ph' p' _ _ _ _ _ [A C]. rewrite A, C. reflexivity.
Qed.

(** ** The points a script places *)
Lemma init_layer P So sv l (L : list (phase R)) : mplist_init P [(So, sv, places l)] = Ok L ->
  exists ps, L = [mkPhase So (length l) sv ps] /\ Forall2 (fun xy p => particle_init P So So (fst xy) (snd xy) (s_phi So) = Ok p) l ps.
Proof.
  intros E. unfold mplist_init in E. cbn [bind mapM] in E. pbinds E. pbinds E0. injection E as <-. injection E0 as <-.
  match goal with H : mapM _ (places l) = Ok ?x |- _ => exists x; rename H into EM; generalize dependent x end. intros ps EM.
  unfold places in *. rewrite map_length. split; [reflexivity|].
  apply mapM_Forall2 in EM. clear - EM. revert ps EM. induction l as [|[x y] l IH]; intros ps EM; cbn [map] in EM; inversion EM; subst; constructor; [assumption|]. apply IH. assumption.
Qed.
Lemma init_body P S0 So x y f (p : particle R) : particle_init P S0 So x y f = Ok p ->
  px p = mkV3 x y 0 /\ pV p = s_A So * thickness (pG P) /\ pm p = s_rho So * (s_A So * thickness (pG P)).
Proof. intros E. unfold particle_init in E. pbinds E. injection E as <-. repeat split. Qed.
(** Sums and statements over the points of a new phase. *)
Lemma new_sum P So l (ps : list (particle R)) (c : phase R -> particle R -> R) f n sv :
  Forall2 (fun xy p => particle_init P So So (fst xy) (snd xy) (s_phi So) = Ok p) l ps -> n = length l ->
  (forall xy p, In xy l -> particle_init P So So (fst xy) (snd xy) (s_phi So) = Ok p -> c (mkPhase So n sv ps) p = f xy) ->
  psum [mkPhase So n sv ps] c = Rsum (map f l).
Proof.
  intros F En H. unfold psum, live. cbn [map ph_n ph_pts Rsum fold_right]. rewrite Rplus_0_r.
  replace (firstn n ps) with ps by (rewrite En, (Forall2_len _ _ _ F), firstn_all; reflexivity).
  revert H. generalize (mkPhase So n sv ps). intros ph H. clear En. induction F as [|xy p l ps A F IH]; [reflexivity|].
  cbn [map Rsum fold_right]. rewrite (H xy p); [|left; reflexivity|exact A]. f_equal. apply IH. intros. apply H; [right|]; assumption.
Qed.
Lemma new_live P So l (ps : list (particle R)) (Q : phase R -> particle R -> Prop) n sv :
  Forall2 (fun xy p => particle_init P So So (fst xy) (snd xy) (s_phi So) = Ok p) l ps ->
  (forall xy p, In xy l -> particle_init P So So (fst xy) (snd xy) (s_phi So) = Ok p -> Q (mkPhase So n sv ps) p) ->
  all_live [mkPhase So n sv ps] Q.
Proof.
  intros F H ph p [<-|[]] A. unfold live in A. cbn [ph_pts ph_n] in A.
  assert (A' : In p ps) by (rewrite <- (firstn_skipn n ps); apply in_or_app; left; exact A). clear A. rename A' into A.
  revert H. generalize (mkPhase So n sv ps). intros ph H. induction F as [|xy q l ps B F IH]; [destruct A|].
  destruct A as [<-|A]; [apply (H xy); [left; reflexivity|exact B]|apply IH; [exact A|]]. intros. eapply H; [right|]; eassumption.
Qed.

(** ** Masses of a layer *)
(** The share of a node of column [i] in the cells of its row, and of row [j] in those of its column, for a layer of [rows] rows. *)
Lemma beside_edge n i : (2 <= n)%nat -> (i < n)%nat -> beside (n - 1) i (1/2) (1/2) = edge_weight n i.
Proof.
  intros Hn Hi. unfold beside, edge_weight. destruct (Nat.ltb_spec i (n - 1)), (Nat.ltb_spec 0 i), (Nat.leb_spec i (n - 1)), (Nat.eqb_spec i 0), (Nat.eqb_spec i (n - 1));
    cbn [andb orb]; try lia; lra.
Qed.
Lemma beside_scal m i a b x : beside m i (x * a) (x * b) = x * beside m i a b.
Proof. unfold beside. destruct (Nat.ltb _ _), (_ && _)%bool; lra. Qed.

(** A layer of [rows] rows of cells at the bottom, as the scripts place it. *)
Lemma fill_mass uf fill (P : params R) (G : grid R) c rows So sv L (s' : state R) : proper (pG P) -> grid_init (pG P) (pB P) = Ok G -> p_seg P = false ->
  (1 <= c)%nat -> (1 <= rows <= ny (pG P) - 1)%nat ->
  mplist_init P [(So, sv, places (layer (pG P) c rows (head (pG P) rows)))] = Ok L -> time_march uf fill (mkState P G L) = Ok s' ->
  gV (sG s') = gV G /\ forall k, (k < nodes (pG P))%nat ->
  nth k (gm (sG s')) 0 = s_rho So * (s_A So * thickness (pG P)) * (INR c * INR c) *
    ((if cyclic_lr (pB P) then 1 else edge_weight (nx (pG P)) (col (pG P) k)) * beside rows (row (pG P) k) (1/2) (1/2)).
Proof.
  intros HP EG Hs Hc Hr EL E. destruct (init_layer _ _ _ _ _ EL) as (ps & -> & F).
  destruct (grid_init_ok (pG P) (pB P) HP) as (G0 & E0 & OK). assert (G0 = G) by congruence. subst G0.
  assert (HD : all_live [mkPhase So (length (layer (pG P) c rows (head (pG P) rows))) sv ps] (fun _ p => in_dom (pG P) (px p))).
  { apply (new_live P So _ _ _ _ _ F). intros xy p A B. destruct (init_body _ _ _ _ _ _ _ B) as (-> & _).
    destruct (layer_inside (pG P) HP c rows Hc Hr xy A) as [X Y]. unfold in_dom. cbn [vx vy].
    assert (0 <= head (pG P) rows). { unfold head. apply Rmult_le_pos; [apply pos_INR|]. destruct (ch (pG P) HP). lra. } lra. }
  destruct (march_mass uf fill (mkState P G _) s' HP OK HD Hs E) as [EV EM]. cbn [sP sG sL] in *. split; [exact EV|]. intros k Hk. rewrite (EM k Hk). clear EM.
  set (Pg := pG P) in *. set (rA := s_rho So * (s_A So * thickness Pg)).
  assert (M : forall k, psum [mkPhase So (length (layer Pg c rows (head Pg rows))) sv ps] (fun _ p => pm p * hat Pg (px p) k) =
    rA * ((INR c * beside (nx Pg - 1) (k mod nx Pg) (1/2) (1/2)) * (INR c * beside rows (k / nx Pg) (1/2) (1/2)))).
  { intros k0. rewrite (new_sum P So _ _ _ (fun xy => rA * (tent ((fst xy - node_x Pg k0) / cell_w Pg) * tent ((snd xy - node_y Pg k0) / cell_h Pg))) _ _ F eq_refl).
    2:{ intros xy p _ B. destruct (init_body _ _ _ _ _ _ _ B) as (-> & _ & ->). unfold hat. cbn [vx vy]. unfold rA. reflexivity. }
    rewrite Rsum_scal. f_equal.
    rewrite (layer_sum Pg HP c rows Hc Hr (fun x => tent ((x - node_x Pg k0) / cell_w Pg)) (fun y => tent ((y - node_y Pg k0) / cell_h Pg))).
    unfold node_x, node_y, col, row. destruct (cw Pg HP) as [W _], (ch Pg HP) as [W' _].
    rewrite (tents (x_m Pg) (cell_w Pg) c W Hc), (tents (y_m Pg) (cell_h Pg) c W' Hc). rewrite <- !beside_scal.
    replace (INR c * (1/2)) with (INR c / 2) by lra. reflexivity. }
  pose proof HP as (Nx & Ny & _). pose proof (Nat.mod_upper_bound k (nx Pg) ltac:(lia)) as U. unfold col, row.
  destruct (cyclic_lr (pB P)).
  - rewrite (tie_ext Pg HP _ _ k Hk (fun j _ => M j)). rewrite (tie_ring Pg HP).
    rewrite (tie_prod Pg HP (fun i => rA * (INR c * beside (nx Pg - 1) i (1/2) (1/2))) (fun j => INR c * beside rows j (1/2) (1/2)));
      [|intros; ring|apply rc_lt; exact HP].
    assert (X : forall i, (i < nx Pg - 1)%nat -> beside (nx Pg - 1) i (1/2) (1/2) + (if Nat.eqb i 0 then beside (nx Pg - 1) (nx Pg - 1) (1/2) (1/2) else 0) = 1).
    { intros i Hi. rewrite !beside_edge by lia. unfold edge_weight. rewrite Nat.eqb_refl, orb_true_r.
      destruct (Nat.eqb_spec i 0), (Nat.eqb_spec i (nx Pg - 1)); cbn [orb]; try lia; lra. }
    specialize (X _ (rc_lt Pg HP k)).
    transitivity (rA * (INR c * (beside (nx Pg - 1) (rc Pg k) (1/2) (1/2) + (if Nat.eqb (rc Pg k) 0 then beside (nx Pg - 1) (nx Pg - 1) (1/2) (1/2) else 0))) * (INR c * beside rows (k / nx Pg) (1/2) (1/2))).
    + destruct (Nat.eqb _ _); ring.
    + rewrite X. ring.
  - rewrite M, beside_edge by lia. ring.
Qed.
Lemma fill_volume (P : params R) (G : grid R) c rows k (m A rho : R) : proper (pG P) -> grid_init (pG P) (pB P) = Ok G -> (1 <= c)%nat -> (k < nodes (pG P))%nat ->
  m = rho * (A * thickness (pG P)) * (INR c * INR c) *
    ((if cyclic_lr (pB P) then 1 else edge_weight (nx (pG P)) (col (pG P) k)) * beside rows (row (pG P) k) (1/2) (1/2)) ->
  m = rho * (A * (INR c * INR c) / (cell_w (pG P) * cell_h (pG P))) * (beside rows (row (pG P) k) (1/2) (1/2) / edge_weight (ny (pG P)) (row (pG P) k)) * nth k (gV G) 0.
Proof.
  intros HP EG Hc Hk ->. rewrite (p_C15_nodal_volume (pG P) (pB P) G HP EG k Hk). destruct (cw (pG P) HP) as [W _], (ch (pG P) HP) as [W' _].
  assert (edge_weight (ny (pG P)) (row (pG P) k) <> 0) by (unfold edge_weight; destruct (_ || _)%bool; lra). field. lra.
Qed.
Lemma full_head (P : gridp R) : head P (ny P - 1) = 0.
Proof. unfold head. rewrite Nat.sub_diag. apply Rmult_0_l. Qed.
Lemma cells_share (P : gridp R) c : proper P -> (1 <= c)%nat -> cell_share P c * (INR c * INR c) = cell_w P * cell_h P.
Proof.
  intros HP Hc. unfold cell_share. rewrite (in_dx_w P HP), (in_dy_h P HP). unR. rewrite mult_IZR, <- INR_IZR_INZ. pose proof (c_pos c Hc). field. lra.
Qed.
Lemma whole_share (P : gridp R) c rows : proper P -> (1 <= c)%nat -> (1 <= rows)%nat ->
  share P (rows * c * ((nx P - 1) * c)) * (INR c * INR c) = cell_w P * cell_h P * (INR (ny P - 1) / INR rows).
Proof.
  intros HP Hc Hr. unfold share. unR. rewrite <- INR_IZR_INZ, !mult_INR. pose proof (c_pos c Hc). destruct (cw P HP) as [W E], (ch P HP) as [W' E'].
  rewrite E, E'. pose proof HP as (Nx & Ny & _). pose proof (lt_0_INR rows ltac:(lia)). pose proof (lt_0_INR (nx P - 1) ltac:(lia)). field. lra.
Qed.
Lemma beside_full (P : gridp R) k : proper P -> (k < nodes P)%nat -> beside (ny P - 1) (row P k) (1/2) (1/2) / edge_weight (ny P) (row P k) = 1.
Proof.
  intros HP Hk. pose proof (row_lt P HP k Hk) as Hr. pose proof HP as (Nx & Ny & _). rewrite beside_edge by (unfold row; lia).
  assert (edge_weight (ny P) (row P k) <> 0) by (unfold edge_weight; destruct (_ || _)%bool; lra). field. lra.
Qed.

(** ** C94 *)
(** [c] points per cell and direction in every cell, each with the whole area
    divided by the number of points or with the area of a cell divided by [c^2]:
    every node gets exactly the declared density times its volume, on a domain
    with open ends or joined ones.  The points lie inside the domain. *)
Lemma p_C94_uniform : forall uf fill (P : params R) (G : grid R) c So sv L (s' : state R),
  proper (pG P) -> grid_init (pG P) (pB P) = Ok G -> p_seg P = false -> (1 <= c)%nat ->
  let places_of := layer (pG P) c (ny (pG P) - 1) 0 in
  s_A So = share (pG P) (length places_of) \/ s_A So = cell_share (pG P) c ->
  mplist_init P [(So, sv, places places_of)] = Ok L -> time_march uf fill (mkState P G L) = Ok s' ->
  length places_of = ((ny (pG P) - 1) * c * ((nx (pG P) - 1) * c))%nat /\
  all_live L (fun _ p => inside (pG P) (px p)) /\
  forall k, (k < nodes (pG P))%nat -> nth k (gm (sG s')) 0 = s_rho So * nth k (gV (sG s')) 0.
Proof.
  intros uf fill P G c So sv L s' HP EG Hs Hc places_of HA EL E. subst places_of. assert (EQ0 : layer (pG P) c (ny (pG P) - 1) 0 = layer (pG P) c (ny (pG P) - 1) (head (pG P) (ny (pG P) - 1))) by (rewrite full_head; reflexivity). rewrite EQ0 in *. clear EQ0. pose proof HP as (Nx & Ny & _).
  assert (Hr : (1 <= ny (pG P) - 1 <= ny (pG P) - 1)%nat) by lia. rewrite layer_length in *. split; [reflexivity|]. split.
  - destruct (init_layer _ _ _ _ _ EL) as (ps & -> & F). apply (new_live P So _ _ _ _ _ F). intros xy p A B. destruct (init_body _ _ _ _ _ _ _ B) as (-> & _).
    destruct (layer_inside (pG P) HP c _ Hc Hr xy A) as [X Y]. rewrite full_head in Y. unfold inside. cbn [vx vy]. lra.
  - destruct (fill_mass uf fill P G c _ So sv L s' HP EG Hs Hc Hr EL E) as [-> M]. intros k Hk.
    rewrite (fill_volume P G c _ k _ _ _ HP EG Hc Hk (M k Hk)), beside_full by assumption. f_equal. rewrite Rmult_1_r.
    destruct (cw (pG P) HP) as [W _], (ch (pG P) HP) as [W' _].
    assert (Y : s_A So * (INR c * INR c) = cell_w (pG P) * cell_h (pG P)).
    { destruct HA as [-> | ->]; [rewrite whole_share by (assumption || lia)|apply cells_share; assumption]. pose proof (lt_0_INR (ny (pG P) - 1) ltac:(lia)). field. lra. }
    rewrite Y. field. lra.
Qed.
(** A layer of [rows] rows of cells below empty ones (bi_conveyor, francois):
    the declared density below its surface, half of it at the nodes of the
    surface, whose cells are half empty, and no mass above. *)
Lemma p_C94_layer : forall uf fill (P : params R) (G : grid R) c rows So sv L (s' : state R),
  proper (pG P) -> grid_init (pG P) (pB P) = Ok G -> p_seg P = false -> (1 <= c)%nat -> (1 <= rows < ny (pG P) - 1)%nat ->
  s_A So = cell_share (pG P) c ->
  mplist_init P [(So, sv, places (layer (pG P) c rows (INR (ny (pG P) - 1 - rows) * cell_h (pG P))))] = Ok L -> time_march uf fill (mkState P G L) = Ok s' ->
  forall k, (k < nodes (pG P))%nat -> nth k (gm (sG s')) 0 =
    (if Nat.ltb (row (pG P) k) rows then s_rho So * nth k (gV (sG s')) 0
     else if Nat.eqb (row (pG P) k) rows then s_rho So * nth k (gV (sG s')) 0 / 2 else 0).
Proof.
  intros uf fill P G c rows So sv L s' HP EG Hs Hc Hr HA EL E k Hk. fold (head (pG P) rows) in EL. pose proof HP as (Nx & Ny & _).
  destruct (fill_mass uf fill P G c rows So sv L s' HP EG Hs Hc ltac:(lia) EL E) as [-> M].
  rewrite (fill_volume P G c _ k _ _ _ HP EG Hc Hk (M k Hk)). destruct (cw (pG P) HP) as [W _], (ch (pG P) HP) as [W' _].
  rewrite HA, cells_share by assumption. unfold beside, edge_weight.
  destruct (Nat.ltb_spec (row (pG P) k) rows), (Nat.eqb_spec (row (pG P) k) rows), (Nat.ltb_spec 0 (row (pG P) k)), (Nat.leb_spec (row (pG P) k) rows),
    (Nat.eqb_spec (row (pG P) k) 0), (Nat.eqb_spec (row (pG P) k) (ny (pG P) - 1)); cbn [andb orb]; try lia; field; lra.
Qed.
(** The density the points get in that step is the declared one too (closed
    ends, and no node below the mass tolerance). *)
Lemma p_C94_points : forall uf fill (P : params R) (G : grid R) c So sv L (s' : state R),
  proper (pG P) -> grid_init (pG P) (pB P) = Ok G -> shut P -> (1 <= c)%nat -> 0 < thickness (pG P) -> s_law So <> Rigid ->
  (forall k, (k < nodes (pG P))%nat -> p_Mtol P < s_rho So * nth k (gV G) 0) ->
  let places_of := layer (pG P) c (ny (pG P) - 1) 0 in
  s_A So = share (pG P) (length places_of) \/ s_A So = cell_share (pG P) c ->
  mplist_init P [(So, sv, places places_of)] = Ok L -> time_march uf fill (mkState P G L) = Ok s' ->
  all_live (sL s') (fun _ p => prho p = s_rho So).
Proof.
  intros uf fill P G c So sv L s' HP EG HS Hc Ht Hl HM places_of HA EL E.
  pose proof HS as (Hs & Hc0 & _).
  destruct (p_C94_uniform uf fill P G c So sv L s' HP EG Hs Hc HA EL E) as (_ & HI & HK).
  destruct (grid_init_ok (pG P) (pB P) HP) as (G0 & E0 & OK). assert (G0 = G) by congruence. subst G0.
  assert (HD : all_live L (fun _ p => in_dom (pG P) (px p))). { intros ph p A B. specialize (HI ph p A B). unfold inside, in_dom in *. lra. }
  assert (HR : forall ph, In ph L -> s_law (ph_sol ph) <> Rigid).
  { destruct (init_layer _ _ _ _ _ EL) as (ps & -> & F). intros ph [<-|[]]. exact Hl. }
  destruct (march_mass uf fill (mkState P G L) s' HP OK HD Hs E) as [EV _]. cbn [sG] in EV.
  pose proof (p_C64_density uf fill (mkState P G L) s' HP OK HD HS HR E) as D. cbn [sP sG sL] in D.
  eapply (Prel_all_live _ _ _ (fun _ p => in_dom (pG P) (px p))); [exact D| |exact HD]. cbv beta. intros ph ph' p p' A B _ -> HDp.
  destruct (hat_sums (pG P) (px p) HP HDp) as (U & _). change (fsum (nodes (pG P)) (hat (pG P) (px p)) = 1) in U.
  rewrite (fsum_ext _ _ (fun k => hat (pG P) (px p) k * s_rho So)); [rewrite fsum_scal_r; change (fun i => hat (pG P) (px p) i) with (hat (pG P) (px p)); rewrite U; lra|].
  intros k Hk. rewrite (HK k Hk), EV. destruct (Rlt_dec _ _) as [X|X]; [|exfalso; apply X, HM, Hk].
  destruct (p_C15_volumes_positive (pG P) (pB P) G HP EG Ht) as [_ V]. specialize (V k Hk). f_equal. field. lra.
Qed.

(** ** C95 *)
(** inputs/incline.py fills all rows of cells but the topmost and shares the
    area of the whole domain between the points: the material starts too dense,
    by the ratio of all rows to the filled ones. *)
Lemma p_C95_incline : forall uf fill (P : params R) (G : grid R) c So sv L (s' : state R),
  proper (pG P) -> grid_init (pG P) (pB P) = Ok G -> p_seg P = false -> (1 <= c)%nat -> (3 <= ny (pG P))%nat ->
  let places_of := layer (pG P) c (ny (pG P) - 2) (in_dy (pG P)) in
  s_A So = share (pG P) (length places_of) ->
  mplist_init P [(So, sv, places places_of)] = Ok L -> time_march uf fill (mkState P G L) = Ok s' ->
  forall k, (k < nodes (pG P))%nat -> (row (pG P) k < ny (pG P) - 2)%nat ->
  nth k (gm (sG s')) 0 = s_rho So * ((INR (ny (pG P)) - 1) / (INR (ny (pG P)) - 2)) * nth k (gV (sG s')) 0.
Proof.
  intros uf fill P G c So sv L s' HP EG Hs Hc Hn places_of HA EL E k Hk Hrow. subst places_of. pose proof HP as (Nx & Ny & _).
  assert (EH : in_dy (pG P) = head (pG P) (ny (pG P) - 2)).
  { rewrite (in_dy_h (pG P) HP). unfold head. replace (ny (pG P) - 1 - (ny (pG P) - 2))%nat with 1%nat by lia. simpl INR. lra. }
  rewrite EH, ?layer_length in *. destruct (fill_mass uf fill P G c (ny (pG P) - 2) So sv L s' HP EG Hs Hc ltac:(lia) EL E) as [-> M].
  rewrite (fill_volume P G c _ k _ _ _ HP EG Hc Hk (M k Hk)). destruct (cw (pG P) HP) as [W _], (ch (pG P) HP) as [W' _].
  rewrite HA, whole_share by (assumption || lia). rewrite !minus_INR by lia. simpl INR.
  pose proof (lt_INR 2 (ny (pG P)) ltac:(lia)) as Z. simpl INR in Z.
  assert (B : beside (ny (pG P) - 2) (row (pG P) k) (1/2) (1/2) / edge_weight (ny (pG P)) (row (pG P) k) = 1).
  { unfold beside, edge_weight. destruct (Nat.ltb_spec (row (pG P) k) (ny (pG P) - 2)), (Nat.ltb_spec 0 (row (pG P) k)), (Nat.leb_spec (row (pG P) k) (ny (pG P) - 2)),
    (Nat.eqb_spec (row (pG P) k) 0), (Nat.eqb_spec (row (pG P) k) (ny (pG P) - 1)); cbn [andb orb]; try lia; field; lra. }
  rewrite B. field. lra.
Qed.
(** inputs/chuteflow.py fills the whole domain and shares half of its area: the
    material starts with half the declared density. *)
Lemma p_C95_chuteflow : forall uf fill (P : params R) (G : grid R) c So sv L (s' : state R),
  proper (pG P) -> grid_init (pG P) (pB P) = Ok G -> p_seg P = false -> (1 <= c)%nat ->
  let places_of := layer (pG P) c (ny (pG P) - 1) 0 in
  s_A So = half_share (pG P) (length places_of) ->
  mplist_init P [(So, sv, places places_of)] = Ok L -> time_march uf fill (mkState P G L) = Ok s' ->
  forall k, (k < nodes (pG P))%nat -> nth k (gm (sG s')) 0 = s_rho So / 2 * nth k (gV (sG s')) 0.
Proof.
  intros uf fill P G c So sv L s' HP EG Hs Hc places_of HA EL E k Hk. subst places_of. assert (EQ0 : layer (pG P) c (ny (pG P) - 1) 0 = layer (pG P) c (ny (pG P) - 1) (head (pG P) (ny (pG P) - 1))) by (rewrite full_head; reflexivity). rewrite EQ0 in *. clear EQ0. pose proof HP as (Nx & Ny & _).
  rewrite layer_length in *. destruct (fill_mass uf fill P G c (ny (pG P) - 1) So sv L s' HP EG Hs Hc ltac:(lia) EL E) as [-> M].
  rewrite (fill_volume P G c _ k _ _ _ HP EG Hc Hk (M k Hk)), beside_full by assumption. f_equal. rewrite Rmult_1_r.
  destruct (cw (pG P) HP) as [W _], (ch (pG P) HP) as [W' _].
  assert (Y : s_A So * (INR c * INR c) = cell_w (pG P) * cell_h (pG P) / 2).
  { replace (s_A So) with (share (pG P) ((ny (pG P) - 1) * c * ((nx (pG P) - 1) * c)) / 2).
    - replace (share (pG P) ((ny (pG P) - 1) * c * ((nx (pG P) - 1) * c)) / 2 * (INR c * INR c))
        with (share (pG P) ((ny (pG P) - 1) * c * ((nx (pG P) - 1) * c)) * (INR c * INR c) / 2) by lra.
      rewrite whole_share by (assumption || lia). pose proof (lt_0_INR (ny (pG P) - 1) ltac:(lia)). field. lra.
    - rewrite HA. unfold half_share, share, n2. unR. unfold Rdiv. ring. }
  rewrite Y. field. lra.
Qed.

(** ** The runs exist *)
Lemma mapM_total {A B} (f : A -> res B) l : (forall a, In a l -> exists b, f a = Ok b) -> exists bs, mapM f l = Ok bs.
Proof.
  induction l as [|a l IH]; intros H; [exists []; reflexivity|]. destruct (H a (or_introl eq_refl)) as [b E]. destruct IH as [bs E']; [intros; apply H; right; assumption|].
  exists (b :: bs). cbn [mapM]. rewrite E. cbn [bind]. rewrite E'. reflexivity.
Qed.
Definition fill_solid (A : R) : solid R := mkSolid 2 A Elastic [1/2; 1/2]
  (Some 3) (Some 2) (Some 1) (Some 2) (Some 0) (Some (1/2)) (Some 1) (Some 1) None None None
  (Some 1) (Some 1) (Some 1) (Some 1) (Some 2) (Some 1) (Some 1) (Some 1) (Some 1) (Some 0) (Some 0) (Some 1)
  (Some 1) (Some 1) [1] None false None.
Lemma fill_runs A l : (forall xy, In xy l -> 0 <= fst xy < 3 /\ 0 <= snd xy < 2) ->
  exists G L s', grid_init ex_gridp ex_box = Ok G /\ mplist_init (ex_params ex_box) [(fill_solid A, v0, places l)] = Ok L /\
    time_march (fun _ => mkLoads (-1) 0 0 0) (fun _ l => l) (mkState (ex_params ex_box) G L) = Ok s'.
Proof.
  intros Hl. destruct (grid_init_ok ex_gridp ex_box ex_proper) as (G & EG & OK). exists G.
  destruct (mapM_total (fun xy : R * R * option (list R) => let '(x, y, phi) := xy in
            particle_init (ex_params ex_box) (fill_solid A) (fill_solid A) x y (match phi with Some f => f | None => s_phi (fill_solid A) end)) (places l)) as [ps EP].
  { intros [[x y] f] _. unfold particle_init, init_state, init_flow. cbn. eexists. reflexivity. }
  assert (EL : mplist_init (ex_params ex_box) [(fill_solid A, v0, places l)] = Ok [mkPhase (fill_solid A) (length (places l)) v0 ps]).
  { unfold mplist_init. cbn [bind mapM]. rewrite EP. reflexivity. }
  exists [mkPhase (fill_solid A) (length (places l)) v0 ps].
  destruct (init_layer _ _ _ _ _ EL) as (ps' & EQ & F). injection EQ as EN <-.
  destruct (p_C58_step_total (fun _ => mkLoads (-1) 0 0 0) (fun _ l => l) (mkState (ex_params ex_box) G [mkPhase (fill_solid A) (length (places l)) v0 ps])) as [s' E].
  { constructor; cbn [sP sG sL].
    - exact ex_proper.
    - exact OK.
    - intros ph [<-|[]]. cbn [ph_n ph_pts]. rewrite EN. apply (Forall2_len _ _ _ F).
    - apply (new_live _ _ _ _ _ _ _ F). intros xy p A1 B1. destruct (init_body _ _ _ _ _ _ _ B1) as (-> & _). split; [|discriminate].
      specialize (Hl xy A1). unfold in_dom. cbn [vx vy]. cbn -[Rlt Rle]. unfold n2. unR. lra.
    - exists (fill_solid A). split; [reflexivity|]. intros ph [<-|[]]. split; exact I || discriminate.
    - intros ph [<-|[]]. discriminate.
    - discriminate.
    - left. reflexivity.
    - reflexivity.
    - split; reflexivity.
    - discriminate. }
  exists s'. repeat split; assumption.
Qed.
Lemma fill_full c : (1 <= c)%nat -> exists G L s', let P := ex_params ex_box in let l := layer ex_gridp c (ny ex_gridp - 1) 0 in
  grid_init (pG P) (pB P) = Ok G /\ mplist_init P [(fill_solid (share ex_gridp (length l)), v0, places l)] = Ok L /\
  time_march (fun _ => mkLoads (-1) 0 0 0) (fun _ l => l) (mkState P G L) = Ok s'.
Proof.
  intros Hc. cbv zeta. apply fill_runs. intros xy A. replace 0 with (head ex_gridp (ny ex_gridp - 1)) in A by apply full_head.
  destruct (layer_inside ex_gridp ex_proper c (ny ex_gridp - 1) Hc ltac:(cbn; lia) xy A) as [X Y]. rewrite full_head in Y. cbn in X, Y. unfold n2 in *. revert X Y. unR. lra.
Qed.
(** Twelve rows of cells are not needed: two rows of three cells with nine points each. *)
Example x_C94_uniform : exists (G : grid R) L (s' : state R), let P := ex_params ex_box in let l := layer ex_gridp 3 (ny ex_gridp - 1) 0 in
  let So := fill_solid (share ex_gridp (length l)) in
  proper (pG P) /\ grid_init (pG P) (pB P) = Ok G /\ p_seg P = false /\ s_A So = share (pG P) (length l) /\ length l = 54%nat /\
  mplist_init P [(So, v0, places l)] = Ok L /\ time_march (fun _ => mkLoads (-1) 0 0 0) (fun _ l => l) (mkState P G L) = Ok s' /\
  nth 0 (gm (sG s')) 0 = 1/2 /\ nth 5 (gm (sG s')) 0 = 2.
Proof.
  destruct (fill_full 3 ltac:(lia)) as (G & L & s' & EG & EL & E). exists G, L, s'. cbv zeta. split; [exact ex_proper|]. split; [exact EG|]. split; [reflexivity|]. split; [cbn [fill_solid s_A ex_params pG]; reflexivity|].
  split; [rewrite <- (full_head ex_gridp), layer_length; reflexivity|]. split; [exact EL|]. split; [exact E|].
  pose proof (p_C94_uniform (fun _ => mkLoads (-1) 0 0 0) (fun _ l => l) (ex_params ex_box) G 3 (fill_solid (share ex_gridp (length (layer ex_gridp 3 (ny ex_gridp - 1) 0)))) v0 L s' ex_proper EG eq_refl ltac:(lia)) as M. cbv zeta in M.
  destruct M as (_ & _ & M); [left; cbn [fill_solid s_A ex_params pG]; reflexivity|exact EL|exact E|].
  assert (HP : proper ex_gridp) by exact ex_proper.
  assert (EV : gV (sG s') = gV G).
  { pose proof (fill_mass (fun _ => mkLoads (-1) 0 0 0) (fun _ l => l) (ex_params ex_box) G 3 (ny ex_gridp - 1) (fill_solid (share ex_gridp (length (layer ex_gridp 3 (ny ex_gridp - 1) 0)))) v0 L s' ex_proper EG eq_refl ltac:(lia) ltac:(cbn; lia)) as X.
    destruct X as [X _]; [rewrite full_head; exact EL|exact E|exact X]. }
  rewrite (M 0%nat), (M 5%nat) by (cbn; lia). rewrite EV. rewrite !(p_C15_nodal_volume _ _ G HP EG) by (cbn; lia).
  unfold edge_weight, row, col, cell_w, cell_h. cbn [pG pB ex_params ex_box ex_gridp nx ny x_m x_M y_m y_M thickness cyclic_lr fill_solid s_rho]. cbn -[INR Rplus Rmult Rminus Rdiv].
  unfold n2. unR. replace (INR 4) with 4 by (simpl; lra). replace (INR 3) with 3 by (simpl; lra). split; field.
Qed.
Example x_C94_points : exists (G : grid R) L (s' : state R), let P := ex_params ex_box in let l := layer ex_gridp 3 (ny ex_gridp - 1) 0 in
  let So := fill_solid (share ex_gridp (length l)) in
  proper (pG P) /\ grid_init (pG P) (pB P) = Ok G /\ shut P /\ 0 < thickness (pG P) /\ s_law So <> Rigid /\
  (forall k, (k < nodes (pG P))%nat -> p_Mtol P < s_rho So * nth k (gV G) 0) /\
  mplist_init P [(So, v0, places l)] = Ok L /\ time_march (fun _ => mkLoads (-1) 0 0 0) (fun _ l => l) (mkState P G L) = Ok s'.
Proof.
  destruct (fill_full 3 ltac:(lia)) as (G & L & s' & EG & EL & E). exists G, L, s'. cbv zeta. split; [exact ex_proper|]. split; [exact EG|].
  split; [repeat split|]. split; [cbn; unR; lra|]. split; [discriminate|]. split; [|split; [exact EL|exact E]].
  intros k Hk. assert (HP : proper ex_gridp) by exact ex_proper. rewrite (p_C15_nodal_volume _ _ G HP EG) by exact Hk.
  assert (W : forall n i, 1/2 <= edge_weight n i) by (intros; unfold edge_weight; destruct (_ || _)%bool; lra).
  assert (CW : cell_w (@ex_gridp R _) = 1). { unfold cell_w. cbn [ex_gridp nx x_m x_M]. replace (INR 4) with 4 by (simpl; lra). unR. field. }
  assert (CH : cell_h (@ex_gridp R _) = 1). { unfold cell_h. cbn [ex_gridp ny y_m y_M]. replace (INR 3) with 3 by (simpl; lra). unfold n2. unR. field. }
  change (pG (ex_params ex_box)) with (@ex_gridp R _). rewrite CW, CH. cbn [ex_gridp thickness ex_params pB ex_box cyclic_lr p_Mtol fill_solid s_rho].
  match goal with |- context [edge_weight ?a ?b * edge_weight ?c ?d] => pose proof (W a b); pose proof (W c d); generalize dependent (edge_weight a b); generalize dependent (edge_weight c d) end.
  intros u Hu w Hw. unfold lit. unR. assert (1/4 <= w * u) by nra. lra.
Qed.
(** The file's own case is 3 points per cell; one row of cells out of two is
    filled here, so that the density doubles. *)
Lemma p_C95_refuted : exists uf fill (P : params R) (G : grid R) c So sv L (s' : state R),
  proper (pG P) /\ grid_init (pG P) (pB P) = Ok G /\ p_seg P = false /\ c = 3%nat /\ ny (pG P) = 3%nat /\
  s_A So = share (pG P) (length (layer (pG P) c (ny (pG P) - 2) (in_dy (pG P)))) /\
  mplist_init P [(So, sv, places (layer (pG P) c (ny (pG P) - 2) (in_dy (pG P))))] = Ok L /\ time_march uf fill (mkState P G L) = Ok s' /\
  0 < s_rho So * nth 0 (gV (sG s')) 0 /\ nth 0 (gm (sG s')) 0 = 2 * (s_rho So * nth 0 (gV (sG s')) 0).
Proof.
  set (l := layer (@ex_gridp R _) 3 (ny (@ex_gridp R _) - 2) (in_dy ex_gridp)). set (So := fill_solid (share ex_gridp (length l))).
  assert (HP : proper (@ex_gridp R _)) by exact ex_proper.
  assert (EH : in_dy (@ex_gridp R _) = head ex_gridp (ny (@ex_gridp R _) - 2)).
  { rewrite (in_dy_h _ HP). unfold head. change (ny (@ex_gridp R _) - 1 - (ny (@ex_gridp R _) - 2))%nat with 1%nat. simpl INR. lra. }
  destruct (fill_runs (share ex_gridp (length l)) l) as (G & L & s' & EG & EL & E).
  { intros xy A. subst l. rewrite EH in A. destruct (layer_inside ex_gridp HP 3 (ny (@ex_gridp R _) - 2) ltac:(lia) ltac:(cbn; lia) xy A) as [X Y].
    assert (0 <= head (@ex_gridp R _) (ny (@ex_gridp R _) - 2)) by (rewrite <- EH, (in_dy_h _ HP); destruct (ch _ HP); lra).
    cbn [ex_gridp x_m x_M y_m y_M] in X, Y. unfold n2 in *. revert X Y. unR. cbn [ex_gridp x_m x_M y_m y_M] in *. lra. }
  exists (fun _ => mkLoads (-1) 0 0 0), (fun _ l => l), (ex_params ex_box), G, 3%nat, So, v0, L, s'.
  change (pG (ex_params ex_box)) with (@ex_gridp R _). fold l. split; [exact HP|]. split; [exact EG|]. do 3 (split; [reflexivity|]). split; [unfold So; cbn [fill_solid s_A]; reflexivity|].
  split; [exact EL|]. split; [exact E|].
  pose proof (p_C95_incline (fun _ => mkLoads (-1) 0 0 0) (fun _ l => l) (ex_params ex_box) G 3 So v0 L s' HP EG eq_refl ltac:(lia) ltac:(cbn; lia)) as Q.
  cbv zeta in Q. specialize (Q ltac:(unfold So; cbn [fill_solid s_A]; reflexivity) EL E 0%nat ltac:(cbn; lia) ltac:(cbn; lia)).
  destruct (fill_mass (fun _ => mkLoads (-1) 0 0 0) (fun _ l => l) (ex_params ex_box) G 3 (ny (@ex_gridp R _) - 2) So v0 L s' HP EG eq_refl ltac:(lia) ltac:(cbn; lia)) as [EV _].
  { change (pG (ex_params ex_box)) with (@ex_gridp R _). rewrite <- EH. exact EL. } { exact E. }
  rewrite Q, EV. destruct (p_C15_volumes_positive ex_gridp ex_box G HP EG) as [_ V]; [cbn; unR; lra|]. specialize (V 0%nat ltac:(cbn; lia)).
  change (s_rho So) with 2. change (ny (pG (ex_params ex_box))) with 3%nat. replace (INR 3) with 3 by (simpl; lra). split; [lra|]. field.
Qed.
Example x_C95_chuteflow : exists (G : grid R) L (s' : state R), let P := ex_params ex_box in let l := layer ex_gridp 3 (ny ex_gridp - 1) 0 in
  let So := fill_solid (half_share ex_gridp (length l)) in
  proper (pG P) /\ grid_init (pG P) (pB P) = Ok G /\ p_seg P = false /\ s_A So = half_share (pG P) (length l) /\
  mplist_init P [(So, v0, places l)] = Ok L /\ time_march (fun _ => mkLoads (-1) 0 0 0) (fun _ l => l) (mkState P G L) = Ok s'.
Proof.
  assert (HP : proper (@ex_gridp R _)) by exact ex_proper.
  destruct (fill_runs (half_share ex_gridp (length (layer (@ex_gridp R _) 3 (ny (@ex_gridp R _) - 1) 0))) (layer (@ex_gridp R _) 3 (ny (@ex_gridp R _) - 1) 0)) as (G & L & s' & EG & EL & E).
  { intros xy A. replace 0 with (head (@ex_gridp R _) (ny (@ex_gridp R _) - 1)) in A by apply full_head.
    destruct (layer_inside ex_gridp HP 3 (ny (@ex_gridp R _) - 1) ltac:(lia) ltac:(cbn; lia) xy A) as [X Y]. rewrite full_head in Y. cbn in X, Y. unfold n2 in *. revert X Y. unR. lra. }
  exists G, L, s'. cbv zeta. split; [exact HP|]. split; [exact EG|]. split; [reflexivity|]. split; [cbn [fill_solid s_A ex_params pG]; reflexivity|]. split; [exact EL|exact E].
Qed.
