(** * Moments and work: C60, C61. *)
From Coq Require Import ZArith Reals List Bool Arith Lra Lia.
From Verif Require Import State NumR Spec SpecLaws SpecStep LibList LibR ModelGrid ModelConstit ModelParticle ModelMPList
  ModelIntegr ModelMain ProofsGrid ProofsMap ProofsP2G ProofsWalls ProofsLaws ProofsInOut ProofsHist Concrete
  ThmMapping ThmWalls ThmLaws ThmInOut ThmHist ProofsStep ProofsPoints ThmStep ThmBalance.
Import ListNotations.
Local Open Scope R_scope.

(** ** C60 *)
Lemma wt_sum P p (X : nat -> R) : proper (pG P) -> located (pG P) p ->
  fsum (nodes (pG P)) (fun k => X k * wt P p k) = fsum (nodes (pG P)) (fun k => hat (pG P) (px p) k * X k).
Proof. intros HP HL. apply fsum_ext. intros k Hk. rewrite (wt_hat P p k HP HL). lra. Qed.

Lemma located_list P G (L L1 L2 : list (phase R)) : proper (pG P) -> grid_ok (pG P) G ->
  all_live L (fun _ p => in_dom (pG P) (px p)) -> ref_nodes P G L = Ok L1 -> basis_all G L1 = Ok L2 ->
  Lrel (fun _ p p' => p' = locate (pG P) p) L L2 /\ all_live L2 (fun _ p => located (pG P) p).
Proof.
  intros HP HG HD H1 H2. pose proof (locate_loops P G L L1 L2 HP HG HD H1 H2) as HR. split; [exact HR|].
  eapply Lrel_all_live; [exact HR| |exact HD]. cbv beta. intros ? ? ? ? _ _ _ _ _ -> A. apply locate_located; auto.
Qed.

(** The centre of mass of the nodes is that of the particles. *)
Lemma p_C60_centre_of_mass : forall P G L L1 L2 G',
  proper (pG P) -> grid_ok (pG P) G -> all_live L (fun _ p => in_dom (pG P) (px p)) ->
  ref_nodes P G L = Ok L1 -> basis_all G L1 = Ok L2 -> p2g_all P L2 (wipe P G) = Ok G' ->
  fsum (nodes (pG P)) (fun k => node_x (pG P) k * nth k (gm G') 0) = psum L (fun _ p => pm p * vx (px p)) /\
  fsum (nodes (pG P)) (fun k => node_y (pG P) k * nth k (gm G') 0) = psum L (fun _ p => pm p * vy (px p)).
Proof.
  intros P G L L1 L2 G' HP HG HD H1 H2 H3.
  destruct (located_list P G L L1 L2 HP HG HD H1 H2) as [HR HL].
  destruct (p2g_all_mass P L2 _ G' (wipe_lens P G) H3) as (_ & _ & M).
  assert (K : forall X f, (forall x, in_dom (pG P) x -> fsum (nodes (pG P)) (fun k => hat (pG P) x k * X k) = f x) ->
    fsum (nodes (pG P)) (fun k => X k * nth k (gm G') 0) = psum L (fun _ p => pm p * f (px p))).
  { intros X f HX.
    rewrite (fsum_ext _ _ (fun k => psum L2 (fun _ p => pm p * (X k * wt P p k)))).
    2:{ intros k Hk. rewrite M, wipe_m, Rplus_0_l. unfold mass_at. rewrite <- psum_scal. apply psum_ext. intros ? ? ? ?; cbv beta; ring. }
    rewrite (psum_swap _ L2 (fun k _ p => pm p * (X k * wt P p k))).
    symmetry. apply (Lrel_psum _ _ _ _ _ HR). cbv beta. intros ph p ph' p' A B _ _ _ EQ.
    assert (Hl : located (pG P) p') by (rewrite EQ; apply locate_located; apply (HD ph p A B)). rewrite (fsum_scal _ (pm p') (fun k => X k * wt P p' k)), (wt_sum P p' X HP Hl), (HX _ (proj1 Hl)).
    rewrite EQ. reflexivity. }
  split; apply K; intros x D; destruct (hat_sums (pG P) x HP D) as (_ & A & B); assumption.
Qed.

(** With no wall node the angular momentum of the nodes is that of the particles. *)
Lemma p_C60_angular_momentum : forall P G L L1 L2 G',
  proper (pG P) -> grid_ok (pG P) G -> all_live L (fun _ p => in_dom (pG P) (px p)) ->
  wall_free (bv G) (bh G) ->
  ref_nodes P G L = Ok L1 -> basis_all G L1 = Ok L2 -> p2g_all P L2 (wipe P G) = Ok G' ->
  fsum (nodes (pG P)) (fun k => node_x (pG P) k * vy (nth k (gq G') v0) - node_y (pG P) k * vx (nth k (gq G') v0)) =
  psum L (fun ph p => pm p * (vx (px p) * vy (velocity ph p) - vy (px p) * vx (velocity ph p))).
Proof.
  intros P G L L1 L2 G' HP HG HD WF H1 H2 H3.
  destruct (located_list P G L L1 L2 HP HG HD H1 H2) as [HR HL].
  destruct (wipe_geo P G) as (_ & _ & _ & _ & _ & Ev & Eh & _).
  destruct (p2g_all_mom P L2 _ G' (wipe_lens P G)) as [_ M]; [rewrite Ev; apply (go_bv _ _ HG)|rewrite Eh; apply (go_bh _ _ HG)|exact H3|].
  assert (MA : forall a k, comp a (nth k (gq G') v0) = mom_at P L2 a k).
  { intros a k. rewrite M, wipe_q, comp_v0, Ev, Eh. destruct (WF k) as [W1 W2].
    destruct a; cbn [open_a]; unfold open_x, open_y; rewrite ?W1, ?W2, ?andb_false_r; cbn; lra. }
  assert (K : forall X f a, (forall x, in_dom (pG P) x -> fsum (nodes (pG P)) (fun k => hat (pG P) x k * X k) = f x) ->
    fsum (nodes (pG P)) (fun k => X k * comp a (nth k (gq G') v0)) = psum L (fun ph p => pm p * (f (px p) * comp a (velocity ph p)))).
  { intros X f a HX.
    rewrite (fsum_ext _ _ (fun k => psum L2 (fun ph p => pm p * comp a (velocity ph p) * (X k * wt P p k)))).
    2:{ intros k Hk. rewrite MA. unfold mom_at. rewrite <- psum_scal. apply psum_ext. intros ? ? ? ?; cbv beta; ring. }
    rewrite (psum_swap _ L2 (fun k ph p => pm p * comp a (velocity ph p) * (X k * wt P p k))).
    symmetry. apply (Lrel_psum _ _ _ _ _ HR). cbv beta. intros ph p ph' p' A B _ _ Esv EQ.
    assert (Hl : located (pG P) p') by (rewrite EQ; apply locate_located; apply (HD ph p A B)). rewrite (fsum_scal _ _ (fun k => X k * wt P p' k)), (wt_sum P p' X HP Hl), (HX _ (proj1 Hl)).
    rewrite EQ. unfold velocity. cbn. rewrite Esv. lra. }
  rewrite fsum_minus.
  assert (KX : fsum (nodes (pG P)) (fun k => node_x (pG P) k * vy (nth k (gq G') v0)) = psum L (fun ph p => pm p * (vx (px p) * vy (velocity ph p)))).
  { apply (K (node_x (pG P)) vx AY). intros x D; destruct (hat_sums (pG P) x HP D) as (_ & A & B); assumption. }
  assert (KY : fsum (nodes (pG P)) (fun k => node_y (pG P) k * vx (nth k (gq G') v0)) = psum L (fun ph p => pm p * (vy (px p) * vx (velocity ph p)))).
  { apply (K (node_y (pG P)) vy AX). intros x D; destruct (hat_sums (pG P) x HP D) as (_ & A & B); assumption. }
  rewrite KX, KY.
  rewrite (psum_ext L (fun ph p => pm p * (vx (px p) * vy (velocity ph p) - vy (px p) * vx (velocity ph p)))
     (fun ph p => pm p * (vx (px p) * vy (velocity ph p)) + (-1) * (pm p * (vy (px p) * vx (velocity ph p))))) by (intros ? ? ? ?; lra).
  rewrite psum_plus, psum_scal. lra.
Qed.

Lemma ex_mapped : exists (G : grid R) L1 L2 G',
  proper (pG (ex_params (T := R) ex_bounds)) /\ grid_ok (pG (ex_params ex_bounds)) G /\
  all_live (ex_L Elastic) (fun _ p => in_dom (pG (ex_params ex_bounds)) (px p)) /\ wall_free (bv G) (bh G) /\
  ref_nodes (ex_params ex_bounds) G (ex_L Elastic) = Ok L1 /\ basis_all G L1 = Ok L2 /\
  p2g_all (ex_params ex_bounds) L2 (wipe (ex_params ex_bounds) G) = Ok G'.
Proof.
  destruct (ex_forces ex_bounds Elastic) as (G & L1 & L2 & G0 & _ & HI & HG & H1 & H2 & _ & _ & HR).
  destruct (p2g_all_total (ex_params ex_bounds) L2 (wipe (ex_params ex_bounds) G) (wipe_lens _ _) (wipe_seg _ _)) as [G' H3].
  - eapply Lrel_enough; [exact HR|apply ex_enough].
  - eapply (Lrel_all_live _ _ _ _ _ HR); [|apply (ex_dom Elastic)].
    cbv beta. intros ph p ph' p' _ _ _ _ _ -> D. split; [|discriminate].
    apply located_reaches; [exact ex_proper|]. apply locate_located. exact D.
  - exists G, L1, L2, G'. split; [exact ex_proper|]. split; [exact HG|]. split; [apply ex_dom|].
    split; [|auto]. unfold grid_init in HI. pbinds HI. injection HI as <-. cbn [bv bh].
    intros k. unfold boundary_v, boundary_h, mark. cbn.
    do 12 (destruct k as [|k]; [split; reflexivity|]). destruct k; split; reflexivity.
Qed.
(** Two particles of mass 2 at different places, no wall: the hypotheses hold
    and the first moment is not zero. *)
Example x_C60_centre_of_mass : exists (G : grid R) L1 L2 G',
  proper (pG (ex_params (T := R) ex_bounds)) /\ grid_ok (pG (ex_params ex_bounds)) G /\
  all_live (ex_L Elastic) (fun _ p => in_dom (pG (ex_params ex_bounds)) (px p)) /\
  ref_nodes (ex_params ex_bounds) G (ex_L Elastic) = Ok L1 /\ basis_all G L1 = Ok L2 /\
  p2g_all (ex_params ex_bounds) L2 (wipe (ex_params ex_bounds) G) = Ok G' /\
  psum (ex_L Elastic) (fun _ p => pm p * vx (px p)) = 4.
Proof.
  destruct ex_mapped as (G & L1 & L2 & G' & A1 & A2 & A3 & _ & A5 & A6 & A7).
  exists G, L1, L2, G'. do 6 (split; [assumption|]). unfold psum. cbn. lra.
Qed.
Example x_C60_angular_momentum : exists (G : grid R) L1 L2 G',
  proper (pG (ex_params (T := R) ex_bounds)) /\ grid_ok (pG (ex_params ex_bounds)) G /\
  all_live (ex_L Elastic) (fun _ p => in_dom (pG (ex_params ex_bounds)) (px p)) /\ wall_free (bv G) (bh G) /\
  ref_nodes (ex_params ex_bounds) G (ex_L Elastic) = Ok L1 /\ basis_all G L1 = Ok L2 /\
  p2g_all (ex_params ex_bounds) L2 (wipe (ex_params ex_bounds) G) = Ok G' /\
  psum (ex_L Elastic) (fun ph p => pm p * (vx (px p) * vy (velocity ph p) - vy (px p) * vx (velocity ph p))) = -4.
Proof.
  destruct ex_mapped as (G & L1 & L2 & G' & A1 & A2 & A3 & A4 & A5 & A6 & A7).
  exists G, L1, L2, G'. do 7 (split; [assumption|]). unfold psum. cbn. lra.
Qed.

(** ** C61 *)

(** The velocity that the particles saw while they were strained: the momentum
    at the end of the step less what the step added. *)
Definition old_v (P : params R) (G : grid R) (a : axis) (k : nat) : R :=
  if Rltb (p_Mtol P) (nth k (gm G) 0)
  then (comp a (nth k (gq G) v0) - p_dt P * comp a (nth k (gqd G) v0)) / nth k (gm G) 0 else 0.
Definition sum3 (f : axis -> R) : R := f AX + f AY + f AZ.

Lemma strain_exact P G p p' : proper (pG P) -> located (pG P) p ->
  length (gm G) = nodes (pG P) -> length (gq G) = nodes (pG P) -> update_strain P G p = Ok p' ->
  exists v : nat -> V3 R, (forall r a, (r < 4)%nat -> comp a (v r) = node_v P G a (corner_node (pG P) (cell_node (pG P) (px p)) r)) /\
  forall sg, symmetric sg ->
    inner sg (pdstrain p') = p_dt P * fsum 4 (fun r => sum3 (fun a => comp a (v r) * comp a (mv sg (Gr p r)))).
Proof.
  intros HP HL Lm Lq E. pose proof HL as (HD & EN & _).
  set (c := fun r => corner_node (pG P) (cell_node (pG P) (px p)) r).
  exists (fun r => mkV3 (node_v P G AX (c r)) (node_v P G AY (c r)) (node_v P G AZ (c r))).
  split; [intros r [] _; reflexivity|].
  assert (NV : forall r, (r < 4)%nat -> nodal_velocity P G (nearby (pnstar p) r (nx (pG P))) =
    Ok (mkV3 (node_v P G AX (c r)) (node_v P G AY (c r)) (node_v P G AZ (c r)))).
  { intros r Hr. unfold node_v, c. unfold nodal_velocity. rewrite EN.
    rewrite (py_get_some (gm G) _ (corner_node (pG P) (cell_node (pG P) (px p)) r) 0)
      by (rewrite Lm; apply corner_in_range; auto).
    cbn [bind]. cbn [nltb Num_R]. destruct (Rltb (p_Mtol P) _).
    - rewrite (py_get_some (gq G) _ (corner_node (pG P) (cell_node (pG P) (px p)) r) v0)
        by (rewrite Lq; apply corner_in_range; auto).
      cbn [bind]. f_equal.
    - f_equal. }
  clearbody c. unfold update_strain, four in E. cbn [foldM] in E.
  rewrite (NV 0%nat) in E by lia. rewrite (NV 1%nat) in E by lia.
  rewrite (NV 2%nat) in E by lia. rewrite (NV 3%nat) in E by lia.
  cbn [bind fst snd] in E. injection E as <-. cbn [pdstrain set].
  intros sg (S1 & S2 & S3).
  clear - S1 S2 S3. cbn [fsum].
  generalize (Gr p 0) (Gr p 1) (Gr p 2) (Gr p 3). intros g0 g1 g2 g3.
  generalize (node_v P G AX (c 0%nat)) (node_v P G AY (c 0%nat)) (node_v P G AZ (c 0%nat))
    (node_v P G AX (c 1%nat)) (node_v P G AY (c 1%nat)) (node_v P G AZ (c 1%nat))
    (node_v P G AX (c 2%nat)) (node_v P G AY (c 2%nat)) (node_v P G AZ (c 2%nat))
    (node_v P G AX (c 3%nat)) (node_v P G AY (c 3%nat)) (node_v P G AZ (c 3%nat)).
  intros. destruct sg, g0, g1, g2, g3. cbn in S1, S2, S3. subst. unfold inner, sum3. cbn. field.
Qed.

(** Work of the internal force of a located point on nodal velocities [w]. *)
Lemma fint_work P p (w : axis -> nat -> R) : proper (pG P) -> located (pG P) p ->
  fsum (nodes (pG P)) (fun k => sum3 (fun a => w a k * fint_at P p a k)) =
  pV p * fsum 4 (fun r => sum3 (fun a => w a (corner_node (pG P) (cell_node (pG P) (px p)) r) * comp a (mv (pstress p) (Gr p r)))).
Proof.
  intros HP HL. unfold sum3. rewrite !fsum_plus. unfold fint_at.
  rewrite !(moment_sum P _ p _ HP HL). rewrite <- !fsum_plus, <- fsum_scal. apply fsum_ext. intros r Hr. ring.
Qed.

Definition strain_work (P : params R) (G : grid R) (p p' : particle R) : Prop :=
  forall sg, symmetric sg -> inner sg (pdstrain p') = p_dt P * fsum 4 (fun r => sum3 (fun a =>
    node_v P G a (corner_node (pG P) (cell_node (pG P) (px p)) r) * comp a (mv sg (Gr p r)))).

Lemma stress_work P L (G : grid R) L' G' : proper (pG P) -> length (gm G) = nodes (pG P) -> length (gq G) = nodes (pG P) ->
  stress_strain P L G = Ok (L', G') -> cyclic_lr (pB P) = false ->
  Lrel (fun ph p p' => located (pG P) p -> strained p p' /\ strain_work P G p p') L L'.
Proof.
  intros HP Lm Lq E Hc. unfold stress_strain in E. pbinds E. rewrite Hc in E. injection E as <- <-.
  match goal with H : points _ _ _ = Ok (?l, ?g) |- _ => rename H into EP; rename l into L1; rename g into G1 end.
  apply (points_rel (stress_one P a) (fun G1 => vis_frame G G1)
    (fun ph p p' => located (pG P) p -> strained p p' /\ strain_work P G p p') L G L1 G1) in EP.
  - apply EP.
  - apply vis_frame_refl.
  - intros k ph p G2 p' G2' _ _ V X. pose proof (stress_one_rel _ _ _ _ _ _ _ _ X) as (X1 & X2 & _ & X3).
    split; [exact (vis_frame_trans _ _ _ V X2)|]. intros HL. split; [exact X1|]. unfold stress_one in X. pbinds X.
    assert (EM : gm G2 = gm G) by (rewrite V; reflexivity). assert (EQ : gq G2 = gq G) by (rewrite V; reflexivity).
    destruct (strain_exact P G2 p a0 HP HL) as (v & V1 & V2); [rewrite EM; exact Lm|rewrite EQ; exact Lq|assumption|].
    assert (ED : pdstrain p' = pdstrain a0).
    { unfold update_stress in X. pbinds X. injection X as <- _. cbn [pdstrain set].
      match goal with H : apply_law _ _ _ _ _ _ = Ok _ |- _ => apply law_effect in H; destruct H as (F & _) end.
      unfold law_frame in F. rewrite F. reflexivity. }
    intros sg SY. rewrite ED, (V2 sg SY). f_equal. apply fsum_ext. intros r Hr. unfold sum3. rewrite !V1 by exact Hr.
    unfold node_v. rewrite EM, EQ. reflexivity.
Qed.

(** A step keeps the stresses symmetric. *)
Lemma march_sym uf fill (s s' : state R) : counted (sL s) -> time_march uf fill s = Ok s' ->
  (forall ph p, In ph (sL s) -> In p (ph_pts ph) -> all_sym p) -> all_live (sL s') (fun _ p => symmetric (pstress p)).
Proof.
  intros C E H0 q p Hq Hp. apply counted_all in C. apply (step_ev _ _ stable_sym) in E; [|exact C].
  assert (Hp' : In p (ph_pts q)) by (unfold live in Hp; rewrite <- (firstn_skipn (ph_n q) (ph_pts q)); apply in_or_app; left; exact Hp). clear Hp C.
  cbv zeta in E. unfold Levolves in E. revert H0 Hq E. generalize (sL s) (sL s'). intros L L' H0 Hq V.
  induction V as [|ph ph' L L' V _ IH]; [destruct Hq|].
  destruct Hq as [->|Hq].
  - destruct V as (_ & _ & sel & kept & new & B & D & E & F & _). rewrite F in Hp'. apply in_app_or in Hp'.
    assert (Q : all_sym p); [|apply Q]. destruct Hp' as [Hp|Hp].
    + assert (A : forall q, In q sel -> all_sym q) by (intros r Hr; apply (H0 ph r); [left; reflexivity|eapply subseq_in; eauto]).
      clear - D A Hp. induction D; [destruct Hp|]. destruct Hp as [<-|Hp]; [apply H, A; left; reflexivity|].
      apply IHD; [exact Hp|intros; apply A; right; assumption].
    + rewrite Forall_forall in E. auto.
  - apply IH; auto. intros ph1 p1 Q1. apply H0. right. exact Q1.
Qed.

(** The grid fields of a step: velocities before the momentum update, rates. *)
Lemma step_fields uf fill s s' : proper (pG (sP s)) -> grid_ok (pG (sP s)) (sG s) ->
  all_live (sL s) (fun _ p => in_dom (pG (sP s)) (px p)) -> shut (sP s) -> no_rub (pB (sP s)) ->
  time_march uf fill s = Ok s' ->
  forall k a, (k < nodes (pG (sP s)))%nat -> exists o x, (o = 0 \/ o = 1) /\
  comp a (nth k (gq (sG s')) v0) - p_dt (sP s) * comp a (nth k (gqd (sG s')) v0) = o * x /\
  comp a (nth k (gqd (sG s')) v0) = o * net_force (sP s) (sG s') a k.
Proof.
  intros HP HG HD HS NR E k a Hk. pose proof HS as (Hs & Hc & Hv & O1 & O2 & I1 & I2).
  destruct (march_stages uf fill s s' HP HG HD Hs Hc E) as
    (S1 & L1 & L3 & L4 & L5 & G1 & G3 & G4 & G5 & G6 & HS1 & E1 & R1 & R3 & E2 & F1 & E3 & R4 & F3 & Lo & E4 & LF & E5 & Z4 & Z5 & E6 & EP & EG & PM & EI).
  set (P := sP s <| p_loads := uf (sP s) |>) in *. set (Pg := pG (sP s)) in *.
  destruct (force_loop_spec P L4 G3 G4 LF E4) as (F4 & _ & FI & FE).
  pose proof (BCs_frame _ _ _ _ E5) as F5. destruct (um_shape P G5 G6 E6) as [F6 _].
  destruct (wipe_geo (sP s) (sG s)) as (W1 & W2 & _ & _ & _ & W6 & W7 & _).
  assert (Q1 := p2g_all_mom P L3 (wipe (sP s) (sG s)) G1 (wipe_lens (sP s) (sG s))).
  rewrite W6, W7 in Q1. destruct (Q1 (go_bv _ _ HG) (go_bh _ _ HG) E2) as (Lq1 & QM). clear Q1.
  unfold frame_all in F1. unfold vis_frame in F3. unfold frame_f in F4. unfold force_frame in F5.
  assert (EQ5 : gq G5 = gq G1). { rewrite F5. cbn. rewrite F4. cbn. rewrite F3. reflexivity. }
  assert (BV : bv G5 = bv (sG s) /\ bh G5 = bh (sG s)).
  { rewrite F5. cbn. rewrite F4. cbn. rewrite F3. cbn. rewrite F1. cbn. split; assumption. }
  destruct BV as [BV BH].
  exists (open_a a (roughness (pB P)) (bv (sG s)) (bh (sG s)) k), (mom_at P L3 a k).
  split. { destruct a; cbn [open_a]; unfold open_x, open_y; repeat match goal with |- context [if ?b then _ else _] => destruct b end; auto. }
  assert (RT := no_rub_rate P G5 G6 Z5 E6 NR a k). rewrite BV, BH in RT.
  assert (NF : net_force (sP s) (sG s') a k = net_force P G5 a k).
  { unfold net_force. rewrite EG. unfold calculate_gammadot. cbn. rewrite F6. reflexivity. }
  destruct (um_q P G5 G6 Z5 E6 k Hk) as [U1 U2]. assert (CP : conveyor (pB P) = false) by exact Hv. rewrite CP in U1. cbn [andb] in U1.
  rewrite EQ5 in U1, U2. specialize (QM a k). rewrite wipe_q, comp_v0 in QM.
  rewrite NF. change (p_dt (sP s)) with (p_dt P). rewrite EG. unfold calculate_gammadot. cbn [gm gq gqd set].
  split; [|exact RT].
  destruct a; [cbn [comp]; rewrite U1; cbn [comp] in QM; rewrite QM; lra|rewrite U2 by discriminate; rewrite QM; lra..].
Qed.

(* In one step the internal nodal forces do, on the nodal velocities with
    which the points were strained, exactly the work of the new stresses on the
    strain increments. *)
Lemma internal_work : forall uf fill s s', proper (pG (sP s)) -> grid_ok (pG (sP s)) (sG s) ->
  all_live (sL s) (fun _ p => in_dom (pG (sP s)) (px p)) -> shut (sP s) ->
  time_march uf fill s = Ok s' -> all_live (sL s') (fun _ p => symmetric (pstress p)) ->
  p_dt (sP s) * fsum (nodes (pG (sP s))) (fun k => sum3 (fun a => old_v (sP s) (sG s') a k * comp a (nth k (gfi (sG s')) v0))) =
  psum (sL s') (fun _ p => pV p * inner (pstress p) (pdstrain p)).
Proof.
  intros uf fill s s' HP HG HD HS E SY. pose proof HS as (Hs & Hc & Hv & O1 & O2 & I1 & I2).
  destruct (march_stages uf fill s s' HP HG HD Hs Hc E) as
    (S1 & L1 & L3 & L4 & L5 & G1 & G3 & G4 & G5 & G6 & HS1 & E1 & R1 & R3 & E2 & F1 & E3 & R4 & F3 & Lo & E4 & LF & E5 & Z4 & Z5 & E6 & EP & EG & PM & EI).
  set (P := sP s <| p_loads := uf (sP s) |>) in *. set (Pg := pG (sP s)) in *.
  destruct (force_loop_spec P L4 G3 G4 LF E4) as (F4 & _ & FI & FE).
  pose proof (BCs_frame _ _ _ _ E5) as F5. destruct (um_shape P G5 G6 E6) as [F6 _].
  destruct (p2g_all_mass P L3 (wipe (sP s) (sG s)) G1 (wipe_lens (sP s) (sG s)) E2) as (Lm1 & _).
  destruct (wipe_geo (sP s) (sG s)) as (W1 & W2 & _ & _ & _ & W6 & W7 & _).
  assert (Q1 := p2g_all_mom P L3 (wipe (sP s) (sG s)) G1 (wipe_lens (sP s) (sG s))).
  rewrite W6, W7 in Q1. destruct (Q1 (go_bv _ _ HG) (go_bh _ _ HG) E2) as (Lq1 & _). clear Q1.
  assert (FI5 : gfi G5 = gfi G4) by (eapply BCs_fi; exact E5).
  unfold frame_all in F1. unfold vis_frame in F3. unfold frame_f in F4. unfold force_frame in F5.
  assert (EM6 : gm G6 = gm G1). { rewrite F6. cbn. rewrite F5. cbn. rewrite F4. cbn. rewrite F3. reflexivity. }
  assert (EQ5 : gq G5 = gq G1). { rewrite F5. cbn. rewrite F4. cbn. rewrite F3. reflexivity. }
  assert (FI3 : gfi G3 = repeat v0 (nodes Pg)). { rewrite F3. cbn. rewrite F1. cbn. apply wipe_fi. }
  assert (FI6 : gfi (sG s') = gfi G4). { rewrite EG. unfold calculate_gammadot. cbn. rewrite F6. cbn. exact FI5. }
  assert (OV : forall a k, (k < nodes Pg)%nat -> old_v (sP s) (sG s') a k = node_v P G1 a k).
  { intros a k Hk. unfold old_v, node_v. rewrite EG. unfold calculate_gammadot. cbn [gm gq gqd set]. rewrite EM6.
    change (p_Mtol (sP s)) with (p_Mtol P). change (p_dt (sP s)) with (p_dt P).
    destruct (um_q P G5 G6 Z5 E6 k Hk) as [U1 U2]. assert (CP : conveyor (pB P) = false) by exact Hv. rewrite CP in U1. cbn [andb] in U1.
    rewrite EQ5 in U1, U2. destruct (Rltb _ _); [|reflexivity]. f_equal.
    destruct a; [cbn [comp]; rewrite U1; lra|rewrite U2 by discriminate; lra..]. }
  rewrite (fsum_ext _ _ (fun k => psum L4 (fun _ p => sum3 (fun a => node_v P G1 a k * fint_at P p a k)))).
  2:{ intros k Hk. unfold sum3. rewrite !psum_plus, !psum_scal, FI6, !OV by exact Hk.
      rewrite !FI, FI3, nth_repeat_same, !comp_v0. lra. }
  rewrite (psum_swap _ L4 (fun k _ p => sum3 (fun a => node_v P G1 a k * fint_at P p a k))).
  (* the points of [L4] and of the result *)
  assert (IO : inout P L5 = Ok L5).
  { unfold inout. change (pB P) with (pB (sP s)). rewrite O1, O2, I1, I2, Hc. reflexivity. }
  rewrite IO in EI. injection EI as EI. rewrite <- EI in *.
  assert (PR : Prel (fun _ p p' => pV p' = pV p /\ pstress p' = pstress p /\ pdstrain p' = pdstrain p) L4 L5).
  { clear - PM. induction PM as [|ph ph' L L' (A1 & A2 & A3 & A4 & _) PM IH]; constructor; [|exact IH].
    split; [exact A1|]. split; [exact A2|]. split; [exact A3|]. eapply Forall2_imp; [|exact A4].
    intros p p'. destruct (is_rigid _).
    - intros (w & _ & ->). repeat split.
    - intros (X & _). rewrite X. repeat split. }
  assert (SY4 : all_live L4 (fun _ p => symmetric (pstress p))).
  { clear - PR SY. intros ph p A B. induction PR as [|ph0 ph' L L' (A1 & A2 & A3 & A4) PR IH]; [destruct A|]. destruct A as [<-|A].
    - assert (X : forall p, In p (live ph') -> symmetric (pstress p)) by (intros q Hq; apply (SY ph' q); [left; auto|auto]).
      clear - A4 B X. induction A4 as [|q q' l l' (_ & K & _) A4 IH]; [destruct B|]. destruct B as [<-|B].
      + rewrite <- K. apply X. left; reflexivity.
      + apply IH; auto. intros; apply X; right; auto.
    - apply IH; auto. intros q r X Y. apply (SY q r); [right; exact X|exact Y]. }
  assert (RW : Lrel (fun ph p p' => pV p' * inner (pstress p') (pdstrain p') =
     p_dt P * fsum (nodes (pG P)) (fun k => sum3 (fun a => node_v P G1 a k * fint_at P p' a k))) L3 L4).
  { pose proof (stress_work P L3 G1 L4 G3 HP Lm1 Lq1 E3 Hc) as RS.
    assert (D3 : all_live L3 (fun _ p => located Pg p)).
    { clear - R3. intros ph p A B. eapply (Lrel_all_live _ L1 L3 (fun _ _ => True) (fun _ p => located Pg p) R3); eauto; [|intros ? ? ? ?; exact I].
      cbv beta. intros ? ? ? ? _ _ _ _ _ [D ->] _. apply locate_located. exact D. }
    clear - RS D3 SY4 HP Lo. induction RS as [|ph ph' L L' (A1 & A2 & A3 & A4 & A5) RS IH]; constructor.
    - split; [exact A1|]. split; [exact A2|]. split; [exact A3|]. split; [|exact A5].
      assert (X : forall p, In p (live ph) -> located Pg p) by (intros; apply (D3 ph); [left; auto|auto]).
      assert (Y : forall p, In p (live ph') -> located Pg p /\ symmetric (pstress p)) by (intros; split; [apply (Lo ph')|apply (SY4 ph')]; auto; left; auto).
      clear - A4 X Y HP. induction A4 as [|p p' l l' K A4 IH]; constructor.
      + destruct (K (X p (or_introl eq_refl))) as [ST W]. destruct (Y p' (or_introl eq_refl)) as [LO SS].
        rewrite (fint_work P p' (node_v P G1) HP LO), (W _ SS).
        assert (EX : px p' = px p) by (unfold strained, law_frame in ST; rewrite ST; reflexivity).
        assert (EGr : forall r, Gr p' r = Gr p r) by (intros r; unfold strained, law_frame in ST; rewrite ST; reflexivity).
        rewrite EX. match goal with |- _ * (_ * ?A) = _ * (_ * ?B) => assert (EAB : A = B) end.
        { apply fsum_ext. intros r Hr. rewrite EGr. reflexivity. }
        rewrite EAB. ring.
      + apply IH; intros; [apply X|apply Y]; right; auto.
    - apply IH; intros q r A B; [apply (Lo q)|apply (SY4 q)|apply (D3 q)]; auto; right; exact A. }
  change (p_dt (sP s)) with (p_dt P). rewrite <- psum_scal.
  transitivity (psum L4 (fun _ p => pV p * inner (pstress p) (pdstrain p))).
  - clear - RW. unfold psum. f_equal. induction RW as [|ph ph' L L' (A1 & A2 & A3 & A4 & A5) RW IH]; [reflexivity|].
    cbn [map]. f_equal; [|exact IH]. f_equal. clear - A4. induction A4 as [|p p' l l' K A4 IH]; [reflexivity|]. cbn [map]. f_equal; [|exact IH]. symmetry. exact K.
  - eapply Prel_psum; [exact PR|]. cbv beta. intros ph ph' p p' _ _ _ _ _ (X & Y & Z). rewrite X, Y, Z. reflexivity.
Qed.

(** In one step the internal nodal forces do, on the nodal velocities with
    which the points were strained, exactly the work of the new stresses on the
    strain increments. *)
Lemma p_C61_internal_work : forall uf fill (s s' : state R), proper (pG (sP s)) -> grid_ok (pG (sP s)) (sG s) ->
  all_live (sL s) (fun _ p => in_dom (pG (sP s)) (px p)) -> shut (sP s) -> counted (sL s) ->
  (forall ph p, In ph (sL s) -> In p (ph_pts ph) -> all_sym p) ->
  time_march uf fill s = Ok s' ->
  p_dt (sP s) * fsum (nodes (pG (sP s))) (fun k => sum3 (fun a => old_v (sP s) (sG s') a k * comp a (nth k (gfi (sG s')) v0))) =
  psum (sL s') (fun _ p => pV p * inner (pstress p) (pdstrain p)).
Proof. intros uf fill s s' HP HG HD HS C SY E. apply (internal_work uf fill s s'); auto. eapply march_sym; eauto. Qed.

(** Kinetic energy of a node that carries velocity, for momentum [q]. *)
Definition kin (P : params R) (G : grid R) (q : axis -> R) (k : nat) : R :=
  if Rltb (p_Mtol P) (nth k (gm G) 0) then sum3 (fun a => q a * q a) / (2 * nth k (gm G) 0) else 0.

(** Energy balance of the momentum update, walls included: the kinetic energy
    of the nodes grows by the work of the external forces, less the stress work,
    both scaled by the damping factor, plus a second-order term that is never
    negative.  Damping therefore scales the work and dissipates nothing itself. *)
Lemma p_C61_energy_balance : forall uf fill (s s' : state R), proper (pG (sP s)) -> grid_ok (pG (sP s)) (sG s) ->
  all_live (sL s) (fun _ p => in_dom (pG (sP s)) (px p)) -> shut (sP s) -> counted (sL s) ->
  (forall ph p, In ph (sL s) -> In p (ph_pts ph) -> all_sym p) -> no_rub (pB (sP s)) -> 0 <= p_Mtol (sP s) ->
  time_march uf fill s = Ok s' ->
  let P := sP s in let G := sG s' in
  let q := fun k a => comp a (nth k (gq G) v0) in let f := fun k a => comp a (nth k (gqd G) v0) in
  fsum (nodes (pG P)) (fun k => kin P G (q k) k - kin P G (fun a => q k a - p_dt P * f k a) k) =
  (if p_damping P then 7/10 else 1) *
    (p_dt P * fsum (nodes (pG P)) (fun k => sum3 (fun a => old_v P G a k * comp a (nth k (gfe G) v0)))
     - psum (sL s') (fun _ p => pV p * inner (pstress p) (pdstrain p))) +
  p_dt P * p_dt P * fsum (nodes (pG P)) (fun k => kin P G (f k) k).
Proof.
  intros uf fill s s' HP HG HD HS C SY NR HM E P G q f.
  rewrite <- (p_C61_internal_work uf fill s s' HP HG HD HS C SY E). fold P G.
  set (c := if p_damping P then 7/10 else 1).
  rewrite <- Rmult_minus_distr_l, <- fsum_minus, <- !fsum_scal, <- fsum_plus. apply fsum_ext. intros k Hk.
  assert (SF := fun a => step_fields uf fill s s' HP HG HD HS NR E k a Hk). fold P G in SF.
  destruct (SF AX) as (ox & x & OX & QX & FX). destruct (SF AY) as (oy & y & OY & QY & FY). destruct (SF AZ) as (oz & z & OZ & QZ & FZ).
  unfold kin, old_v, sum3. unfold q, f in *. fold P in HM.
  destruct (Rltb (p_Mtol P) (nth k (gm G) 0)) eqn:EB; [|lra]. apply Rltb_true in EB.
  unfold net_force in FX, FY, FZ. fold c in FX, FY, FZ. fold P in QX, QY, QZ.
  set (m := nth k (gm G) 0) in *. assert (Mn : m <> 0) by lra.
  set (qx := comp AX (nth k (gq G) v0)) in *. set (qy := comp AY (nth k (gq G) v0)) in *. set (qz := comp AZ (nth k (gq G) v0)) in *.
  set (fx := comp AX (nth k (gqd G) v0)) in *. set (fy := comp AY (nth k (gqd G) v0)) in *. set (fz := comp AZ (nth k (gqd G) v0)) in *.
  set (ex := comp AX (nth k (gfe G) v0)) in *. set (ey := comp AY (nth k (gfe G) v0)) in *. set (ez := comp AZ (nth k (gfe G) v0)) in *.
  set (ix := comp AX (nth k (gfi G) v0)) in *. set (iy := comp AY (nth k (gfi G) v0)) in *. set (iz := comp AZ (nth k (gfi G) v0)) in *.
  set (dt := p_dt P) in *. clearbody m qx qy qz fx fy fz ex ey ez ix iy iz dt c.
  assert (K : forall q f e i o x, (o = 0 \/ o = 1) -> q - dt * f = o * x -> f = o * (c * (e - i)) ->
    q * q - (q - dt * f) * (q - dt * f) = 2 * c * dt * ((q - dt * f) * (e - i)) + dt * dt * (f * f)).
  { intros q1 f1 e1 i1 o1 x1 [-> | ->] A B.
    - assert (B' : f1 = 0) by lra. rewrite B' in *. assert (A' : q1 = 0) by lra. rewrite A'. ring.
    - rewrite Rmult_1_l in B. rewrite B. ring. }
  pose proof (K qx fx ex ix ox x OX QX FX) as KX. pose proof (K qy fy ey iy oy y OY QY FY) as KY. pose proof (K qz fz ez iz oz z OZ QZ FZ) as KZ.
  apply Rmult_eq_reg_l with (2 * m); [|lra].
  transitivity ((qx * qx - (qx - dt * fx) * (qx - dt * fx)) + (qy * qy - (qy - dt * fy) * (qy - dt * fy)) + (qz * qz - (qz - dt * fz) * (qz - dt * fz))); [field; exact Mn|].
  rewrite KX, KY, KZ. field. exact Mn.
Qed.

(** Two moving points, one of them stressed and so straining, in a closed box. *)
Lemma ex_energy uf fill : exists s s' : state R, proper (pG (sP s)) /\ grid_ok (pG (sP s)) (sG s) /\
  all_live (sL s) (fun _ p => in_dom (pG (sP s)) (px p)) /\ shut (sP s) /\ counted (sL s) /\
  (forall ph p, In ph (sL s) -> In p (ph_pts ph) -> all_sym p) /\ no_rub (pB (sP s)) /\ 0 <= p_Mtol (sP s) /\
  time_march uf fill s = Ok s' /\ has_bottom (pB (sP s)) = true /\ xy (pstress (T := R) ex_p1) = 2.
Proof.
  set (B := ex_box (T := R)).
  destruct (grid_init_ok ex_gridp B ex_proper) as (G & EG & OK).
  pose proof (ex_ready B G EG OK eq_refl eq_refl eq_refl Elastic (or_introl eq_refl)) as HR.
  destruct (march_total uf fill _ HR) as [s' E].
  exists (start (ex_params B) G Elastic), s'.
  split; [exact ex_proper|]. split; [exact OK|]. split; [exact (ex_dom Elastic)|]. split; [repeat split; reflexivity|].
  split; [intros ph [<-|[]]; reflexivity|].
  split; [intros ph p [<-|[]] [<-|[<-|[]]]; repeat split|].
  split; [left; reflexivity|]. split; [cbn; lra|]. split; [exact E|]. split; [reflexivity|cbn; lra].
Qed.
Example x_C61_internal_work : forall uf fill, exists s s' : state R, proper (pG (sP s)) /\ grid_ok (pG (sP s)) (sG s) /\
  all_live (sL s) (fun _ p => in_dom (pG (sP s)) (px p)) /\ shut (sP s) /\ counted (sL s) /\
  (forall ph p, In ph (sL s) -> In p (ph_pts ph) -> all_sym p) /\ no_rub (pB (sP s)) /\ 0 <= p_Mtol (sP s) /\
  time_march uf fill s = Ok s' /\ has_bottom (pB (sP s)) = true /\ xy (pstress (T := R) ex_p1) = 2.
Proof. exact ex_energy. Qed.
Example x_C61_energy_balance : forall uf fill, exists s s' : state R, proper (pG (sP s)) /\ grid_ok (pG (sP s)) (sG s) /\
  all_live (sL s) (fun _ p => in_dom (pG (sP s)) (px p)) /\ shut (sP s) /\ counted (sL s) /\
  (forall ph p, In ph (sL s) -> In p (ph_pts ph) -> all_sym p) /\ no_rub (pB (sP s)) /\ 0 <= p_Mtol (sP s) /\
  time_march uf fill s = Ok s' /\ has_bottom (pB (sP s)) = true /\ xy (pstress (T := R) ex_p1) = 2.
Proof. exact ex_energy. Qed.
