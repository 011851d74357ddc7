(** * Mapping between particles and grid: C01-C07. *)
From Coq Require Import ZArith Reals List Bool Arith Lra Lia.
From Verif Require Import State NumR Spec LibList LibR ModelGrid ModelConstit ModelParticle ModelMPList
  ProofsGrid ProofsMap ProofsP2G Concrete.
Import ListNotations.
Local Open Scope R_scope.

(** Weights and gradients of a cell of size [dx] by [dy] at local position [x]. *)
Lemma p_C01_shape_functions : forall dx dy x, dx <> 0 -> dy <> 0 ->
  let N := fun r => nth r (fst (shape dx dy x)) 0 in
  let Gd := fun r => nth r (snd (shape dx dy x)) v0 in
  length (fst (shape dx dy x)) = 4%nat /\ length (snd (shape dx dy x)) = 4%nat /\
  fsum 4 N = 1 /\ (forall a, fsum 4 (fun r => comp a (Gd r)) = 0) /\
  fsum 4 (fun r => N r * fst (corner dx dy r)) = vx x /\
  fsum 4 (fun r => N r * snd (corner dx dy r)) = vy x /\
  fsum 4 (fun r => vx (Gd r) * fst (corner dx dy r)) = 1 /\
  fsum 4 (fun r => vx (Gd r) * snd (corner dx dy r)) = 0 /\
  fsum 4 (fun r => vy (Gd r) * fst (corner dx dy r)) = 0 /\
  fsum 4 (fun r => vy (Gd r) * snd (corner dx dy r)) = 1.
Proof.
  intros dx dy x Hx Hy N Gd.
  destruct (shape_position dx dy x Hx Hy) as [A B].
  destruct (shape_grad_id dx dy x Hx Hy) as (C & D & E & F).
  repeat split; auto.
  - exact (shape_unity dx dy x Hx Hy).
  - exact (fun a => shape_grad_zero dx dy x a Hx Hy).
Qed.

Lemma p_C01_corners : forall dx dy r s z, dx <> 0 -> dy <> 0 -> (r < 4)%nat -> (s < 4)%nat ->
  nth s (fst (shape dx dy (mkV3 (fst (corner dx dy r)) (snd (corner dx dy r)) z))) 0 =
  if Nat.eqb r s then 1 else 0.
Proof. intros. apply shape_kronecker; auto. Qed.

Lemma p_C01_bounds : forall dx dy x r, 0 < dx -> 0 < dy ->
  0 <= vx x <= dx -> 0 <= vy x <= dy -> 0 <= nth r (fst (shape dx dy x)) 0 <= 1.
Proof. intros. apply shape_bounds; auto. Qed.

(** Inside the cell the weights are the tent functions of the corners, and the
    gradient of each weight is the derivative of the weight. *)
Lemma p_C01_tents : forall dx dy x r, 0 < dx -> 0 < dy ->
  0 <= vx x <= dx -> 0 <= vy x <= dy -> (r < 4)%nat ->
  nth r (fst (shape dx dy x)) 0 =
    tent ((vx x - fst (corner dx dy r)) / dx) * tent ((vy x - snd (corner dx dy r)) / dy).
Proof. intros. apply shape_tent; auto. Qed.

Lemma p_C01_gradients : forall dx dy x y z h r, dx <> 0 -> dy <> 0 ->
  nth r (fst (shape dx dy (mkV3 (x + h) y z))) 0 - nth r (fst (shape dx dy (mkV3 x y z))) 0 =
    h * vx (nth r (snd (shape dx dy (mkV3 x y z))) v0) /\
  nth r (fst (shape dx dy (mkV3 x (y + h) z))) 0 - nth r (fst (shape dx dy (mkV3 x y z))) 0 =
    h * vy (nth r (snd (shape dx dy (mkV3 x y z))) v0) /\
  vz (nth r (snd (shape dx dy (mkV3 x y z))) v0) = 0.
Proof.
  intros dx dy x y z h r Hx Hy.
  do 4 (destruct r as [|r]; [cbn; split; [|split]; field; auto|]).
  cbn. destruct r; cbn; repeat split; lra.
Qed.

Example x_C01_shape_functions :
  nth 2 (fst (shape 1 2 (mkV3 (1/2) (1/2) 0))) 0 = 1/8 /\ (1:R) <> 0 /\ (2:R) <> 0.
Proof. cbn. repeat split; lra. Qed.

(** ** C02 *)
Lemma p_C02_reference_node : forall P G p,
  proper (pG P) -> grid_ok (pG P) G -> in_dom (pG P) (px p) ->
  exists n, get_reference_node P G p = Ok (p <| pnstar := Z.of_nat n |>) /\
    (n < nodes (pG P))%nat /\
    node_x (pG P) n <= vx (px p) < node_x (pG P) n + cell_w (pG P) /\
    node_y (pG P) n <= vy (px p) < node_y (pG P) n + cell_h (pG P) /\
    exists c : nat -> nat,
      (forall r, (r < 4)%nat ->
        nearby (Z.of_nat n) r (nx (pG P)) = Z.of_nat (c r) /\ (c r < nodes (pG P))%nat /\
        node_x (pG P) (c r) = node_x (pG P) n + fst (corner (cell_w (pG P)) (cell_h (pG P)) r) /\
        node_y (pG P) (c r) = node_y (pG P) n + snd (corner (cell_w (pG P)) (cell_h (pG P)) r)) /\
      (forall r s, (r < 4)%nat -> (s < 4)%nat -> c r = c s -> r = s).
Proof.
  intros P G p HP HG HD. exists (cell_node (pG P) (px p)).
  split; [apply ref_node_spec; auto|].
  destruct (corner_colrow _ HP _ 0 HD ltac:(lia)) as (H0 & _).
  split; [exact H0|].
  pose proof (loc_bounds _ HP _ HD) as [B1 B2]. unfold loc in B1, B2. cbn in B1, B2.
  split; [lra|]. split; [lra|].
  exists (corner_node (pG P) (cell_node (pG P) (px p))). split.
  - intros r Hr. split; [apply nearby_corner; auto|].
    split; [apply corner_colrow; auto|]. apply corner_xy; auto.
  - intros r s Hr Hs. eapply corner_inj; eauto.
Qed.

(** The constructor produces such a grid, and discarding the fields keeps it. *)
Lemma p_C02_grid_constructed : forall P B, proper P ->
  exists G, grid_init P B = Ok G /\ grid_ok P G /\ forall Q, grid_ok P (wipe Q G).
Proof.
  intros P B HP. destruct (grid_init_ok P B HP) as (G & H & OK).
  exists G. split; [auto|]. split; [auto|]. intros Q. apply wipe_ok; auto.
Qed.

Lemma ex_proper : proper (ex_gridp (T := R)).
Proof. repeat split; cbn; try lia; lra. Qed.
Lemma ex_dom l : all_live (ex_L l) (fun _ p => in_dom ex_gridp (px p)).
Proof.
  intros ph p [<-|[]] Hp. cbn in Hp. destruct Hp as [<-|[<-|[]]]; cbn;
  unfold in_dom, lit, nhalf, lit; cbn; lra.
Qed.
Lemma ex_enough l : enough (ex_L (T := R) l).
Proof. intros ph [<-|[]]. cbn. lia. Qed.

Example x_C02_reference_node :
  proper (pG (ex_params (T := R) ex_bounds)) /\ in_dom (pG (ex_params ex_bounds)) (px ex_p2) /\
  exists G, grid_init ex_gridp ex_bounds = Ok G /\ grid_ok (pG (ex_params ex_bounds)) G.
Proof.
  split; [exact ex_proper|]. split.
  - apply (ex_dom Elastic (ex_phase Elastic)); cbn; auto.
  - apply grid_init_ok. exact ex_proper.
Qed.

(** ** C03 *)
Lemma recover_located P G p : proper (pG P) -> grid_ok (pG P) G -> located (pG P) p ->
  recover_position P G p = Ok (mkV3 (vx (px p)) (vy (px p)) 0).
Proof.
  intros HP HG HL. pose proof HL as (HD & EN & _).
  assert (GX : forall r, (r < 4)%nat ->
    py_get (gX G) (nearby (pnstar p) r (nx (pG P))) =
      Ok (node_x (pG P) (cell_node (pG P) (px p)) + fst (corner (cell_w (pG P)) (cell_h (pG P)) r)) /\
    py_get (gY G) (nearby (pnstar p) r (nx (pG P))) =
      Ok (node_y (pG P) (cell_node (pG P) (px p)) + snd (corner (cell_w (pG P)) (cell_h (pG P)) r))).
  { intros r Hr. destruct (corner_colrow _ HP _ r HD Hr) as (Hc & _).
    destruct (corner_xy _ HP _ r HD Hr) as [C1 C2]. rewrite EN.
    rewrite (py_get_some (gX G) _ (corner_node (pG P) (cell_node (pG P) (px p)) r) 0)
      by (rewrite (go_Xlen _ _ HG); apply corner_in_range; auto).
    rewrite (py_get_some (gY G) _ (corner_node (pG P) (cell_node (pG P) (px p)) r) 0)
      by (rewrite (go_Ylen _ _ HG); apply corner_in_range; auto).
    rewrite (go_X _ _ HG), (go_Y _ _ HG) by auto. rewrite C1, C2. auto. }
  unfold recover_position, four. cbn [foldM].
  destruct (GX 0%nat) as [-> ->]; [lia|]. destruct (GX 1%nat) as [-> ->]; [lia|].
  destruct (GX 2%nat) as [-> ->]; [lia|]. destruct (GX 3%nat) as [-> ->]; [lia|].
  cbn [bind]. f_equal. rewrite !(located_N _ _ _ HL).
  pose proof (cell_w_pos _ HP). pose proof (cell_h_pos _ HP).
  unfold loc, wN. apply v3_ext; intros []; cbn; field; lra.
Qed.

Lemma p_C03_recover_position : forall P G p p1 p2,
  proper (pG P) -> grid_ok (pG P) G -> in_dom (pG P) (px p) ->
  get_reference_node P G p = Ok p1 -> get_basis_functions G p1 = Ok p2 ->
  recover_position P G p2 = Ok (mkV3 (vx (px p)) (vy (px p)) 0).
Proof.
  intros P G p p1 p2 HP HG HD H1 H2.
  rewrite (ref_node_spec _ HP _ HG P p eq_refl HD) in H1. inv H1.
  rewrite (basis_spec _ HP _ HG) in H2 by auto. inv H2.
  erewrite recover_located; eauto.
  unfold located. cbn. auto.
Qed.

Lemma p_C03_check_never_fires : forall P G L L1 L2,
  proper (pG P) -> grid_ok (pG P) G ->
  all_live L (fun _ p => in_dom (pG P) (px p) /\ vz (px p) = 0) -> enough L ->
  ref_nodes P G L = Ok L1 -> basis_all G L1 = Ok L2 ->
  check_positions P G L2 = Ok tt.
Proof.
  intros P G L L1 L2 HP HG HD He H1 H2.
  assert (HD' : all_live L (fun _ p => in_dom (pG P) (px p))) by (intros ph p A B; apply (HD ph p A B)).
  pose proof (locate_loops P G L L1 L2 HP HG HD' H1 H2) as HR.
  assert (HL2 : all_live L2 (fun _ p => located (pG P) p /\ vz (px p) = 0)).
  { eapply Lrel_all_live; [exact HR| |exact HD]. cbv beta. intros ph p ph' p' _ _ _ _ _ -> [A B].
    split; [apply locate_located; auto | exact B]. }
  unfold check_positions.
  destruct (points_r_total (fun _ _ p (_ : unit) =>
      x <- recover_position P G p ;;
      let d := vmap nabs (vsub x (px p)) in
      if (lit 1 (10 ^ 10) <? pymax (pymax (vx d) (vy d)) (vz d))%num then Err TypeError
      else Ok tt) (fun _ => True) L2 tt) as ([] & E & _); auto.
  - eapply Lrel_enough; eauto.
  - intros k ph p [] Hin Hp _. destruct (HL2 _ _ Hin Hp) as [Hl Hz].
    rewrite (recover_located P G p HP HG Hl). cbn [bind]. exists tt. split; [|auto].
    cbn. rewrite Hz. unR.
    replace (vx (px p) - vx (px p)) with 0 by lra. replace (vy (px p) - vy (px p)) with 0 by lra.
    replace (0 - 0) with 0 by lra. rewrite Rabs_R0. unfold pymax. cbn.
    rewrite (proj2 (Rltb_false 0 0)) by lra. rewrite (proj2 (Rltb_false 0 0)) by lra.
    rewrite (proj2 (Rltb_false _ _)); auto. unfold lit. cbn. lra.
Qed.

Example x_C03_check_never_fires : exists G L1 L2,
  grid_ok (pG (ex_params (T := R) ex_bounds)) G /\
  all_live (ex_L Elastic) (fun _ p => in_dom (pG (ex_params ex_bounds)) (px p) /\ vz (px p) = 0) /\
  enough (ex_L (T := R) Elastic) /\
  ref_nodes (ex_params ex_bounds) G (ex_L Elastic) = Ok L1 /\ basis_all G L1 = Ok L2.
Proof.
  destruct (grid_init_ok (ex_gridp (T := R)) ex_bounds ex_proper) as (G & _ & HG).
  destruct (locate_total (ex_params ex_bounds) G (ex_L Elastic) ex_proper HG (ex_enough _) (ex_dom _))
    as (L1 & L2 & H1 & H2).
  exists G, L1, L2. split; [auto|]. split; [|split; [apply ex_enough|auto]].
  intros ph p A B. split; [apply (ex_dom Elastic ph p A B)|].
  destruct A as [<-|[]]. destruct B as [<-|[<-|[]]]; reflexivity.
Qed.

(** ** C04 *)
Lemma p_C04_nodal_mass : forall P G L L1 L2 G',
  proper (pG P) -> grid_ok (pG P) G -> all_live L (fun _ p => in_dom (pG P) (px p)) ->
  ref_nodes P (wipe P G) L = Ok L1 -> basis_all (wipe P G) L1 = Ok L2 ->
  p2g_all P L2 (wipe P G) = Ok G' ->
  length (gm G') = nodes (pG P) /\
  forall k, (k < nodes (pG P))%nat ->
    nth k (gm G') 0 =
    psum L (fun _ p => pm p * (tent ((vx (px p) - node_x (pG P) k) / cell_w (pG P)) *
                               tent ((vy (px p) - node_y (pG P) k) / cell_h (pG P)))).
Proof.
  intros P G L L1 L2 G' HP HG HD H1 H2 H3.
  pose proof (wipe_ok P G _ HG) as HGw.
  pose proof (locate_loops P _ L L1 L2 HP HGw HD H1 H2) as HR.
  destruct (p2g_all_mass P L2 _ G' (wipe_lens P G) H3) as (Hl & _ & M).
  split; [exact Hl|]. intros k Hk. rewrite M, wipe_m, Rplus_0_l. symmetry.
  apply (Lrel_psum _ _ _ _ _ HR). cbv beta.
  intros ph p ph' p' Hin Hp _ _ _ ->.
  rewrite (wt_hat P _ k HP (locate_located _ _ (HD _ _ Hin Hp))). reflexivity.
Qed.

(** The mapping always succeeds for particles in the domain. *)
Lemma p_C04_mapping_total : forall P G L,
  proper (pG P) -> grid_ok (pG P) G -> all_live L (fun _ p => in_dom (pG P) (px p)) ->
  enough L ->
  all_live L (fun _ p => p_seg P = true -> length (pphi p) = ns (pG P)) ->
  exists L1 L2 G', ref_nodes P (wipe P G) L = Ok L1 /\ basis_all (wipe P G) L1 = Ok L2 /\
    p2g_all P L2 (wipe P G) = Ok G'.
Proof.
  intros P G L HP HG HD He Hphi.
  pose proof (wipe_ok P G _ HG) as HGw.
  destruct (locate_total P _ L HP HGw He HD) as (L1 & L2 & H1 & H2).
  pose proof (locate_loops P _ L L1 L2 HP HGw HD H1 H2) as HR.
  destruct (p2g_all_total P L2 (wipe P G) (wipe_lens P G) (wipe_seg P G)) as [G' H3].
  - eapply Lrel_enough; eauto.
  - eapply (Lrel_all_live _ _ _ (fun _ p => in_dom (pG P) (px p) /\ (p_seg P = true -> length (pphi p) = ns (pG P)))).
    + exact HR.
    + cbv beta. intros ph p ph' p' _ _ _ _ _ -> [A B]. split; [|exact B].
      apply located_reaches; auto. apply locate_located; auto.
    + intros ph p A B. split; [apply HD with ph|apply Hphi with ph]; auto.
  - exists L1, L2, G'. auto.
Qed.

Lemma ex_phi B l : all_live (ex_L (T := R) l) (fun _ p => p_seg (ex_params B) = true -> length (pphi p) = ns (pG (ex_params (T := R) B))).
Proof. intros ph p A C. cbn. discriminate. Qed.

Example x_C04_nodal_mass : exists G L1 L2 G',
  proper (pG (ex_params (T := R) ex_bounds)) /\ grid_ok (pG (ex_params ex_bounds)) G /\
  all_live (ex_L Elastic) (fun _ p => in_dom (pG (ex_params ex_bounds)) (px p)) /\
  ref_nodes (ex_params ex_bounds) (wipe (ex_params ex_bounds) G) (ex_L Elastic) = Ok L1 /\
  basis_all (wipe (ex_params ex_bounds) G) L1 = Ok L2 /\
  p2g_all (ex_params ex_bounds) L2 (wipe (ex_params ex_bounds) G) = Ok G' /\
  nth 5 (gm G') 0 = 5/4.
Proof.
  destruct (grid_init_ok (ex_gridp (T := R)) ex_bounds ex_proper) as (G & _ & HG).
  destruct (p_C04_mapping_total (ex_params ex_bounds) G (ex_L Elastic) ex_proper HG (ex_dom _) (ex_enough _) (ex_phi _ _))
    as (L1 & L2 & G' & H1 & H2 & H3).
  exists G, L1, L2, G'. split; [exact ex_proper|]. split; [exact HG|]. split; [apply ex_dom|].
  split; [auto|]. split; [auto|]. split; [auto|].
  destruct (p_C04_nodal_mass (ex_params ex_bounds) G (ex_L Elastic) L1 L2 G' ex_proper HG (ex_dom _) H1 H2 H3) as [_ M].
  rewrite M by (cbn; lia). unfold psum, live. cbn.
  unfold node_x, node_y, cell_w, cell_h, col, row, nhalf, lit, n2, n3. cbn.
  repeat match goal with |- context [tent ?t] =>
    first [ rewrite (tent_left t) by lra | rewrite (tent_right t) by lra | rewrite (tent_far t) by lra ] end.
  lra.
Qed.

(** ** C05 *)
Lemma reaches_unity P G L L1 G0 G' : gdx G <> 0 -> gdy G <> 0 -> basis_all G L = Ok L1 ->
  p2g_lens P G0 -> p2g_all P L1 G0 = Ok G' ->
  all_live L1 (fun _ p => reaches P p /\ fsum 4 (Nr p) = 1).
Proof.
  intros Hx Hy H1 HL H2 ph p Hin Hp.
  destruct (p2g_all_mass _ _ _ _ HL H2) as (_ & Re & _).
  split; [apply (Re ph p Hin Hp) | apply (basis_all_unity _ _ _ Hx Hy H1 ph p Hin Hp)].
Qed.
Lemma fsum_at_ext n f g : (forall k, (k < n)%nat -> f k = g k) -> fsum n f = fsum n g.
Proof. apply fsum_ext. Qed.

Lemma p_C05_mass_conserved : forall P G L L1 G',
  gdx G <> 0 -> gdy G <> 0 ->
  basis_all (wipe P G) L = Ok L1 -> p2g_all P L1 (wipe P G) = Ok G' ->
  length (gm G') = nodes (pG P) /\
  fsum (nodes (pG P)) (fun k => nth k (gm G') 0) = psum L (fun _ p => pm p).
Proof.
  intros P G L L1 G' Hx Hy H1 H2.
  destruct (wipe_geo P G) as (E1 & E2 & _).
  assert (HU : all_live L1 (fun _ p => reaches P p /\ fsum 4 (Nr p) = 1)).
  { eapply reaches_unity; try exact H1; try exact H2; try apply wipe_lens; congruence. }
  destruct (p2g_all_mass _ _ _ _ (wipe_lens P G) H2) as (Hl & _ & M). split; [exact Hl|].
  rewrite (fsum_ext _ _ (mass_at P L1)) by (intros; rewrite M, wipe_m; lra).
  rewrite (mass_total P L1 HU). symmetry.
  apply (Lrel_psum _ _ _ _ _ (basis_rel _ _ _ H1)). intros ph p ph' p' _ _ _ _ _ R. rewrite R. reflexivity.
Qed.

(** Momentum at a node: what the particles bring, except for the components
    removed by the wall conditions; without wall masks the total is conserved. *)
Lemma p_C05_momentum_conserved : forall P G L L1 G' a,
  gdx G <> 0 -> gdy G <> 0 ->
  length (bv G) = nodes (pG P) -> length (bh G) = nodes (pG P) -> wall_free (bv G) (bh G) ->
  basis_all (wipe P G) L = Ok L1 -> p2g_all P L1 (wipe P G) = Ok G' ->
  fsum (nodes (pG P)) (fun k => comp a (nth k (gq G') v0)) =
  psum L (fun ph p => pm p * comp a (velocity ph p)).
Proof.
  intros P G L L1 G' a Hx Hy Lv Lh WF H1 H2.
  destruct (wipe_geo P G) as (E1 & E2 & _ & _ & _ & Ev & Eh & _).
  assert (HU : all_live L1 (fun _ p => reaches P p /\ fsum 4 (Nr p) = 1)).
  { eapply reaches_unity; try exact H1; try exact H2; try apply wipe_lens; congruence. }
  destruct (p2g_all_mom P L1 _ G' (wipe_lens P G)) as [_ M]; [congruence|congruence|exact H2|].
  rewrite (fsum_ext _ _ (mom_at P L1 a)).
  - rewrite (mom_total P L1 a HU). symmetry.
    apply (Lrel_psum _ _ _ _ _ (basis_rel _ _ _ H1)). intros ph p ph' p' _ _ _ _ Esv R.
    rewrite R. unfold velocity. cbn. rewrite Esv. reflexivity.
  - intros k Hk. rewrite M, wipe_q, comp_v0, Ev, Eh. destruct (WF k) as [W1 W2].
    destruct a; cbn [open_a]; unfold open_x, open_y; rewrite ?W1, ?W2, ?andb_false_r; cbn; lra.
Qed.

(** With walls: the component along [a] at node [k] is the one without walls,
    or zero if the wall conditions remove it (mplist.py:147-151). *)
Lemma p_C05_momentum_with_walls : forall P G Gfree L G' Gf' a k,
  length (bv G) = nodes (pG P) -> length (bh G) = nodes (pG P) ->
  length (bv Gfree) = nodes (pG P) -> length (bh Gfree) = nodes (pG P) ->
  wall_free (bv Gfree) (bh Gfree) ->
  p2g_all P L (wipe P G) = Ok G' -> p2g_all P L (wipe P Gfree) = Ok Gf' ->
  comp a (nth k (gq G') v0) =
  if removed a (roughness (pB P)) (nth k (bv G) false) (nth k (bh G) false) then 0
  else comp a (nth k (gq Gf') v0).
Proof.
  intros P G Gf L G' Gf' a k Lv Lh Lv2 Lh2 WF H1 H2.
  destruct (wipe_geo P G) as (_ & _ & _ & _ & _ & Ev & Eh & _).
  destruct (wipe_geo P Gf) as (_ & _ & _ & _ & _ & Ev2 & Eh2 & _).
  destruct (p2g_all_mom P L _ G' (wipe_lens P G)) as [_ M]; [congruence|congruence|exact H1|].
  destruct (p2g_all_mom P L _ Gf' (wipe_lens P Gf)) as [_ M2]; [congruence|congruence|exact H2|].
  rewrite M, M2, !wipe_q, Ev, Eh, Ev2, Eh2. destruct (WF k) as [W1 W2].
  destruct a; cbn [open_a removed]; unfold open_x, open_y; rewrite ?W1, ?W2, ?andb_false_r; cbn;
  repeat match goal with |- context [if ?b then _ else _] => destruct b end; lra.
Qed.

Example x_C05_mass_conserved : exists G L1 G',
  gdx G <> 0 /\ gdy G <> 0 /\
  length (bv G) = nodes (pG (ex_params (T := R) ex_bounds)) /\
  length (bh G) = nodes (pG (ex_params (T := R) ex_bounds)) /\ wall_free (bv G) (bh G) /\
  basis_all (wipe (ex_params ex_bounds) G) (ex_L Elastic) = Ok L1 /\
  p2g_all (ex_params ex_bounds) L1 (wipe (ex_params ex_bounds) G) = Ok G'.
Proof.
  destruct (grid_init_ok (ex_gridp (T := R)) ex_bounds ex_proper) as (G & HI & HG).
  pose proof (wipe_ok (ex_params ex_bounds) G _ HG) as HGw.
  assert (HB : exists L1, basis_all (wipe (ex_params ex_bounds) G) (ex_L Elastic) = Ok L1).
  { apply points__total; [apply ex_enough|]. intros k ph p [<-|[]] Hp.
    assert (E : pnstar p = Z.of_nat 0) by (destruct Hp as [<-|[<-|[]]]; reflexivity).
    unfold get_basis_functions. rewrite E.
    rewrite (py_get_some _ _ 0%nat 0) by (apply pyi_nonneg; rewrite (go_Xlen _ _ HGw); cbn; lia).
    rewrite (py_get_some _ _ 0%nat 0) by (apply pyi_nonneg; rewrite (go_Ylen _ _ HGw); cbn; lia).
    cbn [bind]. destruct (shape _ _ _). eauto. }
  destruct HB as [L1 HB].
  destruct (p2g_all_total (ex_params ex_bounds) L1 (wipe (ex_params ex_bounds) G) (wipe_lens _ _) (wipe_seg _ _)) as [G' H3].
  - eapply Lrel_enough; [exact (basis_rel _ _ _ HB)|apply ex_enough].
  - eapply (Lrel_all_live _ _ _ (fun _ p => pnstar p = 0%Z)).
    + exact (basis_rel _ _ _ HB).
    + intros ph p ph' p' _ _ _ _ _ R E. split; [|discriminate].
      intros r Hr. rewrite R. cbn. rewrite E. exists (corner_node ex_gridp 0 r).
      do 4 (destruct r as [|r]; [reflexivity|]). lia.
    + intros ph p [<-|[]] Hp. destruct Hp as [<-|[<-|[]]]; reflexivity.
  - exists G, L1, G'.
    pose proof (cell_w_pos _ ex_proper). pose proof (cell_h_pos _ ex_proper).
    rewrite (go_dx _ _ HG), (go_dy _ _ HG).
    split; [lra|]. split; [lra|]. split; [apply (go_bv _ _ HG)|]. split; [apply (go_bh _ _ HG)|].
    split; [|split; [exact HB|exact H3]].
    unfold grid_init in HI. pbinds HI. injection HI as <-. cbn [bv bh].
    intros k. unfold boundary_v, boundary_h, mark. cbn.
    do 12 (destruct k as [|k]; [split; reflexivity|]). destruct k; split; reflexivity.
Qed.

(** ** C06 *)
Lemma p_C06_resultants : forall P G L L1 G0 G' a,
  gdx G <> 0 -> gdy G <> 0 -> cyclic_lr (pB P) = false ->
  basis_all G L = Ok L1 -> forces_all P L1 (wipe P G0) = Ok G' ->
  length (gfi G') = nodes (pG P) /\ length (gfe G') = nodes (pG P) /\
  fsum (nodes (pG P)) (fun k => comp a (nth k (gfi G') v0)) = 0 /\
  fsum (nodes (pG P)) (fun k => comp a (nth k (gfe G') v0)) = psum L (fun _ p => pm p * comp a (pb p)).
Proof.
  intros P G L L1 G0 G' a Hx Hy Hc H1 H2. unfold forces_all in H2. pbinds H2.
  rewrite Hc in H2. injection H2 as <-.
  assert (HF : f_lens P (wipe P G0)) by (split; rewrite ?wipe_fi, ?wipe_fe; apply repeat_length).
  destruct (force_loop_spec P L1 _ _ HF E) as (_ & (Li & Le) & MI & ME).
  pose proof (force_loop_reaches P L1 _ _ HF E) as Re.
  pose proof (basis_all_unity _ _ _ Hx Hy H1) as U.
  split; [auto|]. split; [auto|]. split.
  - rewrite (fsum_ext _ _ (fun k => psum L1 (fun _ p => fint_at P p a k))).
    2: { intros k Hk. rewrite MI, wipe_fi, nth_repeat_same, comp_v0. lra. }
    rewrite (psum_swap _ L1 (fun k _ p => fint_at P p a k)).
    apply psum_zero. intros ph p Hin Hp. apply fint_total; [apply (Re ph p Hin Hp)|].
    apply (U ph p Hin Hp).
  - rewrite (fsum_ext _ _ (fun k => psum L1 (fun _ p => pm p * wt P p k * comp a (pb p)))).
    2: { intros k Hk. rewrite ME, wipe_fe, nth_repeat_same, comp_v0. lra. }
    rewrite (psum_swap _ L1 (fun k _ p => pm p * wt P p k * comp a (pb p))).
    symmetry. apply (Lrel_psum (fun _ p p' => p' = p <| pN := pN p' |> <| pGr := pGr p' |> /\ reaches P p' /\ fsum 4 (Nr p') = 1) L L1).
    + pose proof (basis_rel _ _ _ H1) as HR. clear - HR Re U.
      unfold Lrel, all_live, rebasis in *.
      induction HR as [|ph ph' L L1 (E1 & E2 & E3 & F & Ln) HR IH]; constructor.
      * split; [auto|]. split; [auto|]. split; [auto|]. split; [|auto].
        assert (A : forall p, In p (live ph') -> reaches P p /\ fsum 4 (Nr p) = 1).
        { intros p Hp. split; [apply (Re ph' p); simpl; auto|apply (U ph' p); simpl; auto]. }
        revert A F. generalize (live ph') (live ph). clear.
        intros l' l A F. induction F; constructor; simpl in *; auto.
      * apply IH; intros; [apply (Re ph0 p)|apply (U ph0 p)]; simpl; auto.
    + intros ph p ph' p' Hin Hp _ _ _ (R & Rp & Up).
      rewrite fsum_scal_r, fsum_scal. unfold wt. rewrite (reaches_sum P p' (Nr p') Rp), Up.
      rewrite R. cbn. lra.
Qed.

(** A state with every step of the mapping successful, for the examples. *)
Lemma ex_forces B l : exists G L1 L2 G0 G',
  grid_init ex_gridp B = Ok G /\ grid_ok ex_gridp G /\
  ref_nodes (ex_params B) G (ex_L (T := R) l) = Ok L1 /\ basis_all G L1 = Ok L2 /\
  G0 = wipe (ex_params B) G /\
  (cyclic_lr B = false -> forces_all (ex_params B) L2 G0 = Ok G') /\
  Lrel (fun _ p p' => p' = locate ex_gridp p) (ex_L l) L2.
Proof.
  destruct (grid_init_ok (ex_gridp (T := R)) B ex_proper) as (G & HI & HG).
  destruct (locate_total (ex_params B) G (ex_L l) ex_proper HG (ex_enough _) (ex_dom _))
    as (L1 & L2 & H1 & H2).
  pose proof (locate_loops (ex_params B) G (ex_L l) L1 L2 ex_proper HG (ex_dom _) H1 H2) as HR.
  destruct (points_r_total (fun _ _ p G => nodal_forces (ex_params B) p G) (f_lens (ex_params B)) L2
              (wipe (ex_params B) G)) as (G' & E & _).
  - eapply Lrel_enough; [exact HR|apply ex_enough].
  - split; rewrite ?wipe_fi, ?wipe_fe; apply repeat_length.
  - intros k ph p s Hin Hp Hs.
    assert (Re : reaches (ex_params B) p).
    { assert (A : all_live L2 (fun _ p => reaches (ex_params B) p)).
      { eapply (Lrel_all_live _ _ _ _ _ HR); [|apply (ex_dom l)].
        cbv beta. intros ? ? ? ? _ _ _ _ _ -> HD. apply located_reaches; [exact ex_proper|].
        apply locate_located; exact HD. }
      apply (A ph p Hin Hp). }
    destruct (four_total (ex_params B) (pnstar p)
      (fun G r n =>
         fi <- py_upd (gfi G) n (fun a => vadd a (vscale (pV p) (mv (pstress p) (Gr p r)))) ;;
         fe <- py_upd (gfe G) n (fun a => vadd a (vscale (Nr p r * pm p) (pb p))) ;;
         Ok (G <| gfi := fi |> <| gfe := fe |>)) (f_lens (ex_params B)) s Hs) as (s' & E & I).
    + intros r t Hr (I1 & I2). destruct (Re r Hr) as [c Hc].
      rewrite (py_upd_some _ _ c) by (rewrite I1; exact Hc). cbn [bind].
      rewrite (py_upd_some _ _ c) by (rewrite I2; exact Hc). cbn [bind].
      eexists. split; [reflexivity|]. split; cbn; rewrite upd_length; auto.
    + exists s'. split; [exact E|exact I].
  - exists G, L1, L2, (wipe (ex_params B) G), G'. do 5 (split; [auto|]). split; [|exact HR].
    intros Hc. unfold forces_all. rewrite E. cbn [bind pB ex_params]. rewrite Hc. reflexivity.
Qed.

Example x_C06_resultants : exists G L1 L2 G',
  gdx G <> 0 /\ gdy G <> 0 /\ cyclic_lr (pB (ex_params (T := R) ex_bounds)) = false /\
  ref_nodes (ex_params ex_bounds) G (ex_L Elastic) = Ok L1 /\
  basis_all G L1 = Ok L2 /\ forces_all (ex_params ex_bounds) L2 (wipe (ex_params ex_bounds) G) = Ok G'.
Proof.
  destruct (ex_forces ex_bounds Elastic) as (G & L1 & L2 & G0 & G' & _ & HG & H1 & H2 & -> & H3 & _).
  exists G, L1, L2, G'. pose proof (cell_w_pos _ ex_proper). pose proof (cell_h_pos _ ex_proper).
  rewrite (go_dx _ _ HG), (go_dy _ _ HG). repeat split; auto; lra.
Qed.

(** ** C07 *)
Lemma p_C07_no_torque : forall P G L L1 L2 G0 G',
  proper (pG P) -> grid_ok (pG P) G -> cyclic_lr (pB P) = false ->
  all_live L (fun _ p => in_dom (pG P) (px p) /\ symmetric (pstress p)) ->
  ref_nodes P G L = Ok L1 -> basis_all G L1 = Ok L2 -> forces_all P L2 (wipe P G0) = Ok G' ->
  fsum (nodes (pG P)) (fun k => node_x (pG P) k * vy (nth k (gfi G') v0)
                              - node_y (pG P) k * vx (nth k (gfi G') v0)) = 0.
Proof.
  intros P G L L1 L2 G0 G' HP HG Hc HD H1 H2 H3.
  assert (HD' : all_live L (fun _ p => in_dom (pG P) (px p))) by (intros ph p A B; apply (HD ph p A B)).
  pose proof (locate_loops P G L L1 L2 HP HG HD' H1 H2) as HR.
  assert (HL2 : all_live L2 (fun _ p => located (pG P) p /\ symmetric (pstress p))).
  { eapply Lrel_all_live; [exact HR| |exact HD]. cbv beta. intros ph p ph' p' _ _ _ _ _ -> [A B].
    split; [apply locate_located; auto | exact B]. }
  unfold forces_all in H3. pbinds H3. rewrite Hc in H3. injection H3 as <-.
  assert (HF : f_lens P (wipe P G0)) by (split; rewrite ?wipe_fi, ?wipe_fe; apply repeat_length).
  destruct (force_loop_spec P L2 _ _ HF E) as (_ & _ & MI & _).
  rewrite (fsum_ext _ _ (fun k => psum L2 (fun _ p => node_x (pG P) k * fint_at P p AY k
                                                   - node_y (pG P) k * fint_at P p AX k))).
  2: { intros k Hk. pose proof (MI AX k) as MX. pose proof (MI AY k) as MY.
       rewrite wipe_fi, nth_repeat_same, comp_v0 in MX, MY. cbn [comp] in MX, MY.
       rewrite MX, MY, !Rplus_0_l. unfold Rminus.
       rewrite psum_plus, psum_scal.
       rewrite (psum_ext L2 (fun _ p => - (node_y (pG P) k * fint_at P p AX k))
                            (fun _ p => (- node_y (pG P) k) * fint_at P p AX k)) by (intros ? ? ? ?; lra).
       rewrite psum_scal. lra. }
  rewrite (psum_swap _ L2 (fun k _ p => node_x (pG P) k * fint_at P p AY k - node_y (pG P) k * fint_at P p AX k)).
  apply psum_zero. intros ph p Hin Hp. destruct (HL2 ph p Hin Hp) as [Hl (Sy & _)].
  rewrite fsum_minus.
  destruct (fint_moment P p AY HP Hl) as [M1 _]. destruct (fint_moment P p AX HP Hl) as [_ M2].
  rewrite M1, M2. cbn [comp vx vy]. rewrite Sy. lra.
Qed.

(** The moment is the skew part of the stress, so the hypothesis is needed. *)
Lemma p_C07_torque_exact : forall P G L L1 L2 G0 G',
  proper (pG P) -> grid_ok (pG P) G -> cyclic_lr (pB P) = false ->
  all_live L (fun _ p => in_dom (pG P) (px p)) ->
  ref_nodes P G L = Ok L1 -> basis_all G L1 = Ok L2 -> forces_all P L2 (wipe P G0) = Ok G' ->
  fsum (nodes (pG P)) (fun k => node_x (pG P) k * vy (nth k (gfi G') v0)
                              - node_y (pG P) k * vx (nth k (gfi G') v0)) =
  psum L (fun _ p => pV p * (yx (pstress p) - xy (pstress p))).
Proof.
  intros P G L L1 L2 G0 G' HP HG Hc HD H1 H2 H3.
  pose proof (locate_loops P G L L1 L2 HP HG HD H1 H2) as HR.
  assert (HL2 : all_live L2 (fun _ p => located (pG P) p)).
  { eapply Lrel_all_live; [exact HR| |exact HD]. cbv beta. intros ph p ph' p' _ _ _ _ _ -> A.
    apply locate_located; auto. }
  unfold forces_all in H3. pbinds H3. rewrite Hc in H3. injection H3 as <-.
  assert (HF : f_lens P (wipe P G0)) by (split; rewrite ?wipe_fi, ?wipe_fe; apply repeat_length).
  destruct (force_loop_spec P L2 _ _ HF E) as (_ & _ & MI & _).
  rewrite (fsum_ext _ _ (fun k => psum L2 (fun _ p => node_x (pG P) k * fint_at P p AY k
                                                   - node_y (pG P) k * fint_at P p AX k))).
  2: { intros k Hk. pose proof (MI AX k) as MX. pose proof (MI AY k) as MY.
       rewrite wipe_fi, nth_repeat_same, comp_v0 in MX, MY. cbn [comp] in MX, MY.
       rewrite MX, MY, !Rplus_0_l. unfold Rminus.
       rewrite psum_plus, psum_scal.
       rewrite (psum_ext L2 (fun _ p => - (node_y (pG P) k * fint_at P p AX k))
                            (fun _ p => (- node_y (pG P) k) * fint_at P p AX k)) by (intros ? ? ? ?; lra).
       rewrite psum_scal. lra. }
  rewrite (psum_swap _ L2 (fun k _ p => node_x (pG P) k * fint_at P p AY k - node_y (pG P) k * fint_at P p AX k)).
  transitivity (psum L2 (fun _ p => pV p * (yx (pstress p) - xy (pstress p)))).
  - apply psum_ext. intros ph p Hin Hp. pose proof (HL2 ph p Hin Hp) as Hl.
    rewrite fsum_minus.
    destruct (fint_moment P p AY HP Hl) as [M1 _]. destruct (fint_moment P p AX HP Hl) as [_ M2].
    rewrite M1, M2. cbn [comp vx vy]. lra.
  - symmetry. apply (Lrel_psum _ _ _ _ _ HR). cbv beta. intros ? ? ? ? _ _ _ _ _ ->. reflexivity.
Qed.

Example x_C07_no_torque : exists G L1 L2 G',
  proper (pG (ex_params (T := R) ex_bounds)) /\ grid_ok (pG (ex_params ex_bounds)) G /\
  all_live (ex_L Elastic) (fun _ p => in_dom (pG (ex_params ex_bounds)) (px p) /\ symmetric (pstress p)) /\
  ref_nodes (ex_params ex_bounds) G (ex_L Elastic) = Ok L1 /\
  basis_all G L1 = Ok L2 /\ forces_all (ex_params ex_bounds) L2 (wipe (ex_params ex_bounds) G) = Ok G'.
Proof.
  destruct (ex_forces ex_bounds Elastic) as (G & L1 & L2 & G0 & G' & _ & HG & H1 & H2 & -> & H3 & _).
  exists G, L1, L2, G'. split; [exact ex_proper|]. split; [exact HG|]. split; [|auto].
  intros ph p A B. split; [apply (ex_dom Elastic ph p A B)|].
  destruct A as [<-|[]]. destruct B as [<-|[<-|[]]]; repeat split.
Qed.

(** ** C54 *)
Lemma psum_flat L c : psum L c = Rsum (map (fun x => c (fst x) (snd x)) (flat_map (fun ph => map (pair ph) (live ph)) L)).
Proof.
  unfold psum. induction L as [|ph L IH]; simpl; auto.
  rewrite map_app, Rsum_app, IH, map_map. reflexivity.
Qed.
Lemma flat_live L x : In x (flat_map (fun ph => map (pair ph) (live (T := R) ph)) L) -> In (fst x) L /\ In (snd x) (live (fst x)).
Proof.
  intros H. apply in_flat_map in H. destruct H as (ph & H1 & H2). apply in_map_iff in H2.
  destruct H2 as (p & <- & H3). auto.
Qed.
Lemma Rsum_CS {A} (w v : A -> R) l : (forall a, In a l -> 0 <= w a) ->
  Rsum (map (fun a => w a * v a) l) * Rsum (map (fun a => w a * v a) l) <=
  Rsum (map w l) * Rsum (map (fun a => w a * (v a * v a)) l).
Proof.
  induction l as [|x l IH]; simpl; intros Hw; [lra|].
  assert (IH' := IH (fun a H => Hw a (or_intror H))). clear IH.
  assert (A0 : 0 <= Rsum (map w l)) by (apply Rsum_nonneg; auto).
  assert (C0 : 0 <= Rsum (map (fun a => w a * (v a * v a)) l)).
  { apply Rsum_nonneg. intros a Ha. apply Rmult_le_pos; [auto|]. apply Rle_0_sqr. }
  pose proof (Hw x (or_introl eq_refl)) as W0.
  set (a := Rsum (map w l)) in *. set (b := Rsum (map (fun a => w a * v a) l)) in *.
  set (c := Rsum (map (fun a => w a * (v a * v a)) l)) in *.
  set (u := v x). set (t := w x) in *. clearbody a b c u t.
  assert (K : 0 <= a * (u * u) - 2 * b * u + c).
  { destruct (Rle_lt_or_eq_dec 0 a A0) as [Ap|Az].
    - apply Rmult_le_reg_l with a; [auto|]. rewrite Rmult_0_r.
      replace (a * (a * (u * u) - 2 * b * u + c)) with ((a * u - b) * (a * u - b) + (a * c - b * b)) by ring.
      pose proof (Rle_0_sqr (a * u - b)). unfold Rsqr in *. lra.
    - rewrite <- Az in *. assert (b = 0); [|subst; nra]. nra. }
  pose proof (Rmult_le_pos _ _ W0 K). nra.
Qed.
Lemma psum_CS L (w v : phase R -> particle R -> R) :
  all_live L (fun ph p => 0 <= w ph p) ->
  psum L (fun ph p => w ph p * v ph p) * psum L (fun ph p => w ph p * v ph p) <=
  psum L w * psum L (fun ph p => w ph p * (v ph p * v ph p)).
Proof.
  intros H. rewrite !psum_flat.
  apply (Rsum_CS (fun x => w (fst x) (snd x)) (fun x => v (fst x) (snd x))).
  intros x Hx. apply flat_live in Hx. apply H; apply Hx.
Qed.
Lemma hat_nonneg P x k : 0 <= hat P x k.
Proof. apply Rmult_le_pos; apply tent_nonneg. Qed.

(** Mass and momentum of a node after mapping, in terms of the particles. *)
Lemma map_nodes P G L L1 L2 G' :
  proper (pG P) -> grid_ok (pG P) G -> all_live L (fun _ p => in_dom (pG P) (px p)) ->
  ref_nodes P (wipe P G) L = Ok L1 -> basis_all (wipe P G) L1 = Ok L2 ->
  p2g_all P L2 (wipe P G) = Ok G' ->
  (forall k, nth k (gm G') 0 = psum L (fun _ p => pm p * hat (pG P) (px p) k)) /\
  (forall a k, comp a (nth k (gq G') v0) = open_a a (roughness (pB P)) (bv G) (bh G) k *
     psum L (fun ph p => pm p * hat (pG P) (px p) k * comp a (velocity ph p))).
Proof.
  intros HP HG HD H1 H2 H3.
  pose proof (wipe_ok P G _ HG) as HGw.
  pose proof (locate_loops P _ L L1 L2 HP HGw HD H1 H2) as HR.
  destruct (wipe_geo P G) as (_ & _ & _ & _ & _ & Ev & Eh & _).
  destruct (p2g_all_mass P L2 _ G' (wipe_lens P G) H3) as (Hl & _ & M).
  destruct (p2g_all_mom P L2 _ G' (wipe_lens P G)) as [_ Q];
    [rewrite Ev; apply (go_bv _ _ HG)|rewrite Eh; apply (go_bh _ _ HG)|exact H3|].
  split.
  - intros k. rewrite M, wipe_m, Rplus_0_l. symmetry.
    apply (Lrel_psum _ _ _ _ _ HR). cbv beta. intros ph p ph' p' Hin Hp _ _ _ ->.
    rewrite (wt_hat P _ k HP (locate_located _ _ (HD _ _ Hin Hp))). reflexivity.
  - intros a k. rewrite Q, wipe_q, comp_v0, Rplus_0_l, Ev, Eh. f_equal. symmetry.
    apply (Lrel_psum _ _ _ _ _ HR). cbv beta. intros ph p ph' p' Hin Hp _ _ Es ->.
    rewrite (wt_hat P _ k HP (locate_located _ _ (HD _ _ Hin Hp))).
    unfold velocity. cbn. rewrite Es. reflexivity.
Qed.

Lemma p_C54_velocity_between : forall P G L L1 L2 G' a lo hi,
  proper (pG P) -> grid_ok (pG P) G -> wall_free (bv G) (bh G) ->
  all_live L (fun ph p => in_dom (pG P) (px p) /\ 0 <= pm p /\ lo <= comp a (velocity ph p) <= hi) ->
  ref_nodes P (wipe P G) L = Ok L1 -> basis_all (wipe P G) L1 = Ok L2 ->
  p2g_all P L2 (wipe P G) = Ok G' ->
  forall k, 0 < nth k (gm G') 0 -> lo <= comp a (nth k (gq G') v0) / nth k (gm G') 0 <= hi.
Proof.
  intros P G L L1 L2 G' a lo hi HP HG WF HD H1 H2 H3 k Hm.
  assert (HD' : all_live L (fun _ p => in_dom (pG P) (px p))) by (intros ph p A B; apply (HD ph p A B)).
  destruct (map_nodes P G L L1 L2 G' HP HG HD' H1 H2 H3) as [M Q].
  assert (EO : open_a a (roughness (pB P)) (bv G) (bh G) k = 1).
  { destruct (WF k) as [W1 W2]. destruct a; cbn [open_a]; unfold open_x, open_y; rewrite ?W1, ?W2, ?andb_false_r; auto. }
  rewrite Q, EO, Rmult_1_l.
  assert (B : lo * nth k (gm G') 0 <= psum L (fun ph p => pm p * hat (pG P) (px p) k * comp a (velocity ph p)) <= hi * nth k (gm G') 0).
  { rewrite M, <- !psum_scal. split; apply psum_le; intros ph p Hin Hp; cbv beta;
    destruct (HD ph p Hin Hp) as (_ & M0 & V1 & V2);
    pose proof (Rmult_le_pos _ _ M0 (hat_nonneg (pG P) (px p) k)) as W; nra. }
  split.
  - apply Rmult_le_reg_r with (nth k (gm G') 0); [auto|]. unfold Rdiv. rewrite Rmult_assoc, Rinv_l by lra. lra.
  - apply Rmult_le_reg_r with (nth k (gm G') 0); [auto|]. unfold Rdiv. rewrite Rmult_assoc, Rinv_l by lra. lra.
Qed.

(** With or without walls; massless nodes carry no momentum. *)
Lemma p_C54_kinetic_energy : forall P G L L1 L2 G',
  proper (pG P) -> grid_ok (pG P) G ->
  all_live L (fun ph p => in_dom (pG P) (px p) /\ 0 <= pm p) ->
  ref_nodes P (wipe P G) L = Ok L1 -> basis_all (wipe P G) L1 = Ok L2 ->
  p2g_all P L2 (wipe P G) = Ok G' ->
  (forall k, 0 <= nth k (gm G') 0 /\ (nth k (gm G') 0 = 0 -> nth k (gq G') v0 = v0)) /\
  fsum (nodes (pG P)) (fun k => if Rlt_dec 0 (nth k (gm G') 0)
                                then sq3 (nth k (gq G') v0) / (2 * nth k (gm G') 0) else 0)
  <= psum L (fun ph p => 1 / 2 * pm p * sq3 (velocity ph p)).
Proof.
  intros P G L L1 L2 G' HP HG HD H1 H2 H3.
  assert (HD' : all_live L (fun _ p => in_dom (pG P) (px p))) by (intros ph p A B; apply (HD ph p A B)).
  destruct (map_nodes P G L L1 L2 G' HP HG HD' H1 H2 H3) as [M Q].
  set (w := fun k (_ : phase R) p => pm p * hat (pG P) (px p) k).
  assert (W0 : forall k, all_live L (fun ph p => 0 <= w k ph p)).
  { intros k ph p Hin Hp. destruct (HD ph p Hin Hp) as (_ & M0). apply Rmult_le_pos; [auto|apply hat_nonneg]. }
  set (e := fun k a => psum L (fun ph p => w k ph p * (comp a (velocity ph p) * comp a (velocity ph p)))).
  assert (CS : forall k a, comp a (nth k (gq G') v0) * comp a (nth k (gq G') v0) <= nth k (gm G') 0 * e k a).
  { intros k a. pose proof (psum_CS L (w k) (fun ph p => comp a (velocity ph p)) (W0 k)) as C.
    rewrite Q, M. fold (w k). unfold e.
    assert (O : open_a a (roughness (pB P)) (bv G) (bh G) k = 0 \/ open_a a (roughness (pB P)) (bv G) (bh G) k = 1).
    { destruct a; cbn [open_a]; unfold open_x, open_y; try (destruct (_ || _)); auto. }
    assert (0 <= psum L (w k)) by (apply psum_nonneg; auto).
    assert (0 <= psum L (fun ph p => w k ph p * (comp a (velocity ph p) * comp a (velocity ph p)))).
    { apply psum_nonneg. intros ph p Hin Hp. apply Rmult_le_pos; [apply (W0 k ph p Hin Hp)|apply Rle_0_sqr]. }
    unfold w in *.
    destruct O as [->| ->].
    - rewrite !Rmult_0_l. apply Rmult_le_pos; auto.
    - rewrite !Rmult_1_l. exact C. }
  assert (M0 : forall k, 0 <= nth k (gm G') 0) by (intros k; rewrite M; apply psum_nonneg, (W0 k)).
  split.
  - intros k. split; [apply M0|]. intros Z. apply v3_ext. intros a. rewrite comp_v0.
    specialize (CS k a). rewrite Z, Rmult_0_l in CS. nra.
  - apply Rle_trans with (fsum (nodes (pG P)) (fun k => 1 / 2 * (e k AX + e k AY + e k AZ))).
    + apply fsum_le. intros k Hk. destruct (Rlt_dec 0 (nth k (gm G') 0)) as [Mp|Mn].
      * apply Rmult_le_reg_r with (2 * nth k (gm G') 0); [lra|].
        unfold Rdiv at 1. rewrite Rmult_assoc, Rinv_l by lra.
        pose proof (CS k AX) as CX. pose proof (CS k AY) as CY. pose proof (CS k AZ) as CZ.
        cbn [comp] in CX, CY, CZ. unfold sq3. lra.
      * assert (forall a, 0 <= e k a).
        { intros a. apply psum_nonneg. intros ph p Hin Hp. apply Rmult_le_pos; [apply (W0 k ph p Hin Hp)|apply Rle_0_sqr]. }
        pose proof (H AX). pose proof (H AY). pose proof (H AZ). lra.
    + rewrite fsum_scal. unfold e. rewrite !fsum_plus.
      rewrite !(psum_swap _ L (fun k ph p => w k ph p * _)).
      rewrite <- !psum_plus, <- psum_scal. apply psum_le. intros ph p Hin Hp. cbv beta.
      rewrite !fsum_scal_r. unfold w. rewrite fsum_scal.
      destruct (HD ph p Hin Hp) as (Hd & _).
      pose proof (locate_located _ _ Hd) as Hl.
      assert (S1 : fsum (nodes (pG P)) (fun k => hat (pG P) (px p) k) = 1).
      { rewrite (fsum_ext _ _ (fun k => wt P (locate (pG P) p) k)).
        2: { intros k _. rewrite (wt_hat P _ k HP Hl). reflexivity. }
        unfold wt. rewrite (reaches_sum P _ (Nr (locate (pG P) p)) (located_reaches P _ HP Hl)).
        rewrite (fsum_ext _ _ (wN (cell_w (pG P)) (cell_h (pG P)) (loc (pG P) (px p)))).
        2: { intros. rewrite (located_N _ _ _ Hl). reflexivity. }
        pose proof (cell_w_pos _ HP). pose proof (cell_h_pos _ HP). apply shape_unity; lra. }
      change (fsum (nodes (pG P)) (hat (pG P) (px p)) = 1) in S1. rewrite ?fsum_scal, !S1. unfold sq3. cbn [comp]. lra.
Qed.

Example x_C54_kinetic_energy : exists G L1 L2 G',
  grid_ok (pG (ex_params (T := R) ex_bounds)) G /\ wall_free (bv G) (bh G) /\
  all_live (ex_L Elastic) (fun ph p => in_dom (pG (ex_params ex_bounds)) (px p) /\ 0 <= pm p /\ -1 <= comp AX (velocity ph p) <= 1) /\
  ref_nodes (ex_params ex_bounds) (wipe (ex_params ex_bounds) G) (ex_L Elastic) = Ok L1 /\
  basis_all (wipe (ex_params ex_bounds) G) L1 = Ok L2 /\
  p2g_all (ex_params ex_bounds) L2 (wipe (ex_params ex_bounds) G) = Ok G'.
Proof.
  destruct (grid_init_ok (ex_gridp (T := R)) ex_bounds ex_proper) as (G & HI & HG).
  destruct (p_C04_mapping_total (ex_params ex_bounds) G (ex_L Elastic) ex_proper HG (ex_dom _) (ex_enough _) (ex_phi _ _))
    as (L1 & L2 & G' & H1 & H2 & H3).
  exists G, L1, L2, G'. split; [exact HG|]. split; [|split; [|auto]].
  - unfold grid_init in HI. pbinds HI. injection HI as <-. cbn [bv bh].
    intros k. unfold boundary_v, boundary_h, mark. cbn.
    do 12 (destruct k as [|k]; [split; reflexivity|]). destruct k; split; reflexivity.
  - intros ph p A B. split; [apply (ex_dom Elastic ph p A B)|].
    destruct A as [<-|[]]. destruct B as [<-|[<-|[]]]; cbn; unfold n2; cbn; lra.
Qed.
