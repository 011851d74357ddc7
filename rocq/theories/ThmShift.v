(** * Moving the whole simulation: C81. *)
From Coq Require Import ZArith List Bool Arith Lia Reals Lra String.
From Verif Require Import State NumR Spec LibList LibR ModelGrid ModelConstit ModelParticle ModelMPList ModelIntegr ModelMain ProofsGrid ProofsMap ProofsP2G SpecStep ProofsHist Concrete ProofsShift ThmGeo ThmMapping ThmStep ThmInOut.
Import ListNotations.
Local Open Scope R_scope.

Section Moves.
  Context (a b : R).
  Notation shp := (shp a b). Notation shG := (shG a b). Notation shP := (shP a b). Notation shL := (shL a b). Notation shph := (shph a b). Notation shv := (shv a b).

  Lemma sol0_sh L : sol0 (shL L) = sol0 L.
  Proof. destruct L; reflexivity. Qed.
  Lemma update_forces_sh P L : update_forces (shP P) (shL L) = rmap shL (update_forces P L).
  Proof. unfold update_forces. apply points__sh. intros k ph p _ _. unfold increment_gravity. destruct (Nat.eqb k 0); reflexivity. Qed.
  Lemma ref_nodes_sh P G L : ref_nodes (shP P) (shG G) (shL L) = rmap shL (ref_nodes P G L).
  Proof. apply points__sh. intros. apply ref_node_sh. Qed.
  Lemma basis_all_sh G L : basis_all (shG G) (shL L) = rmap shL (basis_all G L).
  Proof. apply points__sh. intros. apply basis_sh. Qed.
  Lemma p2g_all_sh P L G : p2g_all (shP P) (shL L) (shG G) = rmap shG (p2g_all P L G).
  Proof.
    unfold p2g_all, Verif.ProofsShift.shL.
    match goal with |- _ = rmap _ (bind (forM ?f _ _ _) _) => rewrite (forM_sh shph shG f) end.
    - destruct (forM _ 0 L G) as [[L1 G1]|e]; [|reflexivity]. cbn [bind rmap pr fst snd]. cbv zeta.
      change (p_seg (shP P)) with (p_seg P). change (roughness (pB (shP P))) with (roughness (pB P)).
      destruct (p_seg P), (roughness (pB P)); reflexivity.
    - intros k ph _ G1. change (ph_n (shph ph)) with (ph_n ph). change (ph_sv (shph ph)) with (ph_sv ph).
      change (ph_pts (shph ph)) with (map shp (ph_pts ph)).
      rewrite (each_sh shp shG (fun p G => G <- p2g P (ph_sv ph) p G ;; Ok (p, G))).
      + destruct (each _ _ _ _) as [[l G2]|e]; [|reflexivity]. cbn [bind rmap pr fst snd]. change (p_seg (shP P)) with (p_seg P).
        destruct (p_seg P); reflexivity.
      + intros p _ G2. rewrite p2g_sh. destruct (p2g P (ph_sv ph) p G2); reflexivity.
  Qed.
  Lemma cyc_fields_sh P fs G : cyc_fields (shP P) fs (shG G) = rmap shG (cyc_fields P fs G).
  Proof.
    unfold cyc_fields. apply (foldM_sh shG). intros G1 f. change (nx (pG (shP P))) with (nx (pG P)).
    replace (sget f (shG G1)) with (sget f G1) by (destruct f; reflexivity).
    destruct (cyc nadd (nx (pG P)) (sget f G1)); [|reflexivity]. destruct f; reflexivity.
  Qed.
  Lemma cyc_mq_sh P G : cyc_mq (shP P) (shG G) = rmap shG (cyc_mq P G).
  Proof. unfold cyc_mq. repeat sh1. Qed.
  Lemma cyc_forces_sh P G : cyc_forces (shP P) (shG G) = rmap shG (cyc_forces P G).
  Proof. unfold cyc_forces. repeat sh1. Qed.
  Lemma stress_strain_sh P L G : stress_strain (shP P) (shL L) (shG G) = rmap (pr shL shG) (stress_strain P L G).
  Proof.
    unfold stress_strain. rewrite sol0_sh. destruct (sol0 L) as [S0|e]; [|reflexivity]. cbn [bind].
    match goal with |- _ = rmap _ (bind (points ?f _ _) _) => rewrite (points_sh a b shG f) end.
    - destruct (points _ L G) as [[L1 G1]|e]; [|reflexivity]. cbn [bind rmap pr fst snd]. change (cyclic_lr (pB (shP P))) with (cyclic_lr (pB P)).
      destruct (cyclic_lr (pB P)); [|reflexivity]. rewrite cyc_fields_sh. destruct (cyc_fields P _ G1); reflexivity.
    - intros k ph p _ _ G1. rewrite update_strain_sh. destruct (update_strain P G1 p) as [p1|e]; [|reflexivity]. cbn [bind rmap].
      apply update_stress_sh.
  Qed.
  Lemma forces_all_sh P L G : forces_all (shP P) (shL L) (shG G) = rmap shG (forces_all P L G).
  Proof.
    unfold forces_all. rewrite (points_r_sh a b shG (fun _ _ p G => nodal_forces P p G)) by (intros; apply forces_sh).
    destruct (points_r _ L G) as [G1|e]; [|reflexivity]. cbn [bind rmap]. change (cyclic_lr (pB (shP P))) with (cyclic_lr (pB P)).
    destruct (cyclic_lr (pB P)); [apply cyc_forces_sh|reflexivity].
  Qed.
  Lemma BCs_sh P rho G : BCs (shP P) rho (shG G) = rmap shG (BCs P rho G).
  Proof.
    unfold BCs. cbv zeta. change (vertical_force (pB (shP P))) with (vertical_force (pB P)). change (horizontal_force (pB (shP P))) with (horizontal_force (pB P)).
    change (p_aniso (shP P)) with (p_aniso P). change (p_t (shP P)) with (p_t P).
    match goal with |- (if ?c then _ else _) = _ => destruct c end; [reflexivity|].
    destruct (vertical_force (pB P)), (horizontal_force (pB P)); reflexivity.
  Qed.
  Lemma momentum_sh P G : update_momentum (shP P) (shG G) = rmap shG (update_momentum P G).
  Proof.
    unfold update_momentum. cbv zeta. change (p_damping (shP P)) with (p_damping P). change (pB (shP P)) with (pB P).
    change (friction_masks (shP P) (shG G)) with (friction_masks P G).
    destruct (p_damping P), (roughness (pB P)), (truthy_mu (wall_mu (pB P))); destruct (friction_masks P G);
      (destruct (conveyor (pB P)); [change (p_v0 (shP P)) with (p_v0 P); destruct (attr (p_v0 P))|]); reflexivity.
  Qed.
  Lemma gammadot_sh fill P G : calculate_gammadot fill (shP P) (shG G) = shG (calculate_gammadot fill P G).
  Proof. reflexivity. Qed.
  Lemma update_pk_sh fill P r G : update_pk fill (shP P) r (shG G) = shG (update_pk fill P r G).
  Proof. reflexivity. Qed.
  Lemma phi_incr_sh P r G : calculate_phi_increment (shP P) r (shG G) = rmap shG (calculate_phi_increment P r G).
  Proof.
    unfold calculate_phi_increment.
    change (KT0 (shP P) (shG G)) with (KT0 P G). change (KT1 (shP P) (shG G)) with (KT1 P G). change (Diffusion (shP P) r (shG G)) with (Diffusion P r G).
    repeat sh1.
  Qed.
  Lemma grainsize_sh P G L : move_grainsize (shP P) (shG G) (shL L) = rmap shL (move_grainsize P G L).
  Proof.
    unfold move_grainsize. rewrite (points__sh a b (fun _ _ p => map_phi_to_mp P G p)) by (intros; apply map_phi_sh).
    destruct (points_ _ L) as [L1|e]; [|reflexivity]. cbn [bind rmap]. change (p_norm (shP P)) with (p_norm P). destruct (p_norm P); [|reflexivity].
    apply points__sh. reflexivity.
  Qed.
  Lemma segregate_sh fill P L G : segregate fill (shP P) (shL L) (shG G) = rmap (pr shL shG) (segregate fill P L G).
  Proof.
    unfold segregate. rewrite sol0_sh. destruct (sol0 L) as [S0|e]; [|reflexivity]. cbn [bind]. destruct (attr (s_rho_s S0)) as [r|e]; [|reflexivity]. cbn [bind]. cbv zeta.
    rewrite update_pk_sh, phi_incr_sh. destruct (calculate_phi_increment P r _) as [G1|e]; [|reflexivity]. cbn [bind rmap].
    rewrite grainsize_sh. destruct (move_grainsize P G1 L) as [L1|e]; [|reflexivity]. cbn [bind rmap].
    rewrite cyc_fields_sh. destruct (cyc_fields P _ G1); reflexivity.
  Qed.
  Lemma move_all_sh P G L : move_all (shP P) (shG G) (shL L) = rmap shL (move_all P G L).
  Proof.
    apply phases__sh. intros ph. change (s_law (ph_sol (shph ph))) with (s_law (ph_sol ph)).
    change (ph_n (shph ph)) with (ph_n ph). change (ph_sv (shph ph)) with (ph_sv ph). change (ph_pts (shph ph)) with (map shp (ph_pts ph)).
    destruct (is_rigid (s_law (ph_sol ph))).
    - pose proof (each_sh shp (fun u : unit => u) (fun p (_ : unit) => p <- move_rigid_point P p ;; Ok (p, tt)) (fun p (_ : unit) => p <- move_rigid_point (shP P) p ;; Ok (p, tt)) (ph_n ph) (ph_pts ph)) as E.
      cbv beta in E. rewrite E.
      + destruct (each _ _ _ tt) as [[l u]|e]; reflexivity.
      + intros p _ []. rewrite rigid_sh. destruct (move_rigid_point P p); reflexivity.
    - rewrite (each_sh shp (fun v : V3 R => v) (move_material_point P G)).
      + destruct (each _ _ _ _) as [[l u]|e]; reflexivity.
      + intros p _ v. apply move_sh.
  Qed.
  Lemma delete_sh (f f' : particle R -> res bool) ph : (forall p, f' (shp p) = f p) -> delete_where f' (shph ph) = rmap shph (delete_where f ph).
  Proof.
    intros HF. unfold delete_where. apply (foldM_sh shph). intros ph1 i. change (ph_pts (shph ph1)) with (map shp (ph_pts ph1)).
    rewrite nth_res_map. destruct (nth_res (ph_pts ph1) i) as [p|e]; [|reflexivity]. cbn [bind rmap]. rewrite HF.
    destruct (f p) as [[]|e]; try reflexivity. cbn [bind rmap]. unfold Verif.ProofsShift.shph. cbn.
    assert (D : del_at i (map shp (ph_pts ph1)) = map shp (del_at i (ph_pts ph1))).
    { generalize (ph_pts ph1). induction i as [|i IH]; intros [|q l]; cbn; try reflexivity. rewrite IH. reflexivity. }
    rewrite D. reflexivity.
  Qed.

  Lemma Rltb_sh c x y : Rltb (x + c) (y + c) = Rltb x y.
  Proof. unfold Rltb. destruct (Rlt_dec (x + c) (y + c)), (Rlt_dec x y); try reflexivity; exfalso; lra. Qed.
  Lemma outlet_left_sh P L : outlet_left_f (shP P) (shL L) = rmap shL (outlet_left_f P L).
  Proof.
    apply phases__sh. intros ph. apply delete_sh. intros p. change (pdx (pG (shP P))) with (pdx (pG P)).
    destruct (attr (pdx (pG P))) as [d|e]; [|reflexivity]. cbn [bind]. f_equal.
    change (Rltb (vx (px p) + a) (x_m (pG P) + a + d) = Rltb (vx (px p)) (x_m (pG P) + d)).
    replace (x_m (pG P) + a + d) with (x_m (pG P) + d + a) by ring. apply Rltb_sh.
  Qed.
  Lemma outlet_bottom_sh P L : outlet_bottom_f (shP P) (shL L) = rmap shL (outlet_bottom_f P L).
  Proof.
    apply phases__sh. intros ph. apply delete_sh. intros p. f_equal.
    change (Rltb (vy (px p) + b) (y_m (pG P) + b) = Rltb (vy (px p)) (y_m (pG P))). apply Rltb_sh.
  Qed.
  Lemma setx_sh c c' (v : V3 R) : c' = c -> setx (fun x => (x + c')%num) (shv v) = shv (setx (fun x => (x + c)%num) v).
  Proof. intros ->. unfold setx, Verif.ProofsShift.shv. cbn. f_equal. ring. Qed.
  Lemma setx_sh' c c' (v : V3 R) : c' = c -> setx (fun x => (x - c')%num) (shv v) = shv (setx (fun x => (x - c)%num) v).
  Proof. intros ->. unfold setx, Verif.ProofsShift.shv. cbn. f_equal. ring. Qed.
  Lemma wrap_sh P p : wrap (shg a b P) (shp p) = shp (wrap P p).
  Proof.
    unfold wrap. cbv zeta.
    assert (W : (x_M (shg a b P) - x_m (shg a b P))%num = (x_M P - x_m P)%num) by (cbn; ring).
    rewrite W. generalize (x_M P - x_m P)%num as w. intros w.
    assert (C1 : forall q, (vx (px (shp q)) <? x_m (shg a b P))%num = (vx (px q) <? x_m P)%num) by (intros q; apply Rltb_sh).
    assert (C2 : forall q, (x_M (shg a b P) <? vx (px (shp q)))%num = (x_M P <? vx (px q))%num) by (intros q; apply Rltb_sh).
    rewrite C1. set (c1 := (vx (px p) <? x_m P)%num).
    assert (D : (if c1 then (shp p) <| px := setx (fun x => (x + w)%num) (px (shp p)) |> else shp p) = shp (if c1 then p <| px := setx (fun x => (x + w)%num) (px p) |> else p)).
    { destruct c1; [|reflexivity]. change (px (shp p)) with (shv (px p)). rewrite (setx_sh w w) by reflexivity. reflexivity. }
    rewrite D. set (q := if c1 then _ else _). rewrite C2. destruct (x_M P <? vx (px q))%num; [|reflexivity].
    change (px (shp q)) with (shv (px q)). rewrite (setx_sh' w w) by reflexivity. reflexivity.
  Qed.
  Lemma cyclic_sh P L : cyclic_lr_f (shP P) (shL L) = rmap shL (cyclic_lr_f P L).
  Proof. apply points__sh. intros k ph p _ _. cbn [rmap]. f_equal. apply (wrap_sh (pG P) p). Qed.
  Lemma init_state_sh P S y : init_state (shP P) S (y + b) = init_state P S y.
  Proof.
    unfold init_state. change (p_pressure (shP P)) with (p_pressure P). destruct (p_pressure P); try reflexivity. cbv zeta.
    change (top_gap (pG (shP P))) with (top_gap (pG P)).
    destruct (top_gap (pG P)) as [g|].
    - replace (y_M (pG (shP P)) - g - (Rplus y b))%num with (y_M (pG P) - g - y)%num; [reflexivity|]. change (y_M (pG P) - g - y = y_M (pG P) + b - g - (y + b)). ring.
    - replace (y_M (pG (shP P)) - (Rplus y b))%num with (y_M (pG P) - y)%num; [reflexivity|]. change (y_M (pG P) - y = y_M (pG P) + b - (y + b)). ring.
  Qed.
  (** A point made at the shifted place.  The prescribed flows are functions of the height itself. *)
  Lemma particle_init_sh P S0 S x y phi : b = 0 \/ p_flow P = FNone ->
    particle_init (shP P) S0 S (x + a) (y + b) phi = rmap shp (particle_init P S0 S x y phi).
  Proof.
    intros HF. unfold particle_init. cbv zeta. rewrite init_state_sh. destruct (init_state P S y) as [[s e]|e]; [|reflexivity]. cbn [bind].
    assert (F : init_flow (shP P) S0 S (y + b) (trace s / n3)%num = init_flow P S0 S y (trace s / n3)%num).
    { destruct HF as [HB|HF].
      - assert (Y : forall z, z + b = z) by (intros z; rewrite HB; ring). rewrite Y. unfold init_flow. change (p_flow (shP P)) with (p_flow P).
        change (y_M (pG (shP P))) with (y_M (pG P) + b). change (y_m (pG (shP P))) with (y_m (pG P) + b). rewrite !Y. reflexivity.
      - unfold init_flow. change (p_flow (shP P)) with (p_flow P). rewrite HF. reflexivity. }
    rewrite F. destruct (init_flow P S0 S y _) as [[[vo gd] pk]|e1]; reflexivity.
  Qed.
  Lemma add_point_sh P S0 x y ph : b = 0 \/ p_flow P = FNone ->
    add_point (shP P) S0 (x + a) (y + b) (shph ph) = rmap shph (add_point P S0 x y ph).
  Proof.
    intros HF. unfold add_point. change (ph_sol (shph ph)) with (ph_sol ph). rewrite particle_init_sh by exact HF.
    destruct (particle_init P S0 _ x y _) as [p|e]; [|reflexivity]. cbn [bind rmap].
    unfold Verif.ProofsShift.shph. cbn. rewrite map_app. reflexivity.
  Qed.
  Lemma inlet_right_sh P L : b = 0 -> inlet_right_f (shP P) (shL L) = rmap shL (inlet_right_f P L).
  Proof.
    intros HB. unfold inlet_right_f. rewrite sol0_sh. destruct (sol0 L) as [S0|e]; [|reflexivity]. cbn [bind].
    apply phases__sh. intros ph. change (inlet_due (shP P) (ph_sol (shph ph))) with (inlet_due P (ph_sol ph)).
    destruct (inlet_due P (ph_sol ph)) as [[]|e]; try reflexivity. cbn [bind]. change (ph_sol (shph ph)) with (ph_sol ph).
    apply (foldM_sh shph). intros ph1 y. change (ph_sol (shph ph1)) with (ph_sol ph1). destruct (attr (s_gap (ph_sol ph1))) as [g|e]; [|reflexivity]. cbn [bind].
    pose proof (add_point_sh P S0 (x_M (pG P) - fst g) y ph1 (or_introl HB)) as E. etransitivity; [|exact E]. f_equal; [change (x_M (pG P) + a - fst g = x_M (pG P) - fst g + a); ring|rewrite HB; ring].
  Qed.
  Lemma inout_sh P L : inlet_top (pB P) = false -> inlet_right (pB P) = false \/ b = 0 -> inout (shP P) (shL L) = rmap shL (inout P L).
  Proof.
    intros H1 H2. unfold inout. change (pB (shP P)) with (pB P).
    assert (E1 : (if outlet_left (pB P) then outlet_left_f (shP P) (shL L) else Ok (shL L)) = rmap shL (if outlet_left (pB P) then outlet_left_f P L else Ok L)).
    { destruct (outlet_left (pB P)); [apply outlet_left_sh|reflexivity]. }
    rewrite E1. clear E1. destruct (if outlet_left (pB P) then _ else _) as [L1|e]; [|reflexivity]. cbn [bind rmap].
    assert (E1 : (if outlet_bottom (pB P) then outlet_bottom_f (shP P) (shL L1) else Ok (shL L1)) = rmap shL (if outlet_bottom (pB P) then outlet_bottom_f P L1 else Ok L1)).
    { destruct (outlet_bottom (pB P)); [apply outlet_bottom_sh|reflexivity]. }
    rewrite E1. clear E1. destruct (if outlet_bottom (pB P) then _ else _) as [L2|e]; [|reflexivity]. cbn [bind rmap]. rewrite H1.
    assert (E1 : (if inlet_right (pB P) then inlet_right_f (shP P) (shL L2) else Ok (shL L2)) = rmap shL (if inlet_right (pB P) then inlet_right_f P L2 else Ok L2)).
    { destruct H2 as [H2|H2]; [rewrite H2; reflexivity|]. destruct (inlet_right (pB P)); [apply inlet_right_sh; exact H2|reflexivity]. }
    rewrite E1. clear E1. destruct (if inlet_right (pB P) then _ else _) as [L3|e]; [|reflexivity]. cbn [bind rmap].
    destruct (cyclic_lr (pB P)); [apply cyclic_sh|reflexivity].
  Qed.
  Lemma recover_sh P G p : fsum 4 (Nr p) = 1 -> recover_position (shP P) (shG G) (shp p) = rmap shv (recover_position P G p).
  Proof.
    intros U. unfold recover_position, four. change (pnstar (shp p)) with (pnstar p). change (nx (pG (shP P))) with (nx (pG P)).
    change (gX (shG G)) with (map (fun x => x + a) (gX G)). change (gY (shG G)) with (map (fun x => x + b) (gY G)).
    cbn [foldM]. rewrite !py_get_map. repeat (match goal with |- _ = rmap _ (bind (bind (py_get (gX G) ?n) _) _) =>
      destruct (py_get (gX G) n) as [?X|?]; [|reflexivity]; destruct (py_get (gY G) n) as [?Y|?]; [|reflexivity]; cbn [bind rmap] end).
    cbn [bind rmap]. f_equal. change (fun r => Nr (shp p) r) with (fun r => Nr p r). unfold fsum in U. cbn in U.
    change (Nr (shp p)) with (Nr p).
    unfold Verif.ProofsShift.shv, vadd, vmap2, vscale, vmap. cbn.
    match type of U with ?u = 1 => assert (Q : forall c, u * c = c) by (intros c; rewrite U; ring) end.
    pose proof (Q a) as Qa. pose proof (Q b) as Qb. f_equal; lra.
  Qed.
End Moves.

(** ** C81 *)
(** The cases in which nothing depends on the origin: no inlet at the top, an inlet at the right only for a horizontal
    shift (its heights are given in absolute terms), and if positions are checked the cells are not degenerate. *)
Definition movable (b : R) (s : state R) : Prop :=
  inlet_top (pB (sP s)) = false /\ (inlet_right (pB (sP s)) = false \/ b = 0) /\
  (p_check (sP s) = false \/ gdx (sG s) <> 0 /\ gdy (sG s) <> 0).

Lemma check_sh a b (P : params R) G L : all_live L (fun _ p => fsum 4 (Nr p) = 1) ->
  check_positions (shP a b P) (shG a b G) (shL a b L) = check_positions P G L.
Proof.
  intros HU. unfold check_positions.
  pose proof (points_r_sh a b (fun u : unit => u) (fun _ _ p (_ : unit) => x <- recover_position P G p ;;
    let d := vmap nabs (vsub x (px p)) in
    if (lit 1 (10 ^ 10) <? pymax (pymax (vx d) (vy d)) (vz d))%num then Err TypeError else Ok tt)
    (fun _ _ p (_ : unit) => x <- recover_position (shP a b P) (shG a b G) p ;;
    let d := vmap nabs (vsub x (px p)) in
    if (lit 1 (10 ^ 10) <? pymax (pymax (vx d) (vy d)) (vz d))%num then Err TypeError else Ok tt) L) as E.
  cbv beta in E. rewrite E.
  - destruct (points_r _ L tt); reflexivity.
  - intros k ph p H1 H2 []. rewrite recover_sh by (apply (HU ph); assumption). destruct (recover_position P G p) as [x|e]; [|reflexivity]. cbn [bind rmap].
    cbv zeta. replace (vsub (shv a b x) (px (shp a b p))) with (vsub x (px p)).
    + destruct (_ <? _)%num; reflexivity.
    + change (px (shp a b p)) with (shv a b (px p)). unfold vsub, vmap2, shv. cbn. f_equal; ring.
Qed.
Lemma wipe_sh a b (P : params R) G : wipe (shP a b P) (shG a b G) = shG a b (wipe P G).
Proof. unfold wipe. cbv zeta. change (p_seg (shP a b P)) with (p_seg P). destruct (p_seg P); reflexivity. Qed.

(** One step of the shifted simulation is the shifted step, with the same exception if there is one; all walls, laws and
    options except inlets are covered. *)
Lemma p_C81_step : forall a b uf fill (s : state R), (forall P, uf (shP a b P) = uf P) -> movable b s ->
  time_march uf fill (shS a b s) = rmap (shS a b) (time_march uf fill s).
Proof.
  intros a b uf fill s HU (M1 & M2 & M3). unfold time_march. change (sL (shS a b s)) with (shL a b (sL s)). change (sP (shS a b s)) with (shP a b (sP s)).
  change (sG (shS a b s)) with (shG a b (sG s)). cbv zeta. rewrite sol0_sh. destruct (sol0 (sL s)) as [S0|e]; [|reflexivity]. cbn [bind].
  rewrite HU. set (P := sP s <| p_loads := uf (sP s) |>). change ((shP a b (sP s)) <| p_loads := uf (sP s) |>) with (shP a b P).
  rewrite wipe_sh, update_forces_sh. destruct (update_forces P (sL s)) as [L0|e]; [|reflexivity]. cbn [bind rmap].
  rewrite ref_nodes_sh. destruct (ref_nodes P _ L0) as [L1|e]; [|reflexivity]. cbn [bind rmap].
  rewrite basis_all_sh. destruct (basis_all _ L1) as [L2|e] eqn:EB; [|reflexivity]. cbn [bind rmap].
  change (p_check (shP a b P)) with (p_check P).
  assert (E1 : (if p_check P then check_positions (shP a b P) (shG a b (wipe (sP s) (sG s))) (shL a b L2) else Ok tt) = (if p_check P then check_positions P (wipe (sP s) (sG s)) L2 else Ok tt)).
  { destruct M3 as [M3|[M3 M4]]; [change (p_check P) with (p_check (sP s)); rewrite M3; reflexivity|]. destruct (p_check P); [|reflexivity].
    apply check_sh. destruct (wipe_geo (sP s) (sG s)) as (W1 & W2 & _). intros ph p H1 H2.
    eapply basis_all_unity; [rewrite W1; exact M3|rewrite W2; exact M4|exact EB|exact H1|exact H2]. }
  rewrite E1. clear E1. destruct (if p_check P then _ else _) as [u|e]; [|reflexivity]. cbn [bind].
  rewrite p2g_all_sh. destruct (p2g_all P L2 _) as [G1|e]; [|reflexivity]. cbn [bind rmap]. change (cyclic_lr (pB (shP a b P))) with (cyclic_lr (pB P)).
  assert (E1 : (if cyclic_lr (pB P) then cyc_mq (shP a b P) (shG a b G1) else Ok (shG a b G1)) = rmap (shG a b) (if cyclic_lr (pB P) then cyc_mq P G1 else Ok G1)).
  { destruct (cyclic_lr (pB P)); [apply cyc_mq_sh|reflexivity]. }
  rewrite E1. clear E1. destruct (if cyclic_lr (pB P) then _ else _) as [G2|e]; [|reflexivity]. cbn [bind rmap].
  rewrite stress_strain_sh. destruct (stress_strain P L2 G2) as [[L3 G3]|e]; [|reflexivity]. cbn [bind rmap pr fst snd].
  rewrite forces_all_sh. destruct (forces_all P L3 G3) as [G4|e]; [|reflexivity]. cbn [bind rmap].
  rewrite BCs_sh. destruct (BCs P _ G4) as [G5|e]; [|reflexivity]. cbn [bind rmap].
  rewrite momentum_sh. destruct (update_momentum P G5) as [G6|e]; [|reflexivity]. cbn [bind rmap].
  rewrite gammadot_sh. change (p_seg (shP a b P)) with (p_seg P). set (G6' := calculate_gammadot fill P G6).
  assert (E1 : (if p_seg P then segregate fill (shP a b P) (shL a b L3) (shG a b G6') else Ok (shL a b L3, shG a b G6')) = rmap (pr (shL a b) (shG a b)) (if p_seg P then segregate fill P L3 G6' else Ok (L3, G6'))).
  { destruct (p_seg P); [apply segregate_sh|reflexivity]. }
  rewrite E1. clear E1. destruct (if p_seg P then _ else _) as [[L4 G7]|e]; [|reflexivity]. cbn [bind rmap pr fst snd].
  rewrite move_all_sh. destruct (move_all P G7 L4) as [L5|e]; [|reflexivity]. cbn [bind rmap].
  rewrite inout_sh by assumption. destruct (inout P L5) as [L6|e]; reflexivity.
Qed.
Lemma dynamic_sh a b (P : params R) G L : dynamic_dt (shP a b P) (shG a b G) (shL a b L) = dynamic_dt P G L.
Proof.
  unfold dynamic_dt.
  assert (E : flat_map (fun ph : phase R => match s_crit (ph_sol ph) with Some c => [c] | None => [] end) (shL a b L) = flat_map (fun ph => match s_crit (ph_sol ph) with Some c => [c] | None => [] end) L).
  { unfold shL. induction L as [|ph L IH]; [reflexivity|]. cbn [map flat_map]. rewrite IH. reflexivity. }
  rewrite E. reflexivity.
Qed.
Lemma pass_sh a b uf fill (s : state R) tr : (forall P, uf (shP a b P) = uf P) -> movable b s ->
  pass uf fill (shS a b s) tr = rmap (pr (shS a b) (fun t => t)) (pass uf fill s tr).
Proof.
  intros HU HM. unfold pass. rewrite p_C81_step by assumption. destruct (time_march uf fill s) as [s1|e]; [|reflexivity]. cbn [bind rmap]. cbv zeta.
  change (p_tf (sP (shS a b s1))) with (p_tf (sP s1)). match goal with |- (if ?c then _ else _) = _ => destruct c; [reflexivity|] end.
  change (save_due (sP (shS a b s1))) with (save_due (sP s1)). destruct (save_due (sP s1)) as [due|e]; [|reflexivity]. cbn [bind].
  change (sG (shS a b s1)) with (shG a b (sG s1)). change (sL (shS a b s1)) with (shL a b (sL s1)).
  match goal with |- bind (if _ then dynamic_dt ?P1 _ _ else _) _ = rmap _ (bind (if _ then dynamic_dt ?P2 _ _ else _) _) => set (P2' := P2); change P1 with (shP a b P2') end.
  rewrite dynamic_sh. change (p_dynamic (shP a b P2')) with (p_dynamic P2'). destruct (p_dynamic P2').
  - destruct (dynamic_dt P2' (sG s1) (sL s1)); reflexivity.
  - reflexivity.
Qed.
Lemma movable_pass b uf fill (s : state R) tr s' tr' : movable b s -> pass uf fill s tr = Ok (s', tr') -> movable b s'.
Proof.
  intros (M1 & M2 & M3) E. destruct (pass_inv _ _ _ _ _ _ E) as (s3 & dt & E3 & _ & EG & EP). apply march_mesh in E3. destruct E3 as [E3 _]. rewrite <- EG in E3.
  unfold movable. rewrite EP. split; [exact M1|]. split; [exact M2|]. destruct M3 as [M3|M3]; [left; exact M3|right].
  unfold mesh in E3. injection E3 as -> -> _ _ _ _ _. exact M3.
Qed.
(** A step of a moving body in a box, moved by a large distance: no exception is involved. *)
Example x_C81_step : exists (s s' : state R), movable (-7) s /\ time_march (fun P => p_loads P) (fun _ l => l) s = Ok s' /\
  time_march (fun P => p_loads P) (fun _ l => l) (shS 1000 (-7) s) = Ok (shS 1000 (-7) s') /\ sL s <> shL 1000 (-7) (sL s).
Proof.
  destruct (grid_init_ok ex_gridp ex_box ex_proper) as (G & EG & OK).
  pose proof (ex_ready ex_box G EG OK eq_refl eq_refl eq_refl Elastic (or_introl eq_refl)) as HR.
  destruct (p_C58_step_total (fun P => p_loads P) (fun _ l => l) _ HR) as [s' E].
  assert (M : movable (-7) (start (ex_params ex_box) G Elastic)).
  { split; [reflexivity|]. split; [left; reflexivity|left; reflexivity]. }
  exists (start (ex_params ex_box) G Elastic), s'. split; [exact M|]. split; [exact E|]. split.
  - rewrite p_C81_step by (try exact M; reflexivity). rewrite E. reflexivity.
  - intros EL. cbn [start sL ex_L shL map] in EL. apply (f_equal (fun l => match l with ph :: _ => match ph_pts ph with p :: _ => vx (px p) | [] => 0 end | [] => 0 end)) in EL.
    cbn in EL. unfold lit in EL. cbn in EL. lra.
Qed.
(** The whole run: however many passes, the shifted simulation ends in the shifted state, after the same calls of the
    output hooks at the same times, or with the same exception. *)
Lemma p_C81_run : forall a b uf fill, (forall P, uf (shP a b P) = uf P) -> forall fuel (s : state R), movable b s ->
  main_loop uf fill fuel (shS a b s) = option_map (rmap (pr (shS a b) (fun tr => tr))) (main_loop uf fill fuel s).
Proof.
  intros a b uf fill HU fuel s HM. unfold main_loop.
  assert (E : forall tr, march uf fill fuel (shS a b s) tr = option_map (rmap (pr (shS a b) (fun tr => tr))) (march uf fill fuel s tr)).
  { revert s HM. induction fuel as [|fuel IH]; intros s HM tr; cbn [march]; change (p_t (sP (shS a b s))) with (p_t (sP s)); change (p_tf (sP (shS a b s))) with (p_tf (sP s));
      (destruct (_ <=? _)%num; [|reflexivity]); [reflexivity|].
    rewrite pass_sh by assumption. destruct (pass uf fill s tr) as [[s1 tr1]|e] eqn:EP; [|reflexivity]. cbn [rmap pr fst snd].
    apply IH. eapply movable_pass; eauto. }
  rewrite E. destruct (march uf fill fuel s [EInitial]) as [[[s1 tr1]|e]|]; reflexivity.
Qed.

Lemma linspace_sh c (l h : R) n : linspace (l + c) (h + c) n = map (fun x => x + c) (linspace l h n).
Proof.
  unfold linspace. rewrite map_map. apply map_ext. intros i.
  change (l + c + IZR (Z.of_nat i) * ((h + c - (l + c)) / IZR (Z.of_nat n - 1)) = l + IZR (Z.of_nat i) * ((h - l) / IZR (Z.of_nat n - 1)) + c).
  replace (h + c - (l + c)) with (h - l) by ring. ring.
Qed.
Lemma map_repeat' {A B} (f : A -> B) x k : map f (repeat x k) = repeat (f x) k.
Proof. induction k as [|k IH]; [reflexivity|]. cbn. rewrite IH. reflexivity. Qed.
Lemma tile_map {A B} (f : A -> B) k l : tile k (map f l) = map f (tile k l).
Proof. unfold tile. rewrite concat_map. rewrite map_repeat'. reflexivity. Qed.
Lemma repeat_each_map {A B} (f : A -> B) k l : repeat_each k (map f l) = map f (repeat_each k l).
Proof. unfold repeat_each. rewrite concat_map. f_equal. rewrite !map_map. apply map_ext. intros x. rewrite map_repeat'. reflexivity. Qed.
(** The grid built for the shifted extents is the shifted grid. *)
Lemma p_C81_grid : forall a b (P : gridp R) B, grid_init (shg a b P) B = rmap (shG a b) (grid_init P B).
Proof.
  intros a b P B. unfold grid_init. cbv zeta. change (nx (shg a b P)) with (nx P). change (ny (shg a b P)) with (ny P).
  change (x_m (shg a b P)) with (x_m P + a). change (x_M (shg a b P)) with (x_M P + a). change (y_m (shg a b P)) with (y_m P + b). change (y_M (shg a b P)) with (y_M P + b).
  rewrite !linspace_sh, !nth_res_map.
  destruct (nth_res (linspace (x_m P) (x_M P) (nx P)) 1) as [x1|e]; [|reflexivity]. destruct (nth_res (linspace (x_m P) (x_M P) (nx P)) 0) as [x0|e]; [|reflexivity].
  destruct (nth_res (linspace (y_m P) (y_M P) (ny P)) 1) as [y1|e]; [|reflexivity]. destruct (nth_res (linspace (y_m P) (y_M P) (ny P)) 0) as [y0|e]; [|reflexivity].
  cbn [bind rmap]. rewrite tile_map, repeat_each_map.
  cbv beta. replace (Rplus x1 a - Rplus x0 a)%num with (x1 - x0)%num by (change (x1 - x0 = x1 + a - (x0 + a)); ring).
  replace (Rplus y1 b - Rplus y0 b)%num with (y1 - y0)%num by (change (y1 - y0 = y1 + b - (y0 + b)); ring). reflexivity.
Qed.
(** The points made from shifted coordinates are the shifted points, stresses and velocities included, for every initial
    state of stress; a prescribed flow depends on the height above zero, so it allows horizontal shifts only. *)
Definition shc (a b : R) (c : solid R * V3 R * list (R * R * option (list R))) : solid R * V3 R * list (R * R * option (list R)) :=
  let '(So, v, l) := c in (So, v, map (fun q => let '(x, y, f) := q in (x + a, y + b, f)) l).
Lemma p_C81_points : forall a b (P : params R) sols, b = 0 \/ p_flow P = FNone ->
  mplist_init (shP a b P) (map (shc a b) sols) = rmap (shL a b) (mplist_init P sols).
Proof.
  intros a b P sols HF. unfold mplist_init.
  assert (E0 : (match map (shc a b) sols with (So, _, _) :: _ => Ok So | [] => Err IndexError end) = match sols with (So, _, _) :: _ => Ok So | [] => Err IndexError end).
  { destruct sols as [|[[So v] l] sols]; reflexivity. }
  rewrite E0. clear E0. destruct (match sols with [] => _ | _ => _ end) as [S0|e]; [|reflexivity]. cbn [bind].
  induction sols as [|[[So v] l] sols IH]; [reflexivity|]. cbn [map mapM shc].
  assert (E : mapM (fun xy : R * R * option (list R) => let '(x, y, phi) := xy in particle_init (shP a b P) S0 So x y match phi with Some f => f | None => s_phi So end)
      (map (fun q => let '(x, y, f) := q in (x + a, y + b, f)) l) = rmap (map (shp a b))
      (mapM (fun xy : R * R * option (list R) => let '(x, y, phi) := xy in particle_init P S0 So x y match phi with Some f => f | None => s_phi So end) l)).
  { clear IH. induction l as [|[[x y] f] l IH]; [reflexivity|]. cbn [map mapM]. rewrite particle_init_sh by exact HF.
    destruct (particle_init P S0 So x y _) as [p|e]; [|reflexivity]. cbn [bind rmap]. rewrite IH. match goal with |- bind (rmap _ ?x) _ = _ => destruct x end; reflexivity. }
  rewrite E. clear E. match goal with |- bind (bind (rmap _ ?x) _) _ = _ => destruct x as [ps|e]; [|reflexivity] end. cbn [bind rmap].
  rewrite map_length, IH. match goal with |- bind (rmap _ ?x) _ = _ => destruct x end; reflexivity.
Qed.
Example x_C81_points : exists L, p_flow (ex_params (T := R) ex_bounds) = FNone /\ mplist_init (ex_params (T := R) ex_bounds) [(ex_solid Elastic, v0, [(1, 1, None)])] = Ok L /\
  exists L', mplist_init (shP 5 3 (ex_params ex_bounds)) [(ex_solid Elastic, v0, [(1 + 5, 1 + 3, None)])] = Ok L' /\ L' = shL 5 3 L.
Proof.
  eexists. split; [reflexivity|]. split; [reflexivity|]. eexists. split; [reflexivity|].
  pose proof (p_C81_points 5 3 (ex_params ex_bounds) [(ex_solid Elastic, v0, [(1, 1, None)])] (or_intror eq_refl)) as HH.
  apply (f_equal (fun r => match r with Ok l => l | Err _ => [] end)) in HH. exact HH.
Qed.
(** An inlet at the top puts its points at the horizontal coordinate [(x_M - x_m)/2], wherever the domain starts: in a
    shifted domain the new points are not the shifted ones.  The points themselves are the same in both runs. *)
Lemma p_C81_inlet_refuted : exists (P : params R) L L1 L2, inlet_top_f P L = Ok L1 /\ inlet_top_f (shP 10 0 P) (shL 10 0 L) = Ok L2 /\
  L2 <> shL 10 0 L1 /\ map (fun ph => map (fun p => vx (px p)) (ph_pts ph)) L2 = map (fun ph => map (fun p => vx (px p)) (ph_pts ph)) L1.
Proof.
  pose (P := ex_params (T := R) ex_bounds <| p_t := 1 |>).
  assert (D : inlet_due P (ex_solid Elastic) = Ok true).
  { unfold inlet_due. cbn [ex_solid s_inlet_rate attr bind].
    change (nmod (p_t P) n1) with (Rmod 1 1). rewrite (Rmod_interval 1 1 1) by (cbn; lra). cbn [bind].
    f_equal. apply andb_true_iff. split; [apply Rltb_true|apply negb_true_iff, Reqb_false]; cbn; unfold lit; cbn; lra. }
  exists P, [mkPhase (ex_solid Elastic) 0 v0 []].
  assert (D' : inlet_due (shP 10 0 P) (ex_solid Elastic) = Ok true) by exact D.
  unfold inlet_top_f, shL. cbn [map]. change (shph 10 0 (mkPhase (ex_solid Elastic) 0 v0 [])) with (mkPhase (T := R) (ex_solid Elastic) 0 v0 []).
  cbn [sol0 bind ph_sol]. unfold phases_. cbn [forM ph_sol]. rewrite D, D'. cbn [bind].
  cbn [ex_solid s_gap attr bind]. unfold add_point, particle_init, init_state, init_flow.
  change (p_pressure (shP 10 0 P)) with PNone. change (p_pressure P) with PNone. change (p_flow (shP 10 0 P)) with FNone. change (p_flow P) with FNone. cbn [bind].
  eexists. eexists. split; [reflexivity|]. split; [reflexivity|]. split.
  - intros E. apply (f_equal (fun l => match l with ph :: _ => match ph_pts ph with p :: _ => vx (px p) | [] => 0 end | [] => 0 end)) in E. cbn in E. unfold n2 in E. cbn in E. lra.
  - cbn. do 2 f_equal. unfold n2. cbn. lra.
Qed.
