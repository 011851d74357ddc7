(** * Small steps that are not stable: C140. *)
From Coq Require Import ZArith Reals List Bool Arith Lra Lia.
From RecordUpdate Require Import RecordUpdate.
From Verif Require Import State NumR Spec SpecLaws SpecStep SpecScheme LibList LibR ModelGrid ModelConstit ModelParticle ModelMPList
  ModelIntegr ModelMain ProofsGrid ProofsMap ProofsP2G ProofsWalls ProofsLaws ProofsInOut ProofsHist Concrete
  ThmMapping ThmWalls ThmLaws ThmInOut ThmHist ProofsStep ProofsPoints ThmStep ThmBalance ThmEnergy ThmFall ThmGeo ProofsScheme ThmScheme ThmAngular.
Import ListNotations.
Local Open Scope R_scope.

(** Two elastic points in one cell that move towards each other. *)
Definition beat (K g v : R) : list (phase R) :=
  [mkPhase (stuff K g) 2 v0 [ex_particle (1/4) (1/2) (mkV3 v 0 0) m0; ex_particle (3/4) (1/2) (mkV3 (- v) 0 0) m0]].
Definition beat_state (G : grid R) (h K g v : R) : state R := mkState (ex_params ex_bounds <| p_dt := h |>) G (beat K g v).
Lemma beat_plain G h K g v : grid_ok ex_gridp G -> plain (beat_state G h K g v).
Proof.
  intros OK. constructor; try assumption; try reflexivity; try (cbn; lra).
  - exact ex_proper.
  - intros ph [<-|[]]. reflexivity.
  - intros ph [<-|[]]. left. reflexivity.
  - eexists. split; [reflexivity|]. intros ph [<-|[]]. unfold equipped, has. cbn. split; discriminate.
  - intros ph p [<-|[]] [<-|[<-|[]]]; eexists; reflexivity.
  - repeat split; reflexivity.
  - left; reflexivity.
Qed.
Lemma beat_inside K g v : Forall (fun q => in_dom (ex_gridp (T := R)) (q_x q) /\ (p_check (ex_params (T := R) ex_bounds) = true -> vz (q_x q) = 0)) (bodies (beat K g v)).
Proof. repeat constructor; cbn; try (unR; lra); try reflexivity. Qed.
Ltac at_nodes k Hk := rewrite (proj1 unit_cells), (proj2 unit_cells), (proj1 (node_at k)), (proj2 (node_at k)); do 12 (destruct k as [|k]; [cbn; try tents|]); lia.
Lemma hatL k : (k < 12)%nat -> hat (ex_gridp (T := R)) (mkV3 (1/4) (1/2) 0) k = nth k [3/8; 1/8; 0; 0; 3/8; 1/8; 0; 0; 0; 0; 0; 0] 0.
Proof. intros Hk. unfold hat. at_nodes k Hk. Qed.
Lemma gxL k : (k < 12)%nat -> ghat (ex_gridp (T := R)) (mkV3 (1/4) (1/2) 0) AX k = nth k [-1/2; 1/2; 0; 0; -1/2; 1/2; 0; 0; 0; 0; 0; 0] 0.
Proof. intros Hk. unfold ghat. at_nodes k Hk. Qed.
Lemma gxR k : (k < 12)%nat -> ghat (ex_gridp (T := R)) (mkV3 (3/4) (1/2) 0) AX k = nth k [-1/2; 1/2; 0; 0; -1/2; 1/2; 0; 0; 0; 0; 0; 0] 0.
Proof. intros Hk. unfold ghat. at_nodes k Hk. Qed.
Lemma gyL k : (k < 12)%nat -> ghat (ex_gridp (T := R)) (mkV3 (1/4) (1/2) 0) AY k = nth k [-3/4; -1/4; 0; 0; 3/4; 1/4; 0; 0; 0; 0; 0; 0] 0.
Proof. intros Hk. unfold ghat. at_nodes k Hk. Qed.
Lemma gyR k : (k < 12)%nat -> ghat (ex_gridp (T := R)) (mkV3 (3/4) (1/2) 0) AY k = nth k [-1/4; -3/4; 0; 0; 1/4; 3/4; 0; 0; 0; 0; 0; 0] 0.
Proof. intros Hk. unfold ghat. at_nodes k Hk. Qed.
Lemma beat_step G h K g v : wall_free (bv G) (bh G) ->
  map q_v (t_step (scheme_of (ex_params ex_bounds <| p_dt := h |>) (mkLoads 0 0 0 0) G) (bodies (beat K g v))) =
  [mkV3 (v * (1 - h * h * (K + 4/3 * g) / 2)) 0 0; mkV3 (- v * (1 - h * h * (K + 4/3 * g) / 2)) 0 0].
Proof.
  intros HW. set (E := scheme_of _ _ _). set (B := bodies (beat K g v)).
  assert (HO : forall a k, e_open E a k = 1) by (intros a k; cbn [E scheme_of e_open]; unfold passes; destruct (HW k) as [V1 V2]; rewrite V1, V2; destruct a; reflexivity).
  assert (M : forall k, (k < 12)%nat -> t_mass E B k = nth k [1; 1; 0; 0; 1; 1; 0; 0; 0; 0; 0; 0] 0).
  { intros k Hk. unfold t_mass. cbn - [nth hat]. rewrite (hatL k Hk), (hat2 k Hk). do 12 (destruct k as [|k]; [cbn; unR; lra|]). lia. }
  assert (VX : forall k, (k < 12)%nat -> t_vel E B AX k = nth k [v/2; -v/2; 0; 0; v/2; -v/2; 0; 0; 0; 0; 0; 0] 0).
  { intros k Hk. unfold t_vel. rewrite (M k Hk), HO. change (e_tol E) with (1/1000). cbn - [nth hat]. rewrite (hatL k Hk), (hat2 k Hk). do 12 (destruct k as [|k]; [cbn; unR; destruct (Rlt_dec _ _); lra|]). lia. }
  assert (VO : forall a k, a <> AX -> (k < 12)%nat -> t_vel E B a k = 0).
  { intros a k Ha Hk. unfold t_vel. destruct (Rlt_dec _ _); [|reflexivity]. destruct a; [destruct (Ha eq_refl)| |]; cbn - [nth hat]; unR; unfold Rdiv; ring. }
  assert (D : forall q, In q B -> t_strain E B q = mkM3 (- h * v) 0 0 0 0 0 0 0 0).
  { assert (Z : forall a b q, a <> AX -> b <> AX -> fsum 12 (fun k => (t_vel E B a k * ghat (e_P E) (q_x q) b k + t_vel E B b k * ghat (e_P E) (q_x q) a k) / 2) = 0).
    { intros a b q Ha Hb. rewrite (fsum_ext 12 _ (fun _ => 0)); [cbn; lra|]. intros k Hk. rewrite (VO a k Ha Hk), (VO b k Hb Hk). lra. }
    intros q Hq. unfold t_strain, m3. change (e_nodes E) with 12%nat. change (e_dt E) with h. rewrite (Z AY AY q), (Z AY AZ q), (Z AZ AY q), (Z AZ AZ q) by discriminate.
    change (e_P E) with (ex_gridp (T := R)).
    assert (Q : (q_x q = mkV3 (1/4) (1/2) 0) \/ (q_x q = mkV3 (3/4) (1/2) 0)) by (destruct Hq as [<-|[<-|[]]]; auto).
    assert (XX : fsum 12 (fun k => (t_vel E B AX k * ghat ex_gridp (q_x q) AX k + t_vel E B AX k * ghat ex_gridp (q_x q) AX k) / 2) = - v).
    { rewrite (fsum_ext 12 _ (fun k => nth k [v/2; -v/2; 0; 0; v/2; -v/2; 0; 0; 0; 0; 0; 0] 0 * nth k [-1/2; 1/2; 0; 0; -1/2; 1/2; 0; 0; 0; 0; 0; 0] 0)).
      - cbn. lra.
      - intros k Hk. rewrite (VX k Hk). destruct Q as [-> | ->]; [rewrite (gxL k Hk)|rewrite (gxR k Hk)]; lra. }
    assert (XY : fsum 12 (fun k => (t_vel E B AX k * ghat ex_gridp (q_x q) AY k + t_vel E B AY k * ghat ex_gridp (q_x q) AX k) / 2) = 0).
    { destruct Q as [-> | ->].
      - rewrite (fsum_ext 12 _ (fun k => nth k [v/2; -v/2; 0; 0; v/2; -v/2; 0; 0; 0; 0; 0; 0] 0 * nth k [-3/4; -1/4; 0; 0; 3/4; 1/4; 0; 0; 0; 0; 0; 0] 0 / 2)); [cbn; lra|].
        intros k Hk. rewrite (VX k Hk), (VO AY k) by (discriminate || assumption). rewrite (gyL k Hk). lra.
      - rewrite (fsum_ext 12 _ (fun k => nth k [v/2; -v/2; 0; 0; v/2; -v/2; 0; 0; 0; 0; 0; 0] 0 * nth k [-1/4; -3/4; 0; 0; 1/4; 3/4; 0; 0; 0; 0; 0; 0] 0 / 2)); [cbn; lra|].
        intros k Hk. rewrite (VX k Hk), (VO AY k) by (discriminate || assumption). rewrite (gyR k Hk). lra. }
    assert (YX : fsum 12 (fun k => (t_vel E B AY k * ghat ex_gridp (q_x q) AX k + t_vel E B AX k * ghat ex_gridp (q_x q) AY k) / 2) = 0).
    { rewrite <- XY. apply fsum_ext. intros k _. lra. }
    assert (XZ : fsum 12 (fun k => (t_vel E B AX k * ghat ex_gridp (q_x q) AZ k + t_vel E B AZ k * ghat ex_gridp (q_x q) AX k) / 2) = 0).
    { rewrite (fsum_ext 12 _ (fun _ => 0)); [cbn; lra|]. intros k Hk. rewrite (VO AZ k) by (discriminate || assumption). cbn [ghat]. lra. }
    assert (ZX : fsum 12 (fun k => (t_vel E B AZ k * ghat ex_gridp (q_x q) AX k + t_vel E B AX k * ghat ex_gridp (q_x q) AZ k) / 2) = 0).
    { rewrite <- XZ. apply fsum_ext. intros k _. lra. }
    rewrite XX, XY, YX, XZ, ZX. f_equal; ring. }
  set (sx := - h * v * (K + 4/3 * g)). set (sy := - h * v * (K - 2/3 * g)).
  assert (ST : forall q, In q B -> t_stress E q (mkM3 (- h * v) 0 0 0 0 0 0 0 0) = mkM3 sx 0 0 0 sy 0 0 0 sy).
  { intros q Hq. assert (Q : q_s q = m0 /\ q_mat q = Solid K g) by (destruct Hq as [<-|[<-|[]]]; split; reflexivity). destruct Q as [Q1 Q2].
    apply ThmLaws.m3_ext; unfold t_stress, t_material, over, m3, tr3; rewrite Q1, Q2; cbn; unR; unfold sx, sy; field. }
  assert (EG0 : e_g E = v0) by (cbn [E scheme_of e_g ld_g ld_theta]; rewrite !Rmult_0_l; reflexivity).
  set (B1 := map (t_strained E B) B).
  assert (EB1 : B1 = map (fun q => mkMp (q_mat q) (q_m q) (q_V q) (q_x q) (q_v q) (mkM3 sx 0 0 0 sy 0 0 0 sy) (t_pressure q (mkM3 (- h * v) 0 0 0 0 0 0 0 0)) v0 (q_first q)) B).
  { unfold B1. apply map_ext_in. intros q Hq. unfold t_strained. rewrite (D q Hq), (ST q Hq). rewrite EG0. destruct Hq as [<-|[<-|[]]]; reflexivity. }
  assert (FX : forall k, (k < 12)%nat -> t_force E B1 AX k = nth k [sx; -sx; 0; 0; sx; -sx; 0; 0; 0; 0; 0; 0] 0).
  { intros k Hk. rewrite EB1. unfold t_force. rewrite map_map. unfold over. cbn - [nth hat ghat]. rewrite (gxL k Hk), (gxR k Hk). unR. do 12 (destruct k as [|k]; [cbn - [hat ghat]; lra|]). lia. }
  assert (FY : forall k, (k < 12)%nat -> t_force E B1 AY k = nth k [sy; sy; 0; 0; -sy; -sy; 0; 0; 0; 0; 0; 0] 0).
  { intros k Hk. rewrite EB1. unfold t_force. rewrite map_map. unfold over. cbn - [nth hat ghat]. rewrite (gyL k Hk), (gyR k Hk). unR. do 12 (destruct k as [|k]; [cbn - [hat ghat]; lra|]). lia. }
  assert (FZ : forall k, (k < 12)%nat -> t_force E B1 AZ k = 0).
  { intros k Hk. rewrite EB1. unfold t_force. rewrite map_map. unfold over. cbn - [nth hat]. unR. lra. }
  assert (AX' : forall k, (k < 12)%nat -> t_acc E B B1 AX k = nth k [sx; -sx; 0; 0; sx; -sx; 0; 0; 0; 0; 0; 0] 0).
  { intros k Hk. unfold t_acc. rewrite (FX k Hk), (M k Hk), HO. change (e_tol E) with (1/1000). change (e_damp E) with 1. do 12 (destruct k as [|k]; [cbn - [sx]; destruct (Rlt_dec _ _); lra|]). lia. }
  assert (AY' : forall k, (k < 12)%nat -> t_acc E B B1 AY k = nth k [sy; sy; 0; 0; -sy; -sy; 0; 0; 0; 0; 0; 0] 0).
  { intros k Hk. unfold t_acc. rewrite (FY k Hk), (M k Hk), HO. change (e_tol E) with (1/1000). change (e_damp E) with 1. do 12 (destruct k as [|k]; [cbn - [sy]; destruct (Rlt_dec _ _); lra|]). lia. }
  assert (AZ' : forall k, (k < 12)%nat -> t_acc E B B1 AZ k = 0).
  { intros k Hk. unfold t_acc. rewrite (FZ k Hk). destruct (Rlt_dec _ _); [unfold Rdiv; ring|reflexivity]. }
  assert (SL : forall a, fsum 12 (fun k => hat (ex_gridp (T := R)) (mkV3 (1/4) (1/2) 0) k * t_acc E B B1 a k) = match a with AX => sx / 2 | _ => 0 end).
  { intros []; [rewrite (fsum_ext 12 _ (fun k => nth k [3/8; 1/8; 0; 0; 3/8; 1/8; 0; 0; 0; 0; 0; 0] 0 * nth k [sx; -sx; 0; 0; sx; -sx; 0; 0; 0; 0; 0; 0] 0)); [cbn - [sx]; lra|intros k Hk; rewrite (AX' k Hk), (hatL k Hk); reflexivity]
      |rewrite (fsum_ext 12 _ (fun k => nth k [3/8; 1/8; 0; 0; 3/8; 1/8; 0; 0; 0; 0; 0; 0] 0 * nth k [sy; sy; 0; 0; -sy; -sy; 0; 0; 0; 0; 0; 0] 0)); [cbn - [sy]; lra|intros k Hk; rewrite (AY' k Hk), (hatL k Hk); reflexivity]
      |rewrite (fsum_ext 12 _ (fun k => 0)); [cbn; lra|intros k Hk; rewrite (AZ' k Hk); ring]]. }
  assert (SR : forall a, fsum 12 (fun k => hat (ex_gridp (T := R)) (mkV3 (3/4) (1/2) 0) k * t_acc E B B1 a k) = match a with AX => - sx / 2 | _ => 0 end).
  { intros []; [rewrite (fsum_ext 12 _ (fun k => nth k [1/8; 3/8; 0; 0; 1/8; 3/8; 0; 0; 0; 0; 0; 0] 0 * nth k [sx; -sx; 0; 0; sx; -sx; 0; 0; 0; 0; 0; 0] 0)); [cbn - [sx]; lra|intros k Hk; rewrite (AX' k Hk), (hat2 k Hk); reflexivity]
      |rewrite (fsum_ext 12 _ (fun k => nth k [1/8; 3/8; 0; 0; 1/8; 3/8; 0; 0; 0; 0; 0; 0] 0 * nth k [sy; sy; 0; 0; -sy; -sy; 0; 0; 0; 0; 0; 0] 0)); [cbn - [sy]; lra|intros k Hk; rewrite (AY' k Hk), (hat2 k Hk); reflexivity]
      |rewrite (fsum_ext 12 _ (fun k => 0)); [cbn; lra|intros k Hk; rewrite (AZ' k Hk); ring]]. }
  transitivity (map (fun q => v3 (fun a => comp a (q_v q) + h * fsum 12 (fun k => hat (ex_gridp (T := R)) (q_x q) k * t_acc E B B1 a k))) B).
  { unfold t_step. fold B1. unfold B1 at 2. rewrite !map_map. reflexivity. }
  clear - SL SR. clearbody B1. set (A := t_acc E B B1) in *. clearbody A. subst B. unfold v3.
  cbn [beat bodies bodies_from live ph_pts ph_n map app firstn mp_of q_v q_x velocity px ex_particle]. rewrite !SL, !SR. cbn. unR. subst sx. f_equal; [|f_equal]; f_equal; field.
Qed.
(** ** C140 *)
(** Two elastic points of one cell that move towards each other: after a step
    their velocity is [1 - dt^2 (K + 4/3 G) / 2] times what it was, and it has
    grown unless [dt^2 (K + 4/3 G) <= 4]; how far the points move in a step has no say. *)
Lemma p_C140_exact : forall fill h K g v, 0 < h -> 0 < K -> 0 <= g -> v <> 0 -> exists (s s' : state R) tr, plain s /\ p_dt (sP s) = h /\
  map q_v (bodies (sL s)) = [mkV3 v 0 0; mkV3 (- v) 0 0] /\ Forall (fun q => q_mat q = Solid K g /\ q_s q = m0) (bodies (sL s)) /\
  after calm fill 1 s [] = Ok (s', tr) /\ exists f, map q_v (bodies (sL s')) = [mkV3 (f * v) 0 0; mkV3 (- (f * v)) 0 0] /\
  f = 1 - h * h * (K + 4/3 * g) / 2 /\ (Rabs (f * v) <= Rabs v <-> h * h * (K + 4/3 * g) <= 4).
Proof.
  intros fill h K g v Hh HK Hg Hv. destruct (grid_init_ok ex_gridp ex_bounds ex_proper) as (G & EG & OK).
  destruct (p_C84_run calm fill 1 (beat_state G h K g v) [] (beat_plain G h K g v OK)) as (s' & tr & E & _ & EB); [intros P; split; discriminate|intros [|j] Hj; [exact (beat_inside K g v)|lia]|].
  exists (beat_state G h K g v), s', tr. split; [apply beat_plain, OK|]. split; [reflexivity|]. split; [reflexivity|]. split; [repeat constructor; reflexivity|]. split; [exact E|].
  exists (1 - h * h * (K + 4/3 * g) / 2). split; [|split; [reflexivity|]].
  - rewrite EB. cbn [t_run]. etransitivity; [exact (beat_step G h K g v (no_walls G EG OK))|]. f_equal; [|f_equal]; f_equal; ring.
  - rewrite Rabs_mult. pose proof (Rabs_pos_lt v Hv) as V. assert (0 < h * h * (K + 4/3 * g)) by (apply Rmult_lt_0_compat; [apply Rmult_lt_0_compat|]; lra).
    set (m := h * h * (K + 4/3 * g)) in *. split; intros L.
    + destruct (Rle_dec m 4) as [|N]; [assumption|]. exfalso. rewrite Rabs_left in L by lra. nra.
    + rewrite <- (Rmult_1_l (Rabs v)) at 2. apply Rmult_le_compat_r; [lra|]. apply Rabs_le. lra.
Qed.
(** However little the points move in a step, and however many times over: there are bodies whose velocities grow that much in one step. *)
Lemma p_C140_small_steps_refuted : forall fill N eps, 1 < N -> 0 < eps -> exists (s s' : state R) tr, plain s /\
  Forall (fun q => forall a, Rabs (comp a (q_v q)) * p_dt (sP s) <= eps * Rmin (cell_w (pG (sP s))) (cell_h (pG (sP s)))) (bodies (sL s)) /\
  after calm fill 1 s [] = Ok (s', tr) /\ Forall (fun q => q_v q <> v0) (bodies (sL s)) /\
  map q_v (bodies (sL s')) = map (fun q => v3 (fun a => - N * comp a (q_v q))) (bodies (sL s)).
Proof.
  intros fill N eps HN He. destruct (grid_init_ok ex_gridp ex_bounds ex_proper) as (G & EG & OK).
  destruct (p_C84_run calm fill 1 (beat_state G 1 (2 * (N + 1)) 0 eps) [] (beat_plain G _ _ _ _ OK)) as (s' & tr & E & _ & EB); [intros P; split; discriminate|intros [|j] Hj; [exact (beat_inside _ _ _)|lia]|].
  exists (beat_state G 1 (2 * (N + 1)) 0 eps), s', tr. split; [apply beat_plain, OK|]. split.
  - change (pG (sP (beat_state G 1 (2 * (N + 1)) 0 eps))) with (ex_gridp (T := R)). rewrite (proj1 unit_cells), (proj2 unit_cells), Rmin_left by lra.
    apply Forall_forall; intros q [<-|[<-|[]]] []; cbn; unR; rewrite ?Rabs_Ropp, ?Rabs_R0; try (rewrite Rabs_right by lra); lra.
  - split; [exact E|]. split.
    + apply Forall_forall; intros q [<-|[<-|[]]] K; apply (f_equal vx) in K; cbn in K; revert K; unR; lra.
    + rewrite EB. cbn [t_run]. etransitivity; [exact (beat_step G 1 _ 0 eps (no_walls G EG OK))|]. cbn. unR. f_equal; [|f_equal]; unfold v3; cbn; unR; f_equal; lra.
Qed.
