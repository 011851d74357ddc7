(** * The angular momentum of a free body: C135. *)
From Coq Require Import ZArith Reals List Bool Arith Lra Lia.
From RecordUpdate Require Import RecordUpdate.
From Verif Require Import State NumR Spec SpecLaws SpecStep SpecScheme LibList LibR ModelGrid ModelConstit ModelParticle ModelMPList
  ModelIntegr ModelMain ProofsGrid ProofsMap ProofsP2G ProofsWalls ProofsLaws ProofsInOut ProofsHist Concrete
  ThmMapping ThmWalls ThmLaws ThmInOut ThmHist ProofsStep ProofsPoints ThmStep ThmBalance ThmEnergy ThmFall ThmGeo ProofsScheme ThmScheme.
Import ListNotations.
Local Open Scope R_scope.

(** The angular momentum of a set of points about the origin. *)
Definition angular (B : list mp) : R := Rsum (map (fun q => q_m q * (vx (q_x q) * vy (q_v q) - vy (q_x q) * vx (q_v q))) B).
(** The first moment of the mass that a node gets. *)
Definition moment (E : scheme) (B : list mp) (a : axis) (k : nat) : R := Rsum (map (fun q => q_m q * comp a (q_x q) * hat (e_P E) (q_x q) k) B).
(** A nodal field seen by a point. *)
Definition seen (E : scheme) (q : mp) (w : nat -> R) : R := fsum (e_nodes E) (fun k => hat (e_P E) (q_x q) k * w k).
Lemma seen_sum E (c : mp -> R) w B : Rsum (map (fun q => c q * seen E q w) B) = fsum (e_nodes E) (fun k => w k * Rsum (map (fun q => c q * hat (e_P E) (q_x q) k) B)).
Proof.
  unfold seen. rewrite (fsum_ext (e_nodes E) _ (fun k => Rsum (map (fun q => w k * (c q * hat (e_P E) (q_x q) k)) B))) by (intros k _; symmetry; apply Rsum_scal).
  rewrite fsum_Rsum_swap. apply Rsum_ext. intros q _. rewrite <- fsum_scal. apply fsum_ext. intros k _. ring.
Qed.
Lemma momentum_vel E B a k w : (forall a k, e_open E a k = 1) -> 0 <= e_tol E -> (t_mass E B k <= e_tol E -> w = 0) ->
  w * Rsum (map (fun q => q_m q * comp a (q_v q) * hat (e_P E) (q_x q) k) B) = w * (t_mass E B k * t_vel E B a k).
Proof.
  intros HO HT HW. unfold t_vel. destruct (Rlt_dec (e_tol E) (t_mass E B k)) as [L|L]; [|rewrite HW by lra; ring]. rewrite HO. field. lra.
Qed.
Lemma acc_light E B B1 a k : t_mass E B k <= e_tol E -> t_acc E B B1 a k = 0.
Proof. intros H. unfold t_acc. destruct (Rlt_dec _ _); [lra|reflexivity]. Qed.
Lemma vel_light E B a k : t_mass E B k <= e_tol E -> t_vel E B a k = 0.
Proof. intros H. unfold t_vel. destruct (Rlt_dec _ _); [lra|reflexivity]. Qed.

Lemma t_angular (E : scheme) (B : list mp) : (forall a k, e_open E a k = 1) -> 0 <= e_tol E ->
  let acc := t_acc E B (map (t_strained E B) B) in let vel := t_vel E B in
  angular (t_step E B) = angular B
    + e_dt E * fsum (e_nodes E) (fun k => moment E B AX k * acc AY k - moment E B AY k * acc AX k)
    + e_dt E * e_dt E * (fsum (e_nodes E) (fun k => t_mass E B k * (acc AX k * vel AY k - acc AY k * vel AX k))
        + Rsum (map (fun q => q_m q * (seen E q (fun k => vel AX k + e_dt E * acc AX k) * seen E q (acc AY) - seen E q (fun k => vel AY k + e_dt E * acc AY k) * seen E q (acc AX))) B)).
Proof.
  intros HO HT acc vel. set (dt := e_dt E). set (U := fun a k => vel a k + dt * acc a k).
  assert (LU : forall a k, t_mass E B k <= e_tol E -> U a k = 0) by (intros a k L; unfold U, vel, acc; rewrite vel_light, acc_light by exact L; ring).
  transitivity (Rsum (map (fun q => q_m q * (vx (q_x q) * vy (q_v q) - vy (q_x q) * vx (q_v q))
     + (dt * (q_m q * vx (q_x q) * seen E q (acc AY)) + - dt * (q_m q * vy (q_x q) * seen E q (acc AX))
     + (dt * (q_m q * vy (q_v q) * seen E q (U AX)) + - dt * (q_m q * vx (q_v q) * seen E q (U AY))
     + dt * dt * (q_m q * (seen E q (U AX) * seen E q (acc AY) - seen E q (U AY) * seen E q (acc AX)))))) B)).
  { unfold angular, t_step. rewrite !map_map. apply Rsum_ext. intros q _. cbn [t_moved t_strained q_m q_x q_v v3 vx vy]. fold dt. cbn [comp]. unfold seen, U, acc, vel. ring. }
  rewrite !Rsum_plus, !Rsum_scal. fold (angular B).
  rewrite (seen_sum E (fun q => q_m q * vx (q_x q)) (acc AY)), (seen_sum E (fun q => q_m q * vy (q_x q)) (acc AX)), (seen_sum E (fun q => q_m q * vy (q_v q)) (U AX)), (seen_sum E (fun q => q_m q * vx (q_v q)) (U AY)).
  rewrite (fsum_ext (e_nodes E) (fun k => U AX k * _) (fun k => U AX k * (t_mass E B k * vel AY k))) by (intros k _; apply (momentum_vel E B AY k (U AX k) HO HT (LU AX k))).
  rewrite (fsum_ext (e_nodes E) (fun k => U AY k * _) (fun k => U AY k * (t_mass E B k * vel AX k))) by (intros k _; apply (momentum_vel E B AX k (U AY k) HO HT (LU AY k))).
  replace (fsum (e_nodes E) (fun k => U AX k * (t_mass E B k * vel AY k))) with (fsum (e_nodes E) (fun k => U AY k * (t_mass E B k * vel AX k)) + dt * fsum (e_nodes E) (fun k => t_mass E B k * (acc AX k * vel AY k - acc AY k * vel AX k))).
  2:{ rewrite <- fsum_scal, <- fsum_plus. apply fsum_ext. intros k _. unfold U. ring. }
  replace (fsum (e_nodes E) (fun k => moment E B AX k * acc AY k - moment E B AY k * acc AX k)) with
    (fsum (e_nodes E) (fun k => acc AY k * Rsum (map (fun q => q_m q * vx (q_x q) * hat (e_P E) (q_x q) k) B)) - fsum (e_nodes E) (fun k => acc AX k * Rsum (map (fun q => q_m q * vy (q_x q) * hat (e_P E) (q_x q) k) B))).
  2:{ rewrite <- fsum_minus. apply fsum_ext. intros k _. unfold moment. cbn [comp]. ring. }
  unfold U. ring.
Qed.

(** ** C135 *)
(** The exact change of the angular momentum in a step away from walls: the
    nodal forces act with the lever of the mass that the node gets, not with that of the node. *)
Lemma p_C135_exact : forall uf fill (s s' : state R), proper (pG (sP s)) -> grid_ok (pG (sP s)) (sG s) ->
  all_live (sL s) (fun _ p => in_dom (pG (sP s)) (px p)) -> shut (sP s) -> no_rub (pB (sP s)) ->
  simple_laws (sL s) -> own_velocities (sL s) -> no_surface (sP s) (uf (sP s)) -> wall_free (bv (sG s)) (bh (sG s)) -> 0 <= p_Mtol (sP s) ->
  time_march uf fill s = Ok s' ->
  let E := scheme_of (sP s) (uf (sP s)) (sG s) in let B := bodies (sL s) in let dt := p_dt (sP s) in
  let acc := t_acc E B (map (t_strained E B) B) in let vel := t_vel E B in
  angular (bodies (sL s')) = angular B
    + dt * fsum (nodes (pG (sP s))) (fun k => moment E B AX k * acc AY k - moment E B AY k * acc AX k)
    + dt * dt * (fsum (nodes (pG (sP s))) (fun k => t_mass E B k * (acc AX k * vel AY k - acc AY k * vel AX k))
        + Rsum (map (fun q => q_m q * (seen E q (fun k => vel AX k + dt * acc AX k) * seen E q (acc AY) - seen E q (fun k => vel AY k + dt * acc AY k) * seen E q (acc AX))) B)).
Proof.
  intros uf fill s s' H1 H2 H3 H4 H5 H6 H7 H8 HW HT HE. cbv zeta. rewrite (p_C84_step uf fill s s') by assumption.
  apply (t_angular (scheme_of (sP s) (uf (sP s)) (sG s)) (bodies (sL s))); [|exact HT].
  intros a k. cbn [scheme_of e_open]. unfold passes. destruct (HW k) as [V1 V2]. rewrite V1, V2. destruct a, (roughness (pB (sP s))); reflexivity.
Qed.
(** Points without forces keep their angular momentum, whatever their velocities. *)
Lemma p_C135_no_force : forall uf fill (s s' : state R), proper (pG (sP s)) -> grid_ok (pG (sP s)) (sG s) ->
  all_live (sL s) (fun _ p => in_dom (pG (sP s)) (px p)) -> shut (sP s) -> no_rub (pB (sP s)) ->
  simple_laws (sL s) -> own_velocities (sL s) -> no_surface (sP s) (uf (sP s)) -> wall_free (bv (sG s)) (bh (sG s)) -> 0 <= p_Mtol (sP s) ->
  time_march uf fill s = Ok s' ->
  (forall a k, t_force (scheme_of (sP s) (uf (sP s)) (sG s)) (map (t_strained (scheme_of (sP s) (uf (sP s)) (sG s)) (bodies (sL s))) (bodies (sL s))) a k = 0) ->
  angular (bodies (sL s')) = angular (bodies (sL s)).
Proof.
  intros uf fill s s' H1 H2 H3 H4 H5 H6 H7 H8 HW HT HE HF. pose proof (p_C135_exact uf fill s s' H1 H2 H3 H4 H5 H6 H7 H8 HW HT HE) as Q. cbv zeta in Q. rewrite Q. clear Q.
  set (E := scheme_of (sP s) (uf (sP s)) (sG s)) in *. set (B := bodies (sL s)) in *.
  assert (A0 : forall a k, t_acc E B (map (t_strained E B) B) a k = 0) by (intros a k; unfold t_acc; rewrite HF; destruct (Rlt_dec _ _); [unfold Rdiv; ring|reflexivity]).
  rewrite (fsum_zero _ (fun k => moment E B AX k * _ - _)) by (intros k _; rewrite !A0; ring). rewrite (fsum_zero _ (fun k => t_mass E B k * _)) by (intros k _; rewrite !A0; ring).
  rewrite (Rsum_zero (fun q => q_m q * _)); [ring|]. intros q _. unfold seen at 2 4. rewrite !fsum_zero by (intros k _; rewrite A0; ring). ring.
Qed.
(** A body at rest, elastic throughout: nothing is strained, and all that happens is of first order. *)
Lemma rest_vel E B a k : (forall q, In q B -> q_v q = v0) -> t_vel E B a k = 0.
Proof. intros HR. unfold t_vel. destruct (Rlt_dec _ _); [|reflexivity]. rewrite Rsum_zero; [unfold Rdiv; ring|]. intros q Hq. rewrite (HR q Hq). destruct a; cbn; ring. Qed.
Lemma rest_angular E B : (forall a k, e_open E a k = 1) -> 0 <= e_tol E -> (forall q, In q B -> q_v q = v0) ->
  angular (t_step E B) = e_dt E * fsum (e_nodes E) (fun k => moment E B AX k * t_acc E B (map (t_strained E B) B) AY k - moment E B AY k * t_acc E B (map (t_strained E B) B) AX k).
Proof.
  intros HO HT HR. pose proof (t_angular E B HO HT) as Q. cbv zeta in Q. rewrite Q. clear Q. set (acc := t_acc E B (map (t_strained E B) B)).
  assert (A0 : angular B = 0) by (apply Rsum_zero; intros q Hq; rewrite (HR q Hq); cbn; ring). rewrite A0.
  rewrite (fsum_zero _ (fun k => t_mass E B k * _)) by (intros k _; rewrite !(rest_vel E B _ k HR); ring).
  assert (SD : forall q a, seen E q (fun k => t_vel E B a k + e_dt E * acc a k) = e_dt E * seen E q (acc a)) by (intros q a; unfold seen; rewrite <- fsum_scal; apply fsum_ext; intros k _; rewrite (rest_vel E B a k HR); ring).
  rewrite (Rsum_zero (fun q => q_m q * _)); [ring|]. intros q _. rewrite !SD. ring.
Qed.
Lemma rest_strain E B q : (forall q, In q B -> q_v q = v0) -> t_strain E B q = m3 (fun _ _ => 0).
Proof.
  intros HR. assert (Z : forall a b, e_dt E * fsum (e_nodes E) (fun k => (t_vel E B a k * ghat (e_P E) (q_x q) b k + t_vel E B b k * ghat (e_P E) (q_x q) a k) / 2) = 0).
  { intros a b. rewrite fsum_zero; [ring|]. intros k _. rewrite !(rest_vel E B _ k HR). unfold Rdiv. ring. }
  unfold t_strain, m3. rewrite !Z. reflexivity.
Qed.

Lemma still_stress E q K G : q_mat q = Solid K G -> t_stress E q (m3 (fun _ _ => 0)) = q_s q.
Proof. intros HM. apply ThmLaws.m3_ext; unfold t_stress, t_material, over, m3, tr3; rewrite HM; cbn; field. Qed.

(** Two elastic points in one cell; at rest, with the first pulled along x, and as dust that moves apart. *)
Definition stuff (K G : R) : solid R :=
  mkSolid 2 1 Elastic [1/2; 1/2] (Some K) (Some G) (Some 1) (Some 2) (Some 0) (Some (1/2)) (Some 1) (Some 1)
    (Some (Ar [1/2; 1/2])) (Some (Ar [1/2; 1/2])) (Some (Ar [1; 1])) (Some 1) (Some 1) (Some 1) (Some 1)
    (Some 2) (Some 1) (Some 1) (Some 1) (Some 1) (Some 0) (Some 0) (Some 1) (Some 1) (Some 1) [1] (Some (1/2, 1/2)) false None.
Definition pair_of (K G : R) (v w : V3 R) (s : M3 R) : list (phase R) :=
  [mkPhase (stuff K G) 2 v0 [ex_particle (1/4) (1/4) v s; ex_particle (3/4) (1/2) w m0]].
Definition lump := pair_of 3 2 v0 v0 (mkM3 1 0 0 0 0 0 0 0 0).
Definition dust := pair_of 0 0 (mkV3 1 0 0) (mkV3 0 2 0) m0.
Definition calm (_ : params R) : loads R := mkLoads 0 0 0 0.
Definition pair_state (G : grid R) L : state R := mkState (ex_params ex_bounds) G L.
Lemma pair_plain G K g v w s : grid_ok ex_gridp G -> plain (pair_state G (pair_of K g v w s)).
Proof.
  intros OK. constructor; try assumption; try reflexivity; try (cbn; lra).
  - exact ex_proper.
  - intros ph [<-|[]]. reflexivity.
  - intros ph [<-|[]]. left. reflexivity.
  - eexists. split; [reflexivity|]. intros ph [<-|[]]. unfold equipped, has. cbn. split; discriminate.
  - intros ph p [<-|[]] [<-|[<-|[]]]; eexists; reflexivity.
  - repeat split; reflexivity.
  - left; reflexivity.
Qed.
Lemma pair_inside K g v w s : Forall (fun q => in_dom (ex_gridp (T := R)) (q_x q) /\ (p_check (ex_params (T := R) ex_bounds) = true -> vz (q_x q) = 0)) (bodies (pair_of K g v w s)).
Proof. repeat constructor; cbn; try (unR; lra); try reflexivity. Qed.
Lemma unit_cells : cell_w (ex_gridp (T := R)) = 1 /\ cell_h (ex_gridp (T := R)) = 1.
Proof. unfold cell_w, cell_h. cbn. unR. split; unfold n2, n1; cbn; field. Qed.
Ltac tents := unfold tent, slope, Rmax, Rabs; repeat (match goal with |- context [Rcase_abs ?a] => destruct (Rcase_abs a) end; try lra);
  repeat (match goal with |- context [Rle_dec ?a ?b] => destruct (Rle_dec a b) | |- context [Rlt_dec ?a ?b] => destruct (Rlt_dec a b) end; try lra); lra.
Lemma node_at k : node_x (ex_gridp (T := R)) k = INR (k mod 4) /\ node_y (ex_gridp (T := R)) k = INR (k / 4).
Proof. unfold node_x, node_y, col, row. rewrite (proj1 unit_cells), (proj2 unit_cells). cbn [x_m y_m nx ex_gridp]. unR. split; ring. Qed.
Lemma hat1 k : (k < 12)%nat -> hat (ex_gridp (T := R)) (mkV3 (1/4) (1/4) 0) k = nth k [9/16; 3/16; 0; 0; 3/16; 1/16; 0; 0; 0; 0; 0; 0] 0.
Proof.
  intros Hk. unfold hat. rewrite (proj1 unit_cells), (proj2 unit_cells), (proj1 (node_at k)), (proj2 (node_at k)). do 12 (destruct k as [|k]; [cbn; try tents|]). lia.
Qed.
Lemma hat2 k : (k < 12)%nat -> hat (ex_gridp (T := R)) (mkV3 (3/4) (1/2) 0) k = nth k [1/8; 3/8; 0; 0; 1/8; 3/8; 0; 0; 0; 0; 0; 0] 0.
Proof.
  intros Hk. unfold hat. rewrite (proj1 unit_cells), (proj2 unit_cells), (proj1 (node_at k)), (proj2 (node_at k)). do 12 (destruct k as [|k]; [cbn; try tents|]). lia.
Qed.
Lemma ghat1 k : (k < 12)%nat -> ghat (ex_gridp (T := R)) (mkV3 (1/4) (1/4) 0) AX k = nth k [-3/4; 3/4; 0; 0; -1/4; 1/4; 0; 0; 0; 0; 0; 0] 0.
Proof.
  intros Hk. unfold ghat. rewrite (proj1 unit_cells), (proj2 unit_cells), (proj1 (node_at k)), (proj2 (node_at k)). do 12 (destruct k as [|k]; [cbn; try tents|]). lia.
Qed.

Lemma lump_turns G : wall_free (bv G) (bh G) -> angular (t_step (scheme_of (ex_params ex_bounds) (mkLoads 0 0 0 0) G) (bodies lump)) = 1/10 * (46/385).
Proof.
  intros HW. set (E := scheme_of _ _ _).
  assert (HO : forall a k, e_open E a k = 1) by (intros a k; cbn [E scheme_of e_open]; unfold passes; destruct (HW k) as [V1 V2]; rewrite V1, V2; destruct a; reflexivity).
  assert (HR : forall q, In q (bodies lump) -> q_v q = v0) by (intros q [<-|[<-|[]]]; reflexivity).
  rewrite (rest_angular E (bodies lump) HO); [|cbn; lra|exact HR].
  assert (M : forall k, (k < 12)%nat -> t_mass E (bodies lump) k = nth k [11/8; 9/8; 0; 0; 5/8; 7/8; 0; 0; 0; 0; 0; 0] 0).
  { intros k Hk. unfold t_mass. cbn - [nth hat]. rewrite (hat1 k Hk), (hat2 k Hk). do 12 (destruct k as [|k]; [cbn; lra|]). lia. }
  assert (FX : forall k, (k < 12)%nat -> t_force E (map (t_strained E (bodies lump)) (bodies lump)) AX k = nth k [3/4; -3/4; 0; 0; 1/4; -1/4; 0; 0; 0; 0; 0; 0] 0).
  { intros k Hk. unfold t_force. cbn - [nth hat ghat t_stress t_strain over]. rewrite !(rest_strain E (bodies lump) _ HR), !(still_stress E _ 3 2) by reflexivity. unfold over. cbn - [nth hat ghat]. rewrite (ghat1 k Hk). do 12 (destruct k as [|k]; [cbn - [hat ghat]; unR; lra|]). lia. }
  assert (FY : forall k, (k < 12)%nat -> t_force E (map (t_strained E (bodies lump)) (bodies lump)) AY k = 0).
  { intros k Hk. unfold t_force. cbn - [nth hat ghat t_stress t_strain over]. rewrite !(rest_strain E (bodies lump) _ HR), !(still_stress E _ 3 2) by reflexivity. unfold over. cbn - [nth hat ghat]. unR; lra. }
  assert (MY : forall k, (k < 12)%nat -> moment E (bodies lump) AY k = nth k [13/32; 15/32; 0; 0; 7/32; 13/32; 0; 0; 0; 0; 0; 0] 0).
  { intros k Hk. unfold moment. cbn - [nth hat]. rewrite (hat1 k Hk), (hat2 k Hk). do 12 (destruct k as [|k]; [cbn; lra|]). lia. }
  assert (AC : forall k, (k < 12)%nat -> moment E (bodies lump) AX k * t_acc E (bodies lump) (map (t_strained E (bodies lump)) (bodies lump)) AY k - moment E (bodies lump) AY k * t_acc E (bodies lump) (map (t_strained E (bodies lump)) (bodies lump)) AX k
    = nth k [-(13/32) * (3/4) / (11/8); (15/32) * (3/4) / (9/8); 0; 0; - (7/32) * (1/4) / (5/8); (13/32) * (1/4) / (7/8); 0; 0; 0; 0; 0; 0] 0).
  { intros k Hk. unfold t_acc. rewrite (FX k Hk), (FY k Hk), (M k Hk), (MY k Hk), !HO. change (e_tol E) with (1 / 1000). change (e_damp E) with 1.
    do 12 (destruct k as [|k]; [cbn - [moment]; destruct (Rlt_dec _ _); try lra; field|]). lia. }
  rewrite (fsum_ext (e_nodes E) _ _ (fun k Hk => AC k Hk)). change (e_nodes E) with 12%nat. change (e_dt E) with (1 / 10). cbn. lra.
Qed.

(** A body at rest, without loads, away from walls, with a symmetric stress: one step sets it spinning. *)
Lemma p_C135_kept_refuted : forall fill, exists (s s' : state R) tr, plain s /\ wall_free (bv (sG s)) (bh (sG s)) /\
  Forall (fun q => in_dom (pG (sP s)) (q_x q)) (bodies (sL s)) /\
  Forall (fun q => q_v q = v0 /\ forall a b, el a b (q_s q) = el b a (q_s q)) (bodies (sL s)) /\
  after calm fill 1 s [] = Ok (s', tr) /\ angular (bodies (sL s)) = 0 /\ 0 < angular (bodies (sL s')).
Proof.
  intros fill. destruct (grid_init_ok ex_gridp ex_bounds ex_proper) as (G & EG & OK). pose proof (pair_inside 3 2 v0 v0 (mkM3 1 0 0 0 0 0 0 0 0)) as HI.
  destruct (p_C84_run calm fill 1 (pair_state G lump) [] (pair_plain G _ _ _ _ _ OK)) as (s' & tr & E & _ & EB); [intros P; split; discriminate|intros [|j] Hj; [exact HI|lia]|].
  exists (pair_state G lump), s', tr. pose proof (no_walls G EG OK) as HW.
  split; [apply pair_plain; exact OK|]. split; [exact HW|]. split; [eapply Forall_impl; [|exact HI]; intros q [A _]; exact A|].
  split; [repeat constructor; intros [] []; reflexivity|]. split; [exact E|]. split; [cbn; unR; lra|].
  rewrite EB. cbn [t_run]. change (0 < angular (t_step (scheme_of (ex_params ex_bounds) (mkLoads 0 0 0 0) G) (bodies lump))). rewrite (lump_turns G HW). lra.
Qed.

Lemma one_step uf fill (s s' : state R) tr tr' : after uf fill 1 s tr = Ok (s', tr') -> exists s1, time_march uf fill s = Ok s1.
Proof.
  cbn [after]. destruct (pass uf fill s tr) as [[s2 t2]|] eqn:E; [|discriminate]. intros _.
  destruct (pass_inv uf fill _ _ _ _ E) as (s3 & dt & E3 & _). eauto.
Qed.
Example x_C135_exact : forall fill, exists s s' : state R, proper (pG (sP s)) /\ grid_ok (pG (sP s)) (sG s) /\
  all_live (sL s) (fun _ p => in_dom (pG (sP s)) (px p)) /\ shut (sP s) /\ no_rub (pB (sP s)) /\
  simple_laws (sL s) /\ own_velocities (sL s) /\ no_surface (sP s) (calm (sP s)) /\ wall_free (bv (sG s)) (bh (sG s)) /\ 0 <= p_Mtol (sP s) /\
  time_march calm fill s = Ok s' /\ angular (bodies (sL s')) <> angular (bodies (sL s)).
Proof.
  intros fill. destruct (grid_init_ok ex_gridp ex_bounds ex_proper) as (G & EG & OK). pose proof (pair_inside 3 2 v0 v0 (mkM3 1 0 0 0 0 0 0 0 0)) as HI.
  destruct (p_C84_run calm fill 1 (pair_state G lump) [] (pair_plain G _ _ _ _ _ OK)) as (s1 & tr & E & _); [intros P; split; discriminate|intros [|j] Hj; [exact HI|lia]|].
  destruct (one_step _ _ _ _ _ _ E) as [s' E']. exists (pair_state G lump), s'. pose proof (no_walls G EG OK) as HW.
  assert (HD : all_live lump (fun _ p => in_dom (ex_gridp (T := R)) (px p))) by (intros ph p [<-|[]] [<-|[<-|[]]]; repeat split; cbn; unR; lra).
  assert (HS : shut (ex_params (T := R) ex_bounds)) by (repeat split; reflexivity).
  assert (HO : own_velocities lump) by (intros ph p [<-|[]] [<-|[<-|[]]]; eexists; reflexivity).
  assert (HL : simple_laws lump) by (intros ph [<-|[]]; left; reflexivity).
  assert (HN : no_rub (ex_bounds (T := R))) by (left; reflexivity).
  assert (HF : no_surface (ex_params (T := R) ex_bounds) (mkLoads 0 0 0 0)) by (split; discriminate).
  repeat (split; [first [exact ex_proper|exact OK|exact HD|exact HS|exact HN|exact HL|exact HO|exact HF|exact HW|cbn; lra|exact E']|]).
  rewrite (p_C84_step calm fill (pair_state G lump) s' ex_proper OK HD HS HN HL HO HF E').
  change (angular (t_step (scheme_of (ex_params ex_bounds) (mkLoads 0 0 0 0) G) (bodies lump)) <> angular (bodies lump)). rewrite (lump_turns G HW). cbn. unR. lra.
Qed.
Example x_C135_no_force : forall fill, exists s s' : state R, proper (pG (sP s)) /\ grid_ok (pG (sP s)) (sG s) /\
  all_live (sL s) (fun _ p => in_dom (pG (sP s)) (px p)) /\ shut (sP s) /\ no_rub (pB (sP s)) /\
  simple_laws (sL s) /\ own_velocities (sL s) /\ no_surface (sP s) (calm (sP s)) /\ wall_free (bv (sG s)) (bh (sG s)) /\ 0 <= p_Mtol (sP s) /\
  time_march calm fill s = Ok s' /\
  (forall a k, t_force (scheme_of (sP s) (calm (sP s)) (sG s)) (map (t_strained (scheme_of (sP s) (calm (sP s)) (sG s)) (bodies (sL s))) (bodies (sL s))) a k = 0) /\
  angular (bodies (sL s)) = 5/2.
Proof.
  intros fill. destruct (grid_init_ok ex_gridp ex_bounds ex_proper) as (G & EG & OK). pose proof (pair_inside 0 0 (mkV3 1 0 0) (mkV3 0 2 0) m0) as HI.
  destruct (p_C84_run calm fill 1 (pair_state G dust) [] (pair_plain G _ _ _ _ _ OK)) as (s1 & tr & E & _); [intros P; split; discriminate|intros [|j] Hj; [exact HI|lia]|].
  destruct (one_step _ _ _ _ _ _ E) as [s' E']. exists (pair_state G dust), s'. pose proof (no_walls G EG OK) as HW.
  assert (HD : all_live dust (fun _ p => in_dom (ex_gridp (T := R)) (px p))) by (intros ph p [<-|[]] [<-|[<-|[]]]; repeat split; cbn; unR; lra).
  assert (HS : shut (ex_params (T := R) ex_bounds)) by (repeat split; reflexivity).
  assert (HO : own_velocities dust) by (intros ph p [<-|[]] [<-|[<-|[]]]; eexists; reflexivity).
  assert (HL : simple_laws dust) by (intros ph [<-|[]]; left; reflexivity).
  assert (HN : no_rub (ex_bounds (T := R))) by (left; reflexivity).
  assert (HF : no_surface (ex_params (T := R) ex_bounds) (mkLoads 0 0 0 0)) by (split; discriminate).
  repeat (split; [first [exact ex_proper|exact OK|exact HD|exact HS|exact HN|exact HL|exact HO|exact HF|exact HW|cbn; lra|exact E']|]).
  split; [|cbn; unR; lra].
  set (Sc := scheme_of _ _ _). intros a k.
  assert (Z : forall q d, q_mat q = Solid 0 0 -> q_s q = m0 -> t_stress Sc q d = m0) by (intros q d HM HZ; apply ThmLaws.m3_ext; unfold t_stress, t_material, over, m3, tr3; rewrite HM, HZ; cbn; unR; field).
  unfold t_force. change (bodies (sL (pair_state G dust))) with (bodies dust). cbn - [hat ghat t_stress t_strain over]. rewrite !Z by reflexivity. unfold over. destruct a; cbn - [hat ghat]; unR; ring.
Qed.
