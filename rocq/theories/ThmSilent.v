(** * Points move with the velocity that they carry: C136. *)
From Coq Require Import ZArith Reals List Bool Arith Lra Lia.
From RecordUpdate Require Import RecordUpdate.
From Verif Require Import State NumR Spec SpecLaws SpecStep SpecScheme LibList LibR ModelGrid ModelConstit ModelParticle ModelMPList
  ModelIntegr ModelMain ProofsGrid ProofsMap ProofsP2G ProofsWalls ProofsLaws ProofsInOut ProofsHist Concrete
  ThmMapping ThmWalls ThmLaws ThmInOut ThmHist ProofsStep ProofsPoints ThmStep ThmBalance ThmEnergy ThmFall ThmGeo ProofsScheme ThmScheme ThmAngular.
Import ListNotations.
Local Open Scope R_scope.

(** The points bring no momentum to any node. *)
Definition silent (P : gridp R) (B : list mp) : Prop :=
  forall a k, Rsum (map (fun q => q_m q * comp a (q_v q) * hat P (q_x q) k) B) = 0.
(** The points have no stress, no pressure and no weight. *)
Definition idle (q : mp) : Prop := q_s q = m0 /\ q_p q = 0 /\ q_b q = v0.
Definition kinetic (B : list mp) : R := Rsum (map (fun q => / 2 * q_m q * over (fun a => comp a (q_v q) * comp a (q_v q))) B).

Lemma silent_vel E B a k : silent (e_P E) B -> t_vel E B a k = 0.
Proof. intros HS. unfold t_vel. destruct (Rlt_dec _ _); [|reflexivity]. rewrite (HS a k). unfold Rdiv. ring. Qed.
Lemma silent_strain E B q : silent (e_P E) B -> t_strain E B q = m3 (fun _ _ => 0).
Proof.
  intros HR. assert (Z : forall a b, e_dt E * fsum (e_nodes E) (fun k => (t_vel E B a k * ghat (e_P E) (q_x q) b k + t_vel E B b k * ghat (e_P E) (q_x q) a k) / 2) = 0).
  { intros a b. rewrite fsum_zero; [ring|]. intros k _. rewrite !(silent_vel E B _ k HR). unfold Rdiv. ring. }
  unfold t_strain, m3. rewrite !Z. reflexivity.
Qed.
Lemma idle_stress E q : idle q -> t_stress E q (m3 (fun _ _ => 0)) = m0 /\ t_pressure q (m3 (fun _ _ => 0)) = 0.
Proof.
  intros (H1 & H2 & H3). split.
  - apply ThmLaws.m3_ext; unfold t_stress, t_material, over, m3, tr3; rewrite H1, H2; destruct (q_mat q); cbn; unR; unfold Rdiv; ring.
  - unfold t_pressure, tr3. rewrite H1, H2. destruct (q_mat q); cbn; unR; field.
Qed.
Lemma silent_step E B : silent (e_P E) B -> (forall q, In q B -> idle q) -> e_g E = v0 -> t_step E B = B.
Proof.
  intros HS HI HG. assert (S1 : map (t_strained E B) B = B).
  { rewrite <- (map_id B) at 3. apply map_ext_in. intros q Hq. unfold t_strained. rewrite (silent_strain E B q HS).
    destruct (idle_stress E q (HI q Hq)) as [-> ->]. destruct (HI q Hq) as (A1 & A2 & A3). destruct q; cbn in *. subst. rewrite HG. destruct q_first; reflexivity. }
  unfold t_step. rewrite S1.
  assert (F0 : forall a k, t_acc E B B a k = 0).
  { intros a k. unfold t_acc. destruct (Rlt_dec _ _); [|reflexivity]. assert (F : t_force E B a k = 0); [|rewrite F; unfold Rdiv; ring].
    apply Rsum_zero. intros q Hq. destruct (HI q Hq) as (A1 & A2 & A3). rewrite A1, A3. unfold over. destruct a; cbn; unR; ring. }
  transitivity (map (fun q => q) B); [|apply map_id]. apply map_ext_in. intros q Hq.
  assert (D1 : forall a, e_dt E * fsum (e_nodes E) (fun k => hat (e_P E) (q_x q) k * (t_vel E B a k + e_dt E * t_acc E B B a k)) = 0) by (intros a; rewrite fsum_zero; [ring|]; intros k _; rewrite F0, (silent_vel E B _ k HS); ring).
  assert (D2 : forall a, e_dt E * fsum (e_nodes E) (fun k => hat (e_P E) (q_x q) k * t_acc E B B a k) = 0) by (intros a; rewrite fsum_zero; [ring|]; intros k _; rewrite F0; ring).
  unfold t_moved, v3. rewrite !D1, !D2. destruct q as [? ? ? [] [] ? ? ? ?]; cbn. rewrite !Rplus_0_r. reflexivity.
Qed.
Lemma silent_run uf n : forall P G B, (forall P, ld_g (uf P) = 0) -> silent (pG P) B -> (forall q, In q B -> idle q) -> t_run uf n P G B = B.
Proof.
  induction n as [|n IH]; intros P G B HU HS HI; [reflexivity|]. cbn [t_run].
  rewrite silent_step; [apply IH; auto|exact HS|exact HI|]. cbn [scheme_of e_g]. rewrite HU. unfold v0. cbn. unR. rewrite !Rmult_0_l. reflexivity.
Qed.

(** ** C136 *)
(** Points that bring no momentum to any node stay where they are for ever, with the velocities that they have. *)
Lemma p_C136_silent : forall uf fill n (s : state R) tr, plain s -> (forall P, no_surface (sP s) (uf P)) -> (forall P, ld_g (uf P) = 0) ->
  Forall (fun q => in_dom (pG (sP s)) (q_x q) /\ (p_check (sP s) = true -> vz (q_x q) = 0)) (bodies (sL s)) ->
  silent (pG (sP s)) (bodies (sL s)) -> Forall idle (bodies (sL s)) ->
  exists s' tr', after uf fill n s tr = Ok (s', tr') /\ bodies (sL s') = bodies (sL s).
Proof.
  intros uf fill n s tr HP HN HU HD HS HI. rewrite Forall_forall in HI.
  destruct (p_C84_run uf fill n s tr HP HN) as (s' & tr' & E & _ & EB).
  - intros j _. rewrite silent_run by assumption. exact HD.
  - exists s', tr'. split; [exact E|]. rewrite EB. apply silent_run; assumption.
Qed.

(** Hat functions are straight within a cell. *)
Lemma tent_straight (w xm : R) (i c : nat) x : 0 < w -> xm + INR i * w <= x <= xm + (INR i + 1) * w ->
  tent ((x - (xm + INR c * w)) / w) = if Nat.eqb c i then 1 - ((x - xm) / w - INR i) else if Nat.eqb c (S i) then (x - xm) / w - INR i else 0.
Proof.
  intros Hw Hx. set (t := (x - xm) / w).
  assert (T : INR i <= t <= INR i + 1).
  { unfold t. split; [apply (Rmult_le_reg_r w); [lra|]|apply (Rmult_le_reg_r w); [lra|]]; unfold Rdiv; rewrite Rmult_assoc, Rinv_l by lra; lra. }
  replace ((x - (xm + INR c * w)) / w) with (t - INR c) by (unfold t; field; lra).
  destruct (Nat.eqb_spec c i) as [->|N1]; [unfold tent, Rmax, Rabs; destruct (Rcase_abs _); destruct (Rle_dec _ _); lra|].
  destruct (Nat.eqb_spec c (S i)) as [->|N2]; [rewrite S_INR; unfold tent, Rmax, Rabs; destruct (Rcase_abs _); destruct (Rle_dec _ _); lra|].
  destruct (le_lt_dec c i) as [L|L].
  - assert (Q : INR c + 1 <= INR i) by (rewrite <- S_INR; apply le_INR; lia). unfold tent, Rmax, Rabs; destruct (Rcase_abs _); destruct (Rle_dec _ _); lra.
  - assert (Q : INR i + 1 + 1 <= INR c) by (rewrite <- !S_INR; apply le_INR; lia). unfold tent, Rmax, Rabs; destruct (Rcase_abs _); destruct (Rle_dec _ _); lra.
Qed.
(** Three points at one height in one cell, whatever their masses, have velocities in any direction that no node gets to know. *)
Definition in_column (P : gridp R) (i : nat) (x : R) : Prop := x_m P + INR i * cell_w P <= x <= x_m P + (INR i + 1) * cell_w P.
Lemma p_C136_row : forall (P : gridp R) i y z c d q1 q2 q3, proper P ->
  q_x q1 = mkV3 (vx (q_x q1)) y z -> q_x q2 = mkV3 (vx (q_x q2)) y z -> q_x q3 = mkV3 (vx (q_x q3)) y z ->
  in_column P i (vx (q_x q1)) -> in_column P i (vx (q_x q2)) -> in_column P i (vx (q_x q3)) ->
  (forall a, q_m q1 * comp a (q_v q1) = c * comp a d * (vx (q_x q3) - vx (q_x q2))) ->
  (forall a, q_m q2 * comp a (q_v q2) = c * comp a d * (vx (q_x q1) - vx (q_x q3))) ->
  (forall a, q_m q3 * comp a (q_v q3) = c * comp a d * (vx (q_x q2) - vx (q_x q1))) ->
  silent P [q1; q2; q3].
Proof.
  intros P i y z c d q1 q2 q3 HP X1 X2 X3 I1 I2 I3 M1 M2 M3 a k. cbn [map Rsum]. rewrite M1, M2, M3.
  assert (HW : 0 < cell_w P) by (apply cell_w_pos; exact HP).
  unfold hat. rewrite X1, X2, X3. cbn [vx vy]. unfold node_x.
  rewrite !(tent_straight (cell_w P) (x_m P) i (col P k)) by assumption.
  destruct (Nat.eqb _ _); [|destruct (Nat.eqb _ _)]; unfold Rsum; cbn [fold_right]; field; lra.
Qed.
(** The three points in a row, in a run with damping and without loads: their kinetic energy stays, and they do not move. *)
Definition row_phase : list (phase R) := [mkPhase (stuff 3 2) 3 v0 [ex_particle (1/4) (1/2) (mkV3 1 0 0) m0; ex_particle (1/2) (1/2) (mkV3 (-2) 0 0) m0; ex_particle (3/4) (1/2) (mkV3 1 0 0) m0]].
Definition row_state (G : grid R) : state R := mkState (ex_params (T := R) ex_bounds <| p_damping := true |>) G row_phase.
Lemma row_plain G : grid_ok ex_gridp G -> plain (row_state G).
Proof.
  intros OK. constructor; try assumption; try reflexivity; try (cbn; lra).
  - exact ex_proper.
  - intros ph [<-|[]]. reflexivity.
  - intros ph [<-|[]]. left. reflexivity.
  - eexists. split; [reflexivity|]. intros ph [<-|[]]. unfold equipped, has. cbn. split; discriminate.
  - intros ph p [<-|[]] [<-|[<-|[<-|[]]]]; eexists; reflexivity.
  - repeat split; reflexivity.
  - left; reflexivity.
Qed.
Lemma row_inside G : Forall (fun q => in_dom (pG (sP (row_state G))) (q_x q) /\ (p_check (sP (row_state G)) = true -> vz (q_x q) = 0)) (bodies (sL (row_state G))).
Proof. repeat constructor; cbn; try (unR; lra); try reflexivity. Qed.
Lemma row_silent : silent (ex_gridp (T := R)) (bodies row_phase).
Proof.
  apply (p_C136_row ex_gridp 0 (1/2) 0 (8) (mkV3 1 0 0)); try exact ex_proper; try reflexivity; try (unfold in_column; rewrite (proj1 unit_cells); cbn; unR; lra).
  all: intros []; cbn; unR; lra.
Qed.
Lemma row_idle : Forall idle (bodies row_phase).
Proof. repeat constructor. Qed.
(** So points do not move with the velocities that they carry, in any number of steps, and damping takes nothing from them. *)
Lemma p_C136_moves_refuted : forall fill, exists s : state R, plain s /\ p_damping (sP s) = true /\ 0 < kinetic (bodies (sL s)) /\
  Forall (fun q => in_dom (pG (sP s)) (q_x q) /\ q_v q <> v0) (bodies (sL s)) /\
  forall n, exists s' tr', after no_loads fill n s [] = Ok (s', tr') /\ bodies (sL s') = bodies (sL s).
Proof.
  intros fill. destruct (grid_init_ok ex_gridp ex_bounds ex_proper) as (G & EG & OK). exists (row_state G).
  split; [exact (row_plain G OK)|]. split; [reflexivity|]. split; [cbn; unR; unfold over; cbn; lra|].
  split; [|intros n; apply (p_C136_silent no_loads fill n (row_state G) [] (row_plain G OK)); [intros P; split; discriminate|reflexivity|exact (row_inside G)|exact row_silent|exact row_idle]].
  assert (N : forall x, x <> 0 -> mkV3 x 0 0 <> v0) by (intros x Hx Q; apply Hx; exact (f_equal vx Q)).
  repeat constructor; try (cbn; unR; lra); apply N; lra.
Qed.
Example x_C136_silent : exists s : state R, plain s /\ (forall P, no_surface (sP s) (no_loads P)) /\ (forall P, ld_g (no_loads P) = 0) /\
  Forall (fun q => in_dom (pG (sP s)) (q_x q) /\ (p_check (sP s) = true -> vz (q_x q) = 0)) (bodies (sL s)) /\
  silent (pG (sP s)) (bodies (sL s)) /\ Forall idle (bodies (sL s)) /\ kinetic (bodies (sL s)) = 6.
Proof.
  destruct (grid_init_ok ex_gridp ex_bounds ex_proper) as (G & EG & OK). exists (row_state G).
  split; [exact (row_plain G OK)|]. split; [intros P; split; discriminate|]. split; [reflexivity|]. split; [exact (row_inside G)|]. split; [exact row_silent|]. split; [exact row_idle|].
  cbn. unfold over. cbn. unR. lra.
Qed.
Example x_C136_row : exists q1 q2 q3, q_m q1 = 1 /\ q_m q2 = 2 /\ q_m q3 = 4 /\
  q_x q1 = mkV3 (vx (q_x q1)) (1/2) 0 /\ q_x q2 = mkV3 (vx (q_x q2)) (1/2) 0 /\ q_x q3 = mkV3 (vx (q_x q3)) (1/2) 0 /\
  in_column (ex_gridp (T := R)) 0 (vx (q_x q1)) /\ in_column (ex_gridp (T := R)) 0 (vx (q_x q2)) /\ in_column (ex_gridp (T := R)) 0 (vx (q_x q3)) /\
  (forall a, q_m q1 * comp a (q_v q1) = 8 * comp a (mkV3 0 1 0) * (vx (q_x q3) - vx (q_x q2))) /\
  (forall a, q_m q2 * comp a (q_v q2) = 8 * comp a (mkV3 0 1 0) * (vx (q_x q1) - vx (q_x q3))) /\
  (forall a, q_m q3 * comp a (q_v q3) = 8 * comp a (mkV3 0 1 0) * (vx (q_x q2) - vx (q_x q1))).
Proof.
  exists (mkMp (Solid 3 2) 1 1 (mkV3 0 (1/2) 0) (mkV3 0 4 0) m0 0 v0 true), (mkMp (Solid 3 2) 2 1 (mkV3 (1/2) (1/2) 0) (mkV3 0 (-4) 0) m0 0 v0 true), (mkMp (Solid 3 2) 4 1 (mkV3 1 (1/2) 0) (mkV3 0 1 0) m0 0 v0 true).
  repeat (split; [first [reflexivity|unfold in_column; rewrite (proj1 unit_cells); cbn; unR; lra|intros []; cbn; unR; lra]|]). intros []; cbn; unR; lra.
Qed.
