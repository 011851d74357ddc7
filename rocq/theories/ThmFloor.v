(** * Points on the floor: C155. *)
From Coq Require Import ZArith Reals List Bool Arith Lra Lia.
From RecordUpdate Require Import RecordUpdate.
From Verif Require Import State NumR Spec SpecLaws SpecStep SpecScheme SpecView SpecLocal LibList LibR ModelGrid ModelConstit ModelParticle ModelMPList
  ModelIntegr ModelMain ProofsGrid ProofsMap ProofsP2G ProofsWalls ProofsLaws ProofsInOut ProofsHist Concrete
  ThmMapping ThmWalls ThmLaws ThmInOut ThmHist ProofsStep ProofsPoints ThmStep ThmBalance ThmEnergy ThmFall ThmGeo ProofsScheme ThmScheme ProofsLocal ThmLocal ThmApart ThmAlone ThmSpin ThmAngular ThmBeat ThmStride ThmGlide ThmAnyFall.
Import ListNotations.
Local Open Scope R_scope.

(** Places on the floor of the domain touch nodes of the lowest row only. *)
Lemma floor_hat P x k : proper P -> vy x = y_m P -> row P k <> 0%nat -> hat P x k = 0.
Proof.
  intros HP Hx Hr. pose proof (cell_h_pos P HP) as HC. unfold hat, node_y. rewrite Hx. rewrite (tent_far ((y_m P - (y_m P + INR (row P k) * cell_h P)) / cell_h P)); [ring|].
  left. replace ((y_m P - (y_m P + INR (row P k) * cell_h P)) / cell_h P) with (- INR (row P k)) by (field; lra). assert (1 <= INR (row P k)) by (change 1 with (INR 1); apply le_INR; lia). lra.
Qed.
(** Not part of an intruder, and on the floor. *)
Definition landed (P : gridp R) (q : point) : Prop := z_stuff q <> Intruder /\ vy (z_x q) = y_m P.
Definition upright (q : point) : R * R := (vy (z_x q), vy (z_v q)).
Lemma floor_step E B : proper (a_P E) -> (forall k, (k < a_nodes E)%nat -> row (a_P E) k = 0%nat -> a_open E AY k = 0) -> (forall q, In q B -> landed (a_P E) q) ->
  map upright (z_step E B) = map upright B /\ forall q, In q (z_step E B) -> landed (a_P E) q.
Proof.
  intros HP HO HL. set (B1 := map (z_strained E B) B).
  assert (K : forall q, In q B -> upright (z_moved E B B1 (z_strained E B q)) = upright q /\ landed (a_P E) (z_moved E B B1 (z_strained E B q))).
  { intros q Hq. destruct (HL q Hq) as [N Hy].
    assert (Z1 : forall k, (k < a_nodes E)%nat -> hat (a_P E) (z_x q) k * z_acc E B B1 AY k = 0).
    { intros k Hk. destruct (Nat.eq_dec (row (a_P E) k) 0) as [R|R]; [|rewrite (floor_hat _ _ _ HP Hy R); ring]. unfold z_acc. rewrite (HO k Hk R). destruct (Rlt_dec _ _); unfold Rdiv; ring. }
    assert (Z2 : forall k, (k < a_nodes E)%nat -> hat (a_P E) (z_x q) k * z_end E B B1 AY k = 0).
    { intros k Hk. unfold z_end. rewrite Rmult_plus_distr_l. replace (hat (a_P E) (z_x q) k * (a_dt E * z_acc E B B1 AY k)) with (a_dt E * (hat (a_P E) (z_x q) k * z_acc E B B1 AY k)) by ring. rewrite (Z1 k Hk).
      destruct (Nat.eq_dec (row (a_P E) k) 0) as [R|R]; [|rewrite (floor_hat _ _ _ HP Hy R); ring]. unfold z_vel. rewrite (HO k Hk R). destruct (Rlt_dec _ _); unfold Rdiv; ring. }
    apply fsum_zero in Z1. apply fsum_zero in Z2.
    unfold landed, upright, z_moved, z_strained. cbn [z_stuff z_m z_V z_x z_v z_s z_b z_first].
    destruct (z_stuff q) eqn:Q; cbn [z_memory]; try (destruct N; reflexivity); cbn [z_stuff z_x z_v z_dense v3 vy comp]; rewrite Z1, Z2, !Rmult_0_r, !Rplus_0_r; (split; [reflexivity|split; [discriminate|exact Hy]]). }
  unfold z_step. fold B1. unfold B1 at 2 4. rewrite !map_map. split.
  - apply map_ext_in. intros q Hq. exact (proj1 (K q Hq)).
  - intros q Hq. apply in_map_iff in Hq. destruct Hq as (q0 & <- & Hq). exact (proj2 (K q0 Hq)).
Qed.
Lemma floor_run uf rho n : forall P G B, proper (pG P) ->
  (forall k, (k < nx (pG P) * ny (pG P))%nat -> row (pG P) k = 0%nat -> removed AY (roughness (pB P)) (nth k (bv G) false) (nth k (bh G) false) = true) ->
  (forall q, In q B -> landed (pG P) q) -> map upright (z_run uf rho n P G B) = map upright B.
Proof.
  induction n as [|n IH]; intros P G B HP HO HL; [reflexivity|]. cbn [z_run].
  destruct (floor_step (ambient_of P rho (uf P) G) B) as [S1 S2]; [exact HP| |exact HL|].
  - intros k Hk R. cbn [ambient_of a_open]. unfold passes. rewrite (HO k Hk R). reflexivity.
  - rewrite <- S1. apply IH; assumption.
Qed.

(** ** C155 *)
(** Points of any material that all lie on the floor stay on the floor and keep their vertical velocities for ever,
    whatever these velocities, the loads and the stresses are. *)
Lemma p_C155_floor : forall uf fill n (s : state R) tr s' tr' S0, whole s -> sol0 (sL s) = Ok S0 ->
  (forall k, (k < nx (pG (sP s)) * ny (pG (sP s)))%nat -> row (pG (sP s)) k = 0%nat -> removed AY (roughness (pB (sP s))) (nth k (bv (sG s)) false) (nth k (bh (sG s)) false) = true) ->
  Forall (landed (pG (sP s))) (cloud (sP s) (sL s)) ->
  (forall j, (j < n)%nat -> Forall (fun q => in_dom (pG (sP s)) (z_x q)) (z_run uf (s_rho S0) j (sP s) (sG s) (cloud (sP s) (sL s)))) ->
  after uf fill n s tr = Ok (s', tr') -> map upright (cloud (sP s) (sL s')) = map upright (cloud (sP s) (sL s)).
Proof.
  intros uf fill n s tr s' tr' S0 Hs H0 HO HL HD E. destruct (p_C102_run uf fill n s tr s' tr' S0 Hs H0 HD E) as [_ ->].
  rewrite Forall_forall in HL. apply floor_run; [exact (wh_proper s Hs)|exact HO|exact HL].
Qed.
(** A point of Bingham's fluid on a floor, with any vertical velocity. *)
Definition landing (c : R) (G : grid R) : state R := mkState (ex_params floored) G [mkPhase (mix_solid Bingham) 1 v0 [ex_particle (1/2) 0 (mkV3 0 c 0) m0]].
Lemma landing_ok c G : grid_init ex_gridp floored = Ok G -> grid_ok ex_gridp G -> let s := landing c G in whole s /\ provided s /\
  (forall k, (k < nx (pG (sP s)) * ny (pG (sP s)))%nat -> row (pG (sP s)) k = 0%nat -> removed AY (roughness (pB (sP s))) (nth k (bv (sG s)) false) (nth k (bh (sG s)) false) = true).
Proof.
  intros EG OK s. split; [|split].
  - constructor; try reflexivity; try (cbn; unfold lit; unR; lra); try assumption.
    + exact ex_proper.
    + intros ph [<-|[]]; cbn [s_law ph_sol mix_solid]; try exact I; intros p [<-|[]]; reflexivity.
    + intros ph p [<-|[]] [<-|[]]; eexists; reflexivity.
    + repeat split; reflexivity.
    + left. reflexivity.
  - constructor; try reflexivity; try (cbn; unfold lit; unR; lra).
    + intros ph [<-|[]]; reflexivity.
    + exists (mix_solid Bingham). split; [reflexivity|]. intros ph [<-|[]]; apply mix_equipped; cbn; tauto.
    + intros ph [<-|[]] K; discriminate K.
  - intros k Hk HR. destruct (p_C10_wall_masks R Num_R ex_gridp floored G EG) with (k := k) as (X & _ & _); [repeat split; reflexivity|exact Hk|].
    cbn [s landing sG sP removed]. rewrite (proj2 X); [reflexivity|]. left. split; [exact HR|reflexivity].
Qed.
Example x_C155_floor : forall uf fill c, exists (s s' : state R) tr' S0, whole s /\ sol0 (sL s) = Ok S0 /\
  (forall k, (k < nx (pG (sP s)) * ny (pG (sP s)))%nat -> row (pG (sP s)) k = 0%nat -> removed AY (roughness (pB (sP s))) (nth k (bv (sG s)) false) (nth k (bh (sG s)) false) = true) /\
  Forall (landed (pG (sP s))) (cloud (sP s) (sL s)) /\
  (forall j, (j < 1)%nat -> Forall (fun q => in_dom (pG (sP s)) (z_x q)) (z_run uf (s_rho S0) j (sP s) (sG s) (cloud (sP s) (sL s)))) /\
  after uf fill 1 s [] = Ok (s', tr') /\ map upright (cloud (sP s) (sL s)) = [(0, c)].
Proof.
  intros uf fill c. destruct (grid_init_ok ex_gridp floored ex_proper) as (G & EG & OK). destruct (landing_ok c G EG OK) as (W & V & HO). set (s := landing c G) in *.
  assert (D : Forall (fun q => in_dom (pG (sP s)) (z_x q) /\ (p_check (sP s) = true -> vz (z_x q) = 0)) (cloud (sP s) (sL s))) by (repeat constructor; cbn; unR; lra).
  destruct (p_C102_total uf fill 1 s [] (mix_solid Bingham) W V eq_refl) as (s' & tr' & E & _); [intros [|j] Hj; [exact D|lia]|].
  exists s, s', tr', (mix_solid Bingham). split; [exact W|]. split; [reflexivity|]. split; [exact HO|].
  split; [constructor; [split; [discriminate|reflexivity]|constructor]|]. split; [intros [|j] Hj; [apply (Forall_impl _ (fun q X => proj1 X) D)|lia]|]. split; [exact E|reflexivity].
Qed.
(** A point on the floor does not lose its velocity into the floor, and does not leave the floor with a velocity away
    from it. *)
Lemma p_C155_lands_refuted : forall uf fill c, c <> 0 -> exists (s s' : state R) tr' S0 q q', whole s /\ sol0 (sL s) = Ok S0 /\ cloud (sP s) (sL s) = [q] /\ in_dom (pG (sP s)) (z_x q) /\
  after uf fill 1 s [] = Ok (s', tr') /\ cloud (sP s) (sL s') = [q'] /\ vy (z_x q) = y_m (pG (sP s)) /\ vy (z_x q') = y_m (pG (sP s)) /\ vy (z_v q) = c /\ vy (z_v q') = c.
Proof.
  intros uf fill c Hc. destruct (x_C155_floor uf fill c) as (s & s' & tr' & S0 & W & H0 & HO & HL & HD & E & M).
  pose proof (p_C155_floor uf fill 1 s [] s' tr' S0 W H0 HO HL HD E) as Q. rewrite M in Q. specialize (HD 0%nat Nat.lt_0_1). cbn [z_run] in HD.
  destruct (cloud (sP s) (sL s)) as [|q [|q2 l]] eqn:C; try discriminate M. destruct (cloud (sP s) (sL s')) as [|q' [|q2' l']] eqn:C'; try discriminate Q.
  inversion HL as [|? ? [_ Y] _]; subst. inversion HD as [|? ? D _]; subst. unfold upright in M, Q. cbn [map] in M, Q. injection M as M1 M2. injection Q as Q1 Q2.
  exists s, s', tr', S0, q, q'. rewrite C, C'. repeat (split; [first [assumption|reflexivity|congruence]|]). congruence.
Qed.
