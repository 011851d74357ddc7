(** * A falling body and the time step: C152. *)
From Coq Require Import ZArith Reals List Bool Arith Lra Lia.
From RecordUpdate Require Import RecordUpdate.
From Verif Require Import State NumR Spec SpecLaws SpecStep SpecScheme SpecView LibList LibR ModelGrid ModelConstit ModelParticle ModelMPList
  ModelIntegr ModelMain ProofsGrid ProofsMap ProofsP2G ProofsWalls ProofsLaws ProofsInOut ProofsHist Concrete
  ThmMapping ThmWalls ThmLaws ThmInOut ThmHist ProofsStep ProofsPoints ThmStep ThmBalance ThmEnergy ThmFall ThmGeo ProofsScheme ProofsView ThmScheme ThmView ThmSpin ThmAngular ThmBeat ThmObserver ThmSilent ThmCells ThmMerge ThmJump ThmNewton ThmDrop.
Import ListNotations.
Local Open Scope R_scope.

(** A run of [n] steps of a body without walls under constant gravity, of which all points
    touch heavy nodes only. *)
Definition falling (uf : params R -> loads R) (g th : R) (n : nat) (s : state R) : Prop :=
  plain s /\ wall_free (bv (sG s)) (bh (sG s)) /\ 0 <= p_Mtol (sP s) /\ (forall P, no_surface (sP s) (uf P)) /\
  (forall P, ld_g (uf P) = g /\ ld_theta (uf P) = th) /\ unloaded (bodies (sL s)) /\
  (forall k, (k < n)%nat -> let B := t_run uf k (sP s) (sG s) (bodies (sL s)) in all_heavy (scheme_at uf k (sP s) (sG s)) B /\
    Forall (fun q => in_dom (pG (sP s)) (q_x q) /\ (p_check (sP s) = true -> vz (q_x q) = 0)) B).

(** ** C152 *)
(** Two runs of one body, on any two grids, that take different time steps to the same time:
    the momentum is the same, and the centres of mass differ by half the time that has passed
    times the difference of the time steps times the weight. *)
Lemma p_C152_steps : forall uf1 uf2 fill g th n m (s1 s2 : state R) tr, falling uf1 g th n s1 -> falling uf2 g th m s2 ->
  bodies (sL s1) = bodies (sL s2) -> p_damping (sP s1) = p_damping (sP s2) -> INR n * p_dt (sP s1) = INR m * p_dt (sP s2) ->
  exists r1 r2 tr1 tr2, after uf1 fill n s1 tr = Ok (r1, tr1) /\ after uf2 fill m s2 tr = Ok (r2, tr2) /\ forall a,
  let W := (if p_damping (sP s1) then 7/10 else 1) * pull a (mkV3 (g * sin th) (g * cos th) 0) (bodies (sL s1)) in
  drive a (bodies (sL r1)) = drive a (bodies (sL r2)) /\
  moment a (bodies (sL r1)) - moment a (bodies (sL r2)) = INR n * p_dt (sP s1) * (p_dt (sP s1) - p_dt (sP s2)) / 2 * W.
Proof.
  intros uf1 uf2 fill g th n m s1 s2 tr (A1 & A2 & A3 & A4 & A5 & A6 & A7) (B1 & B2 & B3 & B4 & B5 & B6 & B7) HB HQ HT.
  destruct (p_C149_falls uf1 fill g th n s1 tr A1 A2 A3 A4 A5 A6 A7) as (r1 & tr1 & E1 & X1).
  destruct (p_C149_falls uf2 fill g th m s2 tr B1 B2 B3 B4 B5 B6 B7) as (r2 & tr2 & E2 & X2).
  exists r1, r2, tr1, tr2. split; [exact E1|]. split; [exact E2|]. intros a W. destruct (X1 a) as [D1 M1]. destruct (X2 a) as [D2 M2]. cbv zeta in D1, M1, D2, M2. rewrite <- HQ, <- HB in D2, M2. fold W in D1, M1, D2, M2.
  rewrite D1, D2, M1, M2, HT. split; [reflexivity|]. clear - HT. clearbody W. revert HT. generalize (INR n) (INR m) (p_dt (sP s1)) (p_dt (sP s2)) (drive a (bodies (sL s1))). intros u v h k d HT.
  replace (u * (u + 1) / 2 * (h * h) * W) with ((u * h) * (u * h + h) / 2 * W) by field. rewrite HT. field.
Qed.

(** A point of mass two that falls by one step of 1/10, or by two steps of 1/20. *)
Definition stride (h : R) (G : grid R) : state R := mkState (ex_params ex_bounds <| p_dt := h |>) G (perched (1/2) 0).
Lemma stride_plain h G : 0 < h -> grid_ok ex_gridp G -> plain (stride h G).
Proof.
  intros Hh OK. constructor; try assumption; try reflexivity; try (cbn; lra).
  - exact ex_proper.
  - intros ph [<-|[]]. reflexivity.
  - intros ph [<-|[]]. left. reflexivity.
  - eexists. split; [reflexivity|]. intros ph [<-|[]]. unfold equipped, has. cbn. split; discriminate.
  - intros ph p [<-|[]] [<-|[]]; eexists; reflexivity.
  - repeat split; reflexivity.
  - left; reflexivity.
Qed.
Lemma hatM y k : 1/4 <= y <= 3/4 -> (k < 12)%nat -> hat (ex_gridp (T := R)) (mkV3 (1/2) y 0) k = nth k [(1 - y)/2; (1 - y)/2; 0; 0; y/2; y/2; 0; 0; 0; 0; 0; 0] 0.
Proof. intros Hy Hk. unfold hat. at_nodes k Hk. Qed.
Lemma ghatM a y k : 1/4 <= y <= 3/4 -> (k < 12)%nat -> nth k [1; 1; 0; 0; 1; 1; 0; 0; 0; 0; 0; 0] 0 = 0 -> ghat (ex_gridp (T := R)) (mkV3 (1/2) y 0) a k = 0.
Proof.
  intros Hy Hk. destruct a; [| |reflexivity]; unfold ghat; rewrite (proj1 unit_cells), (proj2 unit_cells), (proj1 (node_at k)), (proj2 (node_at k));
    do 12 (destruct k as [|k]; [cbn; intros HZ; first [exfalso; lra|tents]|]); lia.
Qed.
Lemma solo_heavy E q y : e_P E = ex_gridp -> e_tol E = 1/1000 -> q_m q = 2 -> q_x q = mkV3 (1/2) y 0 -> 1/4 <= y <= 3/4 -> all_heavy E [q].
Proof.
  intros EP ET HM HX Hy q' k [<-|[]] Hk HN. unfold e_nodes in Hk. rewrite EP in Hk, HN. change (nx (ex_gridp (T := R)) * ny (ex_gridp (T := R)))%nat with 12%nat in Hk.
  unfold t_mass. rewrite EP, ET. cbn [map Rsum]. rewrite HM, HX, (hatM y k Hy Hk). rewrite HX in HN.
  assert (N : nth k [1; 1; 0; 0; 1; 1; 0; 0; 0; 0; 0; 0] 0 <> 0).
  { intros Z. destruct HN as [HN|[a HN]]; [|apply HN, ghatM; assumption]. apply HN. rewrite (hatM y k Hy Hk). clear HN HX. do 12 (destruct k as [|k]; [cbn in Z |- *; lra|]). lia. }
  clear HN HX. do 12 (destruct k as [|k]; [cbn in N |- *; lra|]). lia.
Qed.
Lemma stride_goes g h G : 0 < h -> wall_free (bv G) (bh G) -> exists q, t_run (down g) 1 (sP (stride h G)) G (bodies (perched (1/2) 0)) = [q] /\ q_m q = 2 /\ q_x q = mkV3 (1/2) (1/2 + h * h * g) 0.
Proof.
  intros Hh HW. set (P := sP (stride h G)). set (B := bodies (perched (1/2) 0)). rewrite (t_run_S (down g) 0 P G B). set (E := scheme_at (down g) 0 P G). change (t_run (down g) 0 P G B) with B.
  assert (F : forall a, moment a (t_step E B) = moment a B + e_dt E * (drive a B + e_dt E * (e_damp E * pull a (e_g E) B))).
  { apply fall_moment; try reflexivity.
    - exact ex_proper.
    - intros; apply free_open, HW.
    - cbn; unfold lit; unR; lra.
    - intros q [<-|[]]. unfold in_dom. cbn. unR. lra.
    - eapply (solo_heavy E _ (1/2)); try reflexivity; [cbn; unfold lit; unR; f_equal; lra|lra].
    - intros q [<-|[]] K; discriminate K. }
  unfold t_step in *. cbn [B bodies perched] in *.
  eexists. split; [reflexivity|]. split; [reflexivity|].
  match goal with |- ?u = _ => set (x := u) end.
  assert (X : forall a, 2 * comp a x = 2 * comp a (mkV3 (1/2) (1/2 + h * h * g) 0)).
  { intros a. pose proof (F a) as A. match type of A with ?l = ?r => assert (L : l = 2 * comp a x + 0) by reflexivity; rewrite L in A; assert (Q : r = 2 * comp a (mkV3 (1/2) (1/2 + h * h * g) 0)) end.
    - clear. change (e_dt E) with h. change (e_damp E) with 1. change (e_g E) with (mkV3 (g * sin 0) (g * cos 0) 0). destruct a; cbn; unR; rewrite ?sin_0, ?cos_0; lra.
    - lra. }
  clearbody x. clear F. pose proof (X AX) as X1. pose proof (X AY) as X2. pose proof (X AZ) as X3. destruct x as [x1 x2 x3]. cbn [comp vx vy vz] in *. f_equal; lra.
Qed.
Lemma stride_falls g h G n : (n <= 2)%nat -> 0 < h -> -1/4 <= h * h * g <= 1/4 -> grid_ok ex_gridp G -> wall_free (bv G) (bh G) -> falling (down g) g 0 n (stride h G).
Proof.
  intros Hn Hh Hg OK HW. split; [apply stride_plain; assumption|]. split; [exact HW|]. split; [cbn; unfold lit; unR; lra|]. split; [intros P; split; discriminate|]. split; [intros P; split; reflexivity|].
  split; [intros q [<-|[]] K; discriminate K|]. intros k Hk. assert (K : k = 0%nat \/ k = 1%nat) by lia. destruct K as [->| ->]; cbv zeta.
  - split; [eapply (solo_heavy _ _ (1/2)); try reflexivity; [cbn; unfold lit; unR; f_equal; lra|lra]|]. repeat constructor; cbn; try (unR; lra); try reflexivity.
  - destruct (stride_goes g h G Hh HW) as (q & Q & QM & QX). change (sG (stride h G)) with G. change (bodies (sL (stride h G))) with (bodies (perched (1/2) 0)). rewrite Q.
    split; [eapply (solo_heavy _ _ (1/2 + h * h * g)); try reflexivity; [exact QM|exact QX|lra]|]. constructor; [|constructor]. rewrite QX. split; [unfold in_dom; cbn; unR; lra|reflexivity].
Qed.
(** A point of mass two that falls for a tenth of a second, by one step or by two. *)
Example x_C152_steps : forall g, -1 <= g <= 1 -> exists s1 s2 : state R, falling (down g) g 0 1 s1 /\ falling (down g) g 0 2 s2 /\ bodies (sL s1) = bodies (sL s2) /\ p_damping (sP s1) = p_damping (sP s2) /\
  p_dt (sP s1) = 1/10 /\ p_dt (sP s2) = 1/20 /\ INR 1 * p_dt (sP s1) = INR 2 * p_dt (sP s2) /\
  (if p_damping (sP s1) then 7/10 else 1) * pull AY (mkV3 (g * sin 0) (g * cos 0) 0) (bodies (sL s1)) = 2 * g.
Proof.
  intros g Hg. destruct (grid_init_ok ex_gridp ex_bounds ex_proper) as (G & EG & OK). pose proof (no_walls G EG OK) as HW.
  exists (stride (1/10) G), (stride (1/20) G). split; [apply stride_falls; try assumption; [lia|lra|lra]|]. split; [apply stride_falls; try assumption; [lia|lra|lra]|].
  split; [reflexivity|]. split; [reflexivity|]. split; [reflexivity|]. split; [reflexivity|]. split; [cbn; lra|]. cbn. unR. rewrite cos_0. lra.
Qed.
(** The place to which a body falls in a given time depends on the time step. *)
Lemma p_C152_place_refuted : forall fill g, -1 <= g <= 1 -> g <> 0 -> exists (s1 s2 r1 r2 : state R) n m tr1 tr2, falling (down g) g 0 n s1 /\ falling (down g) g 0 m s2 /\
  bodies (sL s1) = bodies (sL s2) /\ p_damping (sP s1) = p_damping (sP s2) /\ INR n * p_dt (sP s1) = INR m * p_dt (sP s2) /\
  after (down g) fill n s1 [] = Ok (r1, tr1) /\ after (down g) fill m s2 [] = Ok (r2, tr2) /\ moment AY (bodies (sL r1)) <> moment AY (bodies (sL r2)).
Proof.
  intros fill g Hg HN. destruct (x_C152_steps g Hg) as (s1 & s2 & F1 & F2 & HB & HQ & H1 & H2 & HT & HP).
  destruct (p_C152_steps (down g) (down g) fill g 0 1 2 s1 s2 [] F1 F2 HB HQ HT) as (r1 & r2 & tr1 & tr2 & E1 & E2 & A).
  exists s1, s2, r1, r2, 1%nat, 2%nat, tr1, tr2. repeat (split; [assumption|]). destruct (A AY) as [_ X]. cbv zeta in X. rewrite HP, H1, H2 in X. cbn [INR] in X. intros K. apply HN. lra.
Qed.
