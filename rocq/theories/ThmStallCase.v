(** * A run with a dynamic time step that ends: C117. *)
From Coq Require Import ZArith Reals List Bool Arith Lra Lia.
From RecordUpdate Require Import RecordUpdate.
From Verif Require Import State NumR Spec SpecLaws SpecStep SpecScheme SpecLocal SpecPace LibList LibR ModelGrid ModelConstit ModelParticle ModelMPList
  ModelIntegr ModelMain ProofsGrid ProofsMap ProofsP2G ProofsWalls ProofsLaws ProofsInOut ProofsHist Concrete
  ThmMapping ThmWalls ThmLaws ThmInOut ThmHist ProofsStep ProofsPoints ThmStep ThmBalance ThmEnergy ThmFall ThmGeo ProofsScheme ThmScheme ProofsLocal ThmLocal ThmLoop ThmPace ThmStall.
Import ListNotations.
Local Open Scope R_scope.

(** The intruder of C109 at ([x], 1/2). *)
Definition roving (x : R) : point := mkPoint Intruder 2 1 (mkV3 x (1/2) 0) (mkV3 1 0 0) m0 v0 true.

Lemma rov_scheme (P : params R) l (G : grid R) x : pG P = ex_gridp -> pB P = ex_bounds -> p_intruder_v P = Some (mkV3 1 0 0) ->
  ld_g l = 0 -> wall_free (bv G) (bh G) -> 0 <= x < 3 ->
  let E := ambient_of P 2 l G in let B := [roving x] in let B1 := map (z_strained E B) B in
  (forall k, y_mom E B B1 AX k = z_mass E B k /\ y_mom E B B1 AY k = 0) /\
  (exists k, (k < 12)%nat /\ z_mass E B k <> 0) /\ z_step E B = [roving (x + p_dt P)].
Proof.
  intros EG EB EW L0 WF HX E B B1.
  assert (GE : a_g E = v0) by (cbn; rewrite L0, !Rmult_0_l; reflexivity).
  assert (ZS : forall d, z_stress E (roving x) d = m0).
  { intros d. apply m3_ext. intros u w. unfold z_stress. rewrite el_m3. unfold z_base, z_material, over. cbn [z_stuff roving z_s].
    assert (M0 : forall u w, el u w (@m0 R Num_R) = 0) by (intros [] []; reflexivity). rewrite !M0. ring. }
  assert (EB1 : B1 = [roving x]).
  { unfold B1, B. cbn [map]. unfold z_strained. rewrite ZS. cbn [z_first roving z_stuff z_memory z_V z_x z_v]. rewrite GE. reflexivity. }
  assert (F1 : forall a k, z_force E B1 a k = 0).
  { intros a k. rewrite EB1. unfold z_force, over. cbn [map Rsum fold_right z_m z_b z_s z_V z_x roving].
    assert (M0 : forall u w, el u w (@m0 R Num_R) = 0) by (intros [] []; reflexivity). rewrite !M0, comp_v0. ring. }
  assert (AL : forall a k, a_load E a k = 0).
  { intros a k. cbn. unfold load_of. rewrite EB. destruct a; reflexivity. }
  assert (OP : forall a k, a_open E a k = 1).
  { intros a k. destruct (WF k) as [W1 W2]. cbn. unfold SpecScheme.passes. rewrite W1, W2. destruct a; cbn; rewrite ?Bool.andb_false_r; reflexivity. }
  assert (BE : forall k, a_belt E k = None) by (intros k; cbn; rewrite EB; reflexivity).
  split; [|split].
  - intros k. unfold y_mom. rewrite BE, !F1, !AL, !OP. unfold z_mass, B. cbn [map Rsum fold_right roving z_m z_v comp vx vy z_x]. split; ring.
  - assert (HP := ex_proper). destruct (hat_sums (@ex_gridp R _) (mkV3 x (1/2) 0) HP) as [S1 _].
    { repeat split; cbn; unR; lra. }
    change (nodes (@ex_gridp R _)) with 12%nat in S1.
    destruct (existsb (fun k => if Req_EM_T (z_mass E B k) 0 then false else true) (seq 0 12)) eqn:EX.
    + apply existsb_exists in EX as (k & A & C). apply in_seq in A. exists k. split; [lia|]. destruct (Req_EM_T _ _); [discriminate|assumption].
    + exfalso. assert (Z : forall k, (k < 12)%nat -> hat (@ex_gridp R _) (mkV3 x (1/2) 0) k = 0).
      { intros k Hk. destruct (Req_EM_T (z_mass E B k) 0) as [Q|Q].
        - unfold z_mass, B in Q. cbn [map Rsum fold_right roving z_m z_x] in Q. change (a_P E) with (pG P) in Q. rewrite EG in Q. unfold Rsum in Q. cbn [fold_right] in Q. lra.
        - assert (X : existsb (fun k => if Req_EM_T (z_mass E B k) 0 then false else true) (seq 0 12) = true).
          { apply existsb_exists. exists k. split; [apply in_seq; lia|]. destruct (Req_EM_T _ _); [contradiction|reflexivity]. }
          rewrite X in EX. discriminate. }
      pose proof (fsum_zero 12 (fun k => hat ex_gridp (mkV3 x (1/2) 0) k) Z) as S2. rewrite S2 in S1. lra.
  - unfold z_step. fold B1. cbv zeta. rewrite EB1. cbn [map]. unfold z_moved. cbn [z_stuff roving z_m z_V z_x z_s z_b z_first].
    change (a_w E) with (match p_intruder_v P with Some w => w | None => v0 end). rewrite EW. change (a_dt E) with (p_dt P). unfold roving. do 2 f_equal.
    apply v3_ext. intros []; cbn; ring.
Qed.

(** A state on the way of the intruder. *)
Record roves (s : state R) : Prop := {
  rv_paced : paced s;
  rv_sol : sol0 (sL s) = Ok (mix_solid Rigid);
  rv_crits : crits (sL s) = [];
  rv_walls : wall_free (bv (sG s)) (bh (sG s));
  rv_time : 0 <= p_t (sP s);
  rv_cloud : cloud (sP s) (sL s) = [roving (1/4 + p_t (sP s))];
  rv_params : pG (sP s) = ex_gridp /\ pB (sP s) = ex_bounds /\ p_intruder_v (sP s) = Some (mkV3 1 0 0) /\ p_tf (sP s) = 1 }.

Lemma roves_pass fill (s : state R) tr s' tr' : roves s -> p_t (sP s) <= p_tf (sP s) -> pass still_loads fill s tr = Ok (s', tr') ->
  roves s' /\ moderate 1 1 s'.
Proof.
  intros [H1 H2 HK H3 H4 H5 (P1 & P2 & P3 & P4)] HT E. rewrite P4 in HT.
  destruct (rov_scheme (sP s) (still_loads (sP s)) (sG s) (1/4 + p_t (sP s)) P1 P2 P3 eq_refl H3 ltac:(lra)) as (Y1 & (k0 & K0 & K1) & Y3).
  rewrite <- H5 in Y1, K1, Y3. change 2 with (s_rho (mix_solid Rigid)) in Y1, K1, Y3.
  assert (HD : all_live (sL s) (fun _ p => in_dom (pG (sP s)) (px p))).
  { assert (HI : Forall (fun q => in_dom (pG (sP s)) (z_x q)) (cloud (sP s) (sL s))).
    { rewrite H5. constructor; [|constructor]. rewrite P1. repeat split; cbn; unR; lra. }
    exact (cloud_live (sP s) (sL s) (fun x => in_dom (pG (sP s)) x) 0 HI). }
  set (SC := ambient_of (sP s) (s_rho (mix_solid Rigid)) (still_loads (sP s)) (sG s)) in *.
  set (B := cloud (sP s) (sL s)) in *.
  assert (SX : forall k, y_speed SC B (map (z_strained SC B) B) AX k = if Req_EM_T (z_mass SC B k) 0 then 0 else 1).
  { intros k. unfold y_speed. destruct (Req_EM_T _ _) as [Z|NZ]; [reflexivity|]. rewrite (proj1 (Y1 k)). unfold Rdiv. rewrite Rinv_r by exact NZ. apply Rabs_R1. }
  assert (HF : 0 < y_fast SC B).
  { unfold y_fast. cbv zeta. destruct (fold_right_max (map (fun k => Rmax (y_speed SC B (map (z_strained SC B) B) AX k) (y_speed SC B (map (z_strained SC B) B) AY k)) (seq 0 (a_nodes SC)))) as (U1 & U2 & _).
    apply Rlt_le_trans with (Rmax (y_speed SC B (map (z_strained SC B) B) AX k0) (y_speed SC B (map (z_strained SC B) B) AY k0)).
    - rewrite SX. destruct (Req_EM_T _ _); [contradiction|]. apply Rlt_le_trans with 1; [lra|apply Rmax_l].
    - apply U2. apply in_map_iff. exists k0. split; [reflexivity|]. apply in_seq. unfold a_nodes. change (a_P SC) with (pG (sP s)). rewrite P1. cbn. lia. }
  destruct (p_C109_pass still_loads fill s tr s' tr' _ H1 HD H2 E) as [EP EB].
  destruct (paced_pass still_loads fill s tr s' tr' _ H1 HD H2 E HF) as (W1 & H2' & SO & _ & (M1 & M2 & _)).
  fold SC B in EP, EB. split.
  - constructor; try assumption.
    + rewrite (crits_sol _ _ SO). exact HK.
    + rewrite M1, M2. exact H3.
    + rewrite EP. unfold y_clock, ticked. cbn [p_t set]. pose proof (pa_dt _ H1). lra.
    + rewrite (cloud_pG (sP s) (sP s')) by (rewrite EP; reflexivity). rewrite EB, Y3. rewrite EP. unfold y_clock, ticked. cbn [p_t set]. do 2 f_equal. lra.
    + rewrite EP. unfold y_clock, ticked. cbn [pG pB p_intruder_v p_tf set]. auto.
  - destruct (pass_inv still_loads fill s tr s' tr' E) as (s3 & dt & E3 & EL & EG & _).
    destruct (node_moments still_loads fill s s3 _ (pa_proper _ H1) (pa_grid _ H1) HD (pa_sealed _ H1) (pa_rub _ H1) (pa_laws _ H1) (pa_own _ H1) (pa_dt _ H1) (pa_tol _ H1) H2 E3) as (LM & LQ & NK).
    fold SC B in NK. rewrite <- EG in LM, LQ, NK. rewrite P1 in LM, LQ, NK. change (nodes (@ex_gridp R _)) with 12%nat in *.
    unfold moderate, speeds. cbn [fst snd]. rewrite LM, LQ. split; [reflexivity|]. split; [|split].
    + exists k0. destruct (NK k0 K0) as [N1 N2]. split; [exact K0|]. rewrite N1. split; [exact K1|]. left.
      specialize (N2 AX). cbn [comp] in N2. rewrite N2, (proj1 (Y1 k0)). exact K1.
    + intros k Hk. destruct (NK k Hk) as [N1 N2]. pose proof (N2 AX) as NX. pose proof (N2 AY) as NY. cbn [comp] in NX, NY.
      rewrite N1, NX, NY, (proj1 (Y1 k)), (proj2 (Y1 k)). split.
      * destruct (Req_EM_T (z_mass SC B k) 0) as [Z|NZ]; [rewrite Z; unfold Rdiv; rewrite Rmult_0_l, Rabs_R0; lra|].
        unfold Rdiv. rewrite Rinv_r by exact NZ. rewrite Rabs_R1. lra.
      * unfold Rdiv. rewrite Rmult_0_l, Rabs_R0. lra.
    + intros ph t A C. exfalso. assert (In t (crits (sL s'))) as X.
      { unfold crits. apply in_flat_map. exists ph. split; [exact A|]. rewrite C. left. reflexivity. }
      rewrite (crits_sol _ _ SO), HK in X. destruct X.
Qed.

(** An intruder that moves at speed one for a time of one: with half a tenth of a cell per pass it arrives, within 22
    passes. *)
Example x_C117_bounded : forall fill, exists (s : state R), p_dynamic (sP s) = true /\ 0 <= p_dt (sP s) /\ 0 < p_CFL (sP s) /\
  pdx (pG (sP s)) = Some 1 /\ pdy (pG (sP s)) = Some 1 /\
  (forall s1 tr s2 tr', going still_loads fill s s1 -> p_t (sP s1) <= p_tf (sP s1) -> pass still_loads fill s1 tr = Ok (s2, tr') -> moderate 1 1 s2) /\
  p_tf (sP s) - p_t (sP s) < INR 21 * (p_CFL (sP s) * Rmin (1/10 * Rmin 1 1 / 1) 1) /\
  main_loop still_loads fill 22 s <> None.
Proof.
  intros fill. destruct (grid_init_ok ex_gridp ex_bounds ex_proper) as (G & EG & OK).
  assert (R0 : roves (solo_state G)).
  { constructor; try reflexivity.
    - apply solo_paced. exact OK.
    - exact (no_walls G EG OK).
    - cbn. unR. lra.
    - change (p_t (sP (solo_state G))) with 0. rewrite Rplus_0_r. cbn. unfold lit. unR. reflexivity.
    - repeat split; reflexivity. }
  assert (GO : forall s1, going still_loads fill (solo_state G) s1 -> roves s1).
  { intros s1 H. induction H as [|s1 tr s2 tr' H IH HT E]; [exact R0|]. apply (roves_pass fill s1 tr s2 tr' IH HT E). }
  assert (MO : forall s1 tr s2 tr', going still_loads fill (solo_state G) s1 -> p_t (sP s1) <= p_tf (sP s1) -> pass still_loads fill s1 tr = Ok (s2, tr') -> moderate 1 1 s2).
  { intros s1 tr s2 tr' H HT E. apply (roves_pass fill s1 tr s2 tr' (GO s1 H) HT E). }
  assert (FU : p_tf (sP (solo_state G)) - p_t (sP (solo_state G)) < INR 21 * (p_CFL (sP (solo_state G)) * Rmin (1/10 * Rmin 1 1 / 1) 1)).
  { rewrite (Rmin_left 1 1) by lra. rewrite Rmin_left by lra. rewrite INR_IZR_INZ. cbn. unR. lra. }
  exists (solo_state G). split; [reflexivity|]. split; [cbn; unfold lit; unR; lra|]. split; [cbn; lra|]. split; [reflexivity|]. split; [reflexivity|].
  split; [exact MO|]. split; [exact FU|].
  apply (p_C117_bounded still_loads fill 21 (solo_state G) 1 1 1 1); try reflexivity; try assumption; try lra; cbn; unfold lit; unR; lra.
Qed.
