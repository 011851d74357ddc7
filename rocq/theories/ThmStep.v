(** * One step and any number of steps: totality, confinement, momentum *)
From Coq Require Import ZArith List Bool Arith Lia Reals Lra.
From Verif Require Import State NumR LibR LibList Spec SpecStep ModelGrid ModelConstit ModelParticle ModelMPList
  ModelIntegr ModelMain ProofsGrid ProofsMap ProofsP2G ProofsWalls ProofsLaws ProofsInOut ProofsHist Concrete
  ThmMapping ThmWalls ThmLaws ThmInOut ProofsStep.
Import ListNotations.
Local Open Scope R_scope.

(** ** C58: a step never aborts *)

(** A step from a state whose particles are inside the domain, with the attributes
    that its laws read, raises no exception. *)
Lemma p_C58_step_total : forall uf fill s, ready s -> exists s', time_march uf fill s = Ok s'.
Proof. exact march_total. Qed.

Lemma p_C58_pass_total : forall uf fill s tr, ready s -> p_dynamic (sP s) = false ->
  p_tf (sP s) <> 0 -> p_savetime (sP s) <> 0 -> exists r, pass uf fill s tr = Ok r.
Proof.
  intros uf fill s tr HR Hd Ht Hv. destruct (march_total uf fill s HR) as [s1 E].
  pose proof (step_params _ _ _ _ E) as EP.
  unfold pass. rewrite E. cbn [bind]. cbv zeta.
  assert (E0 : (p_tf (sP s1) =? n0)%num = false).
  { rewrite EP. change (Reqb (p_tf (sP s)) 0 = false). unfold Reqb. destruct (Req_EM_T _ _); [contradiction|reflexivity]. }
  rewrite E0.
  assert (E1 : exists b, save_due (sP s1) = Ok b).
  { unfold save_due. rewrite EP. change (p_savetime (sP s <| p_loads := uf (sP s) |>)) with (p_savetime (sP s)).
    unfold nmod, Num_R. unfold Rmod. destruct (Req_EM_T (p_savetime (sP s)) 0); [contradiction|]. cbn [bind]. eauto. }
  destruct E1 as [b ->]. cbn [bind].
  assert (E2 : p_dynamic (sP s1) = false) by (rewrite EP; exact Hd).
  match goal with |- context [if ?c then dynamic_dt _ _ _ else _] => replace c with false by (symmetry; exact E2) end.
  cbn [bind]. eauto.
Qed.

(** The state used in the examples: the grid of [P], two elastic points. *)
Definition start (P : params R) (G : grid R) (l : law_name) : state R := mkState P G (ex_L l).
Lemma ex_ready B G : grid_init ex_gridp B = Ok G -> grid_ok ex_gridp G ->
  conveyor B = false -> inlet_right B = false -> inlet_top B = false ->
  forall l, l = Elastic \/ l = VonMises -> ready (start (ex_params B) G l).
Proof.
  intros EG OK H1 H2 H3 l Hl. constructor; cbn [start sP sG sL ex_params pG pB p_intruder_v p_v0 p_aniso p_seg pdx ex_gridp p_check].
  - exact ex_proper.
  - exact OK.
  - intros ph [<-|[]]. reflexivity.
  - intros ph p A C. split; [apply (ex_dom l ph p A C)|]. discriminate.
  - exists (ex_solid l). split; [reflexivity|]. intros ph [<-|[]]. cbn [ex_phase ph_sol].
    unfold equipped, has. destruct Hl; subst l; cbn; repeat split; discriminate.
  - intros ph [<-|[]]. destruct Hl; subst l; cbn; discriminate.
  - rewrite H1. discriminate.
  - left; reflexivity.
  - reflexivity.
  - split; assumption.
  - intros _. discriminate.
Qed.
(** A box with gravity: the hypotheses are met by a moving, stressed body. *)
Example x_C58_step_total : forall uf fill, exists s s', ready s /\ closed (pG (sP s)) (sG s) /\ time_march uf fill s = Ok s' /\
  pass uf fill s [] <> Err IndexError.
Proof.
  intros uf fill. destruct (grid_init_ok ex_gridp ex_box ex_proper) as (G & EG & OK).
  pose proof (ex_ready ex_box G EG OK eq_refl eq_refl eq_refl Elastic (or_introl eq_refl)) as HR.
  destruct (p_C58_step_total uf fill _ HR) as [s' E].
  exists (start (ex_params ex_box) G Elastic), s'.
  split; [exact HR|]. split.
  - intros k Hk. destruct (p_C10_wall_masks R Num_R ex_gridp ex_box G EG) with (k := k) as (A & B & _); [repeat split; reflexivity|exact Hk|].
    cbn [start sP sG ex_params pG]. cbn [has_bottom has_top has_left has_right no_slip_bottom ex_box] in A, B.
    split; intros [C|C]; [apply B|apply B|apply A|apply A]; auto.
  - split; [exact E|].
    destruct (p_C58_pass_total uf fill _ [] HR) as [r ->]; [reflexivity| | |discriminate];
      cbn [start sP ex_params p_tf p_savetime]; cbn; lra.
Qed.

(** ** C14: confinement *)
Lemma march_geo uf fill s s' : proper (pG (sP s)) -> grid_ok (pG (sP s)) (sG s) ->
  all_live (sL s) (fun _ p => in_dom (pG (sP s)) (px p)) ->
  p_seg (sP s) = false -> cyclic_lr (pB (sP s)) = false ->
  time_march uf fill s = Ok s' ->
  grid_ok (pG (sP s)) (sG s') /\
  forall k, (k < nodes (pG (sP s)))%nat ->
    (nth k (bv (sG s)) false = true -> nth k (bv (sG s')) false = true) /\
    (nth k (bh (sG s)) false = true -> nth k (bh (sG s')) false = true).
Proof.
  intros HP HG HD Hs Hc E.
  destruct (march_stages uf fill s s' HP HG HD Hs Hc E) as
    (S0 & L1 & L3 & L4 & L5 & G1 & G3 & G4 & G5 & G6 & _ & _ & _ & _ & _ & F1 & _ & _ & F3 & _ & E4 & LF & E5 & Z4 & Z5 & E6 & _ & EG & _).
  set (P := sP s <| p_loads := uf (sP s) |>) in *.
  destruct (force_loop_spec P L4 G3 G4 LF E4) as (F4 & _).
  pose proof (BCs_frame _ _ _ _ E5) as F5.
  destruct (um_shape P G5 G6 E6) as [F6 _].
  destruct (wipe_geo (sP s) (sG s)) as (W1 & W2 & W3 & W4 & W5 & W6 & W7 & W8 & W9).
  unfold frame_all in F1. unfold vis_frame in F3. unfold frame_f in F4. unfold force_frame in F5.
  assert (B5 : gdx G5 = gdx (sG s) /\ gdy G5 = gdy (sG s) /\ gX G5 = gX (sG s) /\ gY G5 = gY (sG s) /\ gV G5 = gV (sG s) /\
     bv G5 = bv (sG s) /\ bh G5 = bh (sG s) /\ btot G5 = btot (sG s) /\ bconv G5 = bconv (sG s)).
  { rewrite F5. cbn. rewrite F4. cbn. rewrite F3. cbn. rewrite F1. cbn. repeat split; assumption. }
  destruct B5 as (C1 & C2 & C3 & C4 & C5 & C6 & C7 & C8 & C9).
  pose proof (masks_after_len P G5 Z5) as [M1 M2].
  split.
  - rewrite EG. unfold calculate_gammadot. destruct HG.
    constructor; cbn; rewrite F6; cbn; rewrite ?C1, ?C2, ?C3, ?C4, ?C5, ?C8, ?C9; auto.
  - intros k Hk. destruct (masks_grow P G5 G6 k Z5 E6 Hk) as [A B]. rewrite C6 in A. rewrite C7 in B.
    rewrite EG. unfold calculate_gammadot. cbn. auto.
Qed.

Lemma col_lt (Pg : gridp R) k : proper Pg -> (col Pg k <= nx Pg - 1)%nat.
Proof. intros (H & _). unfold col. pose proof (Nat.mod_upper_bound k (nx Pg)). lia. Qed.
Lemma row_lt (Pg : gridp R) k : proper Pg -> (k < nodes Pg)%nat -> (row Pg k <= ny Pg - 1)%nat.
Proof.
  intros (H & H' & _) Hk. unfold row. assert (k / nx Pg < ny Pg)%nat; [|lia].
  apply Nat.div_lt_upper_bound; [lia|exact Hk].
Qed.

(** One step of a closed box that respects the CFL condition keeps every particle
    strictly inside, and the box closed. *)
Lemma p_C14_step : forall uf fill s s', proper (pG (sP s)) -> grid_ok (pG (sP s)) (sG s) ->
  p_seg (sP s) = false -> cyclic_lr (pB (sP s)) = false -> conveyor (pB (sP s)) = false ->
  outlet_left (pB (sP s)) = false -> outlet_bottom (pB (sP s)) = false ->
  inlet_right (pB (sP s)) = false -> inlet_top (pB (sP s)) = false ->
  (forall ph, In ph (sL s) -> s_law (ph_sol ph) <> Rigid) ->
  closed (pG (sP s)) (sG s) ->
  all_live (sL s) (fun _ p => inside (pG (sP s)) (px p)) ->
  time_march uf fill s = Ok s' -> cfl (p_dt (sP s)) (sP s) (sG s') ->
  all_live (sL s') (fun _ p => inside (pG (sP s)) (px p)) /\
  closed (pG (sP s)) (sG s') /\ grid_ok (pG (sP s)) (sG s').
Proof.
  intros uf fill s s' HP HG Hs Hc Hv O1 O2 I1 I2 HR HC HI E [Hdt HF].
  assert (HD : all_live (sL s) (fun _ p => in_dom (pG (sP s)) (px p))).
  { intros ph p A B. destruct (HI ph p A B) as [X Y]. unfold in_dom. lra. }
  destruct (march_geo uf fill s s' HP HG HD Hs Hc E) as [OK' MK].
  split; [|split; [|exact OK']].
  2:{ intros k Hk. destruct (HC k Hk) as [A B]. destruct (MK k Hk) as [C D]. split; intros Q; [apply C, A, Q|apply D, B, Q]. }
  destruct (march_stages uf fill s s' HP HG HD Hs Hc E) as
    (S0 & L1 & L3 & L4 & L5 & G1 & G3 & G4 & G5 & G6 & HS0 & E1 & R1 & R3 & E2 & F1 & E3 & R4 & F3 & Lo & E4 & LF & E5 & Z4 & Z5 & E6 & EP & EG & PM & EI).
  set (P := sP s <| p_loads := uf (sP s) |>) in *. set (Pg := pG (sP s)) in *.
  destruct (force_loop_spec P L4 G3 G4 LF E4) as (F4 & _).
  pose proof (BCs_frame _ _ _ _ E5) as F5.
  destruct (wipe_geo (sP s) (sG s)) as (_ & _ & _ & _ & _ & W6 & W7 & _ & W9).
  unfold frame_all in F1. unfold vis_frame in F3. unfold frame_f in F4. unfold force_frame in F5.
  assert (B5 : bv G5 = bv (sG s) /\ bh G5 = bh (sG s) /\ gq G5 = gq G1 /\ gm G5 = gm G1).
  { rewrite F5. cbn. rewrite F4. cbn. rewrite F3. cbn. rewrite F1. cbn. repeat split; assumption. }
  destruct B5 as (C6 & C7 & Cq & Cm).
  assert (NQ : forall k, (k < nodes Pg)%nat ->
    (nth k (bv (sG s)) false = true -> vx (nth k (gq G6) v0) = 0) /\ (nth k (bh (sG s)) false = true -> vy (nth k (gq G6) v0) = 0)).
  { intros k Hk. destruct HG. destruct (p2g_all_mom P L3 (wipe (sP s) (sG s)) G1) as [_ MQ]; auto;
      [exact (wipe_lens (sP s) (sG s))|rewrite W6; assumption|rewrite W7; assumption|].
    destruct (um_normal P G5 G6 k Z5 E6 Hk) as [N1 N2].
    destruct (masks_grow P G5 G6 k Z5 E6 Hk) as [A B]. rewrite C6 in A. rewrite C7 in B.
    destruct (um_q P G5 G6 Z5 E6 k Hk) as [Q1 Q2].
    assert (CP : conveyor (pB P) = false) by exact Hv. rewrite CP in Q1. cbn [andb] in Q1.
    split; intros Q.
    - rewrite Q1, N1 by auto. rewrite Cq. pose proof (MQ AX k) as M. cbn [comp open_a] in M. rewrite M.
      unfold open_x. rewrite W6, Q. cbn [orb]. lra.
    - pose proof (Q2 AY) as Q3. cbn [comp] in Q3. rewrite Q3 by discriminate. rewrite N2 by auto. rewrite Cq.
      pose proof (MQ AY k) as M. cbn [comp open_a] in M. rewrite M.
      unfold open_y. rewrite W7, Q. cbn [orb]. lra. }
  assert (GM : gm (sG s') = gm G6 /\ gq (sG s') = gq G6) by (rewrite EG; split; reflexivity).
  destruct GM as [GM GQ]. rewrite GM, GQ in HF.
  pose proof (cell_w_pos _ HP) as Hw. pose proof (cell_h_pos _ HP) as Hh.
  (* nodal displacements *)
  assert (DX : forall k, (k < nodes Pg)%nat -> Rabs (p_dt (sP s) * node_v P G6 AX k) < cell_w Pg /\
                                             Rabs (p_dt (sP s) * node_v P G6 AY k) < cell_h Pg).
  { intros k Hk. unfold node_v. change (p_Mtol P) with (p_Mtol (sP s)).
    destruct (Rltb (p_Mtol (sP s)) (nth k (gm G6) 0)) eqn:EM.
    - apply Rltb_true in EM. destruct (HF k Hk EM) as [A B]. rewrite !Rabs_mult, (Rabs_pos_eq _ Hdt). cbn [comp]. auto.
    - rewrite Rmult_0_r, Rabs_R0. auto. }
  assert (WX : forall k, (k < nodes Pg)%nat -> nth k (bv (sG s)) false = true -> node_v P G6 AX k = 0).
  { intros k Hk B. destruct (NQ k Hk) as [A _]. unfold node_v. cbn [comp]. rewrite A by exact B.
    destruct (Rltb _ _); [unfold Rdiv; lra|reflexivity]. }
  assert (WY : forall k, (k < nodes Pg)%nat -> nth k (bh (sG s)) false = true -> node_v P G6 AY k = 0).
  { intros k Hk B. destruct (NQ k Hk) as [_ A]. unfold node_v. cbn [comp]. rewrite A by exact B.
    destruct (Rltb _ _); [unfold Rdiv; lra|reflexivity]. }
  assert (ONE : forall x x' : V3 R, inside Pg x ->
     (forall a, comp a x' = comp a x + p_dt P * fsum (nodes Pg) (fun k => hat Pg x k * node_v P G6 a k)) -> inside Pg x').
  { intros x x' [[X1 X2] [Y1 Y2]] HX. change (p_dt P) with (p_dt (sP s)) in HX.
    assert (Dx : in_dom Pg x) by (unfold in_dom; lra).
    destruct (hat_sums Pg x HP Dx) as (U & UX & UY).
    pose proof (HX AX) as VX. pose proof (HX AY) as VY. cbn [comp] in VX, VY.
    pose proof (cell_w_span Pg HP) as SX. pose proof (cell_h_span Pg HP) as SY.
    assert (IW : forall n, (1 <= n)%nat -> forall w, 0 < w -> w <= INR n * w).
    { intros n Hn w Hw'. apply le_INR in Hn. simpl in Hn. nra. }
    assert (LX : forall k, INR (nx Pg - 1 - col Pg k) = INR (nx Pg) - 1 - INR (col Pg k)).
    { intros k. pose proof (col_lt Pg k HP). rewrite !minus_INR by (destruct HP; lia). reflexivity. }
    assert (LY : forall k, (k < nodes Pg)%nat -> INR (ny Pg - 1 - row Pg k) = INR (ny Pg) - 1 - INR (row Pg k)).
    { intros k Hk. pose proof (row_lt Pg k HP Hk). rewrite !minus_INR by (destruct HP as (? & ? & _); lia). reflexivity. }
    assert (AB : forall u w, Rabs u < w -> - w < u < w).
    { intros u w A. apply Rabs_def2 in A. lra. }
    set (d a := fsum (nodes Pg) (fun k => hat Pg x k * node_v P G6 a k)) in *.
    assert (SUM : forall a o (s0 : R) (X : nat -> R),
      fsum (nodes Pg) (fun k => hat Pg x k * (s0 * (X k - o) + s0 * (p_dt (sP s) * node_v P G6 a k)))
      = s0 * (fsum (nodes Pg) (fun k => hat Pg x k * X k) - o + p_dt (sP s) * d a)).
    { intros a o s0 X. rewrite (fsum_ext _ _ (fun k => (s0 * (hat Pg x k * X k) + (- s0 * o) * hat Pg x k) + (s0 * p_dt (sP s)) * (hat Pg x k * node_v P G6 a k))) by (intros; lra).
      rewrite !fsum_plus. rewrite (fsum_scal _ _ (fun k => hat Pg x k * X k)), (fsum_scal _ _ (fun k => hat Pg x k)),
        (fsum_scal _ _ (fun k => hat Pg x k * node_v P G6 a k)). rewrite U. fold (d a). lra. }
    assert (SUM0 : forall o (s0 : R) (X : nat -> R),
      fsum (nodes Pg) (fun k => hat Pg x k * (s0 * (X k - o))) = s0 * (fsum (nodes Pg) (fun k => hat Pg x k * X k) - o)).
    { intros o s0 X. rewrite (fsum_ext _ _ (fun k => s0 * (hat Pg x k * X k) + (- s0 * o) * hat Pg x k)) by (intros; lra).
      rewrite fsum_plus. rewrite (fsum_scal _ _ (fun k => hat Pg x k * X k)), (fsum_scal _ _ (fun k => hat Pg x k)), U. lra. }
    assert (A1 : 0 < 1 * (vx x - x_m Pg + p_dt (sP s) * d AX)).
    { rewrite <- UX, <- SUM. apply (stays_positive Pg x (fun k => 1 * (node_x Pg k - x_m Pg))); [exact HP| |rewrite SUM0, UX; lra].
      intros k Hk. destruct (Nat.eq_dec (col Pg k) 0) as [Z|Z].
      - left. rewrite WX; [|exact Hk|apply (HC k Hk); left; exact Z]. unfold node_x. rewrite Z. simpl INR. lra.
      - right. destruct (DX k Hk) as [A _]. apply AB in A. unfold node_x. specialize (IW (col Pg k) ltac:(lia) _ Hw). lra. }
    assert (A2 : 0 < (-1) * (vx x - x_M Pg + p_dt (sP s) * d AX)).
    { rewrite <- UX, <- SUM. apply (stays_positive Pg x (fun k => (-1) * (node_x Pg k - x_M Pg))); [exact HP| |rewrite SUM0, UX; lra].
      intros k Hk. pose proof (col_lt Pg k HP) as CL. specialize (LX k). destruct (Nat.eq_dec (col Pg k) (nx Pg - 1)) as [Z|Z].
      - left. rewrite WX; [|exact Hk|apply (HC k Hk); right; exact Z]. unfold node_x.
        rewrite Z, Nat.sub_diag in LX. simpl INR in LX. rewrite Z. assert (Q : INR (nx Pg - 1) = INR (nx Pg) - 1) by lra. rewrite Q. lra.
      - right. destruct (DX k Hk) as [A _]. apply AB in A. unfold node_x. specialize (IW (nx Pg - 1 - col Pg k)%nat ltac:(lia) _ Hw).
        rewrite LX in IW. lra. }
    assert (A3 : 0 < 1 * (vy x - y_m Pg + p_dt (sP s) * d AY)).
    { rewrite <- UY, <- SUM. apply (stays_positive Pg x (fun k => 1 * (node_y Pg k - y_m Pg))); [exact HP| |rewrite SUM0, UY; lra].
      intros k Hk. destruct (Nat.eq_dec (row Pg k) 0) as [Z|Z].
      - left. rewrite WY; [|exact Hk|apply (HC k Hk); left; exact Z]. unfold node_y. rewrite Z. simpl INR. lra.
      - right. destruct (DX k Hk) as [_ A]. apply AB in A. unfold node_y. specialize (IW (row Pg k) ltac:(lia) _ Hh). lra. }
    assert (A4 : 0 < (-1) * (vy x - y_M Pg + p_dt (sP s) * d AY)).
    { rewrite <- UY, <- SUM. apply (stays_positive Pg x (fun k => (-1) * (node_y Pg k - y_M Pg))); [exact HP| |rewrite SUM0, UY; lra].
      intros k Hk. pose proof (row_lt Pg k HP Hk) as CL. specialize (LY k Hk). destruct (Nat.eq_dec (row Pg k) (ny Pg - 1)) as [Z|Z].
      - left. rewrite WY; [|exact Hk|apply (HC k Hk); right; exact Z]. unfold node_y.
        rewrite Z, Nat.sub_diag in LY. simpl INR in LY. rewrite Z. assert (Q : INR (ny Pg - 1) = INR (ny Pg) - 1) by lra. rewrite Q. lra.
      - right. destruct (DX k Hk) as [_ A]. apply AB in A. unfold node_y. specialize (IW (ny Pg - 1 - row Pg k)%nat ltac:(lia) _ Hh).
        rewrite LY in IW. lra. }
    unfold inside. rewrite VX, VY. fold (d AX) (d AY). lra. }
  (* the particles *)
  assert (IO : inout P L5 = Ok L5).
  { unfold inout. change (pB P) with (pB (sP s)). rewrite O1, O2, I1, I2, Hc. reflexivity. }
  rewrite IO in EI. injection EI as EI. rewrite <- EI.
  assert (I4 : all_live L4 (fun ph p => inside Pg (px p) /\ s_law (ph_sol ph) <> Rigid)).
  { eapply (Lrel_all_live _ L3 L4 (fun ph p => inside Pg (px p) /\ s_law (ph_sol ph) <> Rigid)); [exact R4| |].
    { cbv beta. intros ph p ph' p' _ _ -> _ _ [X _] Y. unfold strained, law_frame in X. rewrite X. exact Y. }
    eapply (Lrel_all_live _ L1 L3 (fun ph p => inside Pg (px p) /\ s_law (ph_sol ph) <> Rigid)); [exact R3| |].
    { cbv beta. intros ph p ph' p' _ _ -> _ _ [_ ->] Y. exact Y. }
    eapply (Lrel_all_live _ (sL s) L1 (fun ph p => inside Pg (px p) /\ s_law (ph_sol ph) <> Rigid)); [exact R1| |].
    { cbv beta. intros ph p ph' p' _ _ -> _ _ [b ->] Y. exact Y. }
    intros ph p A B. split; [apply (HI ph p A B)|apply (HR ph A)]. }
  intros ph' p' Hph' Hp'.
  clear - PM I4 ONE Hph' Hp'. revert I4 Hph'. induction PM as [|ph ph1 L L' (M1 & M2 & M3 & M4 & _) PM IH]; [intros _ []|].
  intros I4 [<-|Hin].
  - assert (NR : forall p, In p (live ph) -> is_rigid (s_law (ph_sol ph)) = false).
    { intros p Hp. destruct (I4 ph p (or_introl eq_refl) Hp) as [_ A]. destruct (s_law (ph_sol ph)); try reflexivity. congruence. }
    assert (I5 : forall p, In p (live ph) -> inside Pg (px p)) by (intros p Hp; apply (I4 ph p (or_introl eq_refl) Hp)).
    clear - M4 NR I5 ONE Hp'. induction M4 as [|p q l l' M ML IHl]; [destruct Hp'|]. destruct Hp' as [<-|Hp'].
    + rewrite (NR p) in M by (left; reflexivity). destruct M as (_ & M & _). apply (ONE (px p)); [apply I5; left; reflexivity|exact M].
    + apply IHl; auto. intros q0 Hq. apply (NR q0). right; exact Hq. intros q0 Hq. apply I5. right; exact Hq.
  - apply IH; [|exact Hin]. intros ph0 p0 A B. apply I4; [right; exact A|exact B].
Qed.

(** A closed box: walls on all sides, no inlet, outlet, conveyor, periodicity or
    intruder, and every particle strictly inside. *)
Record boxed (s : state R) : Prop := {
  bx_proper : proper (pG (sP s));
  bx_grid : grid_ok (pG (sP s)) (sG s);
  bx_seg : p_seg (sP s) = false;
  bx_flags : cyclic_lr (pB (sP s)) = false /\ conveyor (pB (sP s)) = false /\
             outlet_left (pB (sP s)) = false /\ outlet_bottom (pB (sP s)) = false /\
             inlet_right (pB (sP s)) = false /\ inlet_top (pB (sP s)) = false;
  bx_count : counted (sL s);
  bx_rigid : forall ph, In ph (sL s) -> s_law (ph_sol ph) <> Rigid;
  bx_closed : closed (pG (sP s)) (sG s);
  bx_inside : all_live (sL s) (fun _ p => inside (pG (sP s)) (px p)) }.

Definition cfl_held uf fill (s : state R) : Prop :=
  forall s1 tr s2 tr', reach uf fill s s1 -> pass uf fill s1 tr = Ok (s2, tr') -> cfl (p_dt (sP s1)) (sP s1) (sG s2).

Lemma any_stable : stable (T := R) (fun _ _ _ => True) (fun _ _ _ => True).
Proof. constructor; auto. Qed.
Lemma reach_sols uf fill (s s' : state R) : counted (sL s) -> reach uf fill s s' ->
  map ph_sol (sL s') = map ph_sol (sL s) /\ counted (sL s').
Proof.
  intros C R. assert (C' : all_counted (sL s)) by (apply Forall_forall; exact C).
  pose proof (reach_ev uf fill _ _ s s' any_stable C' R) as V. cbv zeta in V. split.
  - clear - V. induction V as [|ph ph' L L' (E & _) V IH]; cbn; [reflexivity|]. rewrite E, IH. reflexivity.
  - apply Lev_counted in V. exact (proj1 (Forall_forall _ _) V).
Qed.
Lemma map_in_sol (L L' : list (phase R)) ph : map ph_sol L' = map ph_sol L -> In ph L' -> exists ph0, In ph0 L /\ ph_sol ph0 = ph_sol ph.
Proof.
  intros E H. apply (in_map ph_sol) in H. rewrite E in H. apply in_map_iff in H. destruct H as (ph0 & A & B). eauto.
Qed.

Lemma boxed_reach uf fill s s' : boxed s -> cfl_held uf fill s -> reach uf fill s s' -> boxed s'.
Proof.
  intros HB HF R. induction R as [|s1 tr s2 tr' R IH E]; [exact HB|].
  pose proof (HF s1 tr s2 tr' R E) as HC. clear HF.
  destruct (reach_sols uf fill s s2 (bx_count _ HB) (reach_S _ _ _ _ _ _ _ R E)) as [SL CT].
  destruct (pass_inv uf fill _ _ _ _ E) as (s3 & dt & E3 & EL & EG & EP).
  assert (PG : pG (sP s2) = pG (sP s1)) by (rewrite EP; reflexivity).
  assert (PB : pB (sP s2) = pB (sP s1)) by (rewrite EP; reflexivity).
  assert (PS : p_seg (sP s2) = p_seg (sP s1)) by (rewrite EP; reflexivity).
  destruct IH as [B1 B2 B3 (F1 & F2 & F3 & F4 & F5 & F6) B5 B6 B7 B8]. rewrite EG in HC.
  destruct (p_C14_step uf fill s1 s3 B1 B2 B3 F1 F2 F3 F4 F5 F6 B6 B7 B8 E3 HC) as (I & C & K).
  rewrite <- EL in I.
  constructor; rewrite ?PG, ?PB, ?PS, ?EG; auto.
  - tauto.
  - intros ph Hin. destruct (map_in_sol (sL s) (sL s2) ph SL Hin) as (ph0 & A & <-). apply (bx_rigid _ HB); exact A.
Qed.

(** However many steps are taken, every particle stays strictly inside. *)
Lemma p_C14_confined : forall uf fill s, boxed s -> cfl_held uf fill s ->
  forall s', reach uf fill s s' -> all_live (sL s') (fun _ p => inside (pG (sP s)) (px p)).
Proof.
  intros uf fill s HB HF s' R. destruct (reach_const uf fill s s' R) as (E & _). rewrite <- E.
  apply (bx_inside _ (boxed_reach uf fill s s' HB HF R)).
Qed.

(** What does not change during a run and is needed for it to succeed. *)
Record runnable (s : state R) : Prop := {
  rn_laws : exists S0, sol0 (sL s) = Ok S0 /\ forall ph, In ph (sL s) -> equipped S0 (ph_sol ph);
  rn_check : p_check (sP s) = false;
  rn_aniso : p_aniso (sP s) = false;
  rn_dyn : p_dynamic (sP s) = false;
  rn_tf : p_tf (sP s) <> 0;
  rn_save : p_savetime (sP s) <> 0 }.
Lemma runnable_reach uf fill s s' : counted (sL s) -> runnable s -> reach uf fill s s' -> runnable s'.
Proof.
  intros C HR R. destruct (reach_sols uf fill s s' C R) as [SL _].
  assert (K : p_check (sP s') = p_check (sP s) /\ p_aniso (sP s') = p_aniso (sP s) /\ p_dynamic (sP s') = p_dynamic (sP s) /\
              p_tf (sP s') = p_tf (sP s) /\ p_savetime (sP s') = p_savetime (sP s)).
  { clear - R. induction R as [|s1 tr s2 tr' R IH E]; [auto|].
    destruct (pass_inv uf fill _ _ _ _ E) as (s3 & dt & E3 & EL & EG & EP). rewrite EP. exact IH. }
  destruct K as (K1 & K2 & K3 & K4 & K5). destruct HR as [(S0 & H0 & H1) H2 H3 H4 H5 H6].
  constructor; rewrite ?K1, ?K2, ?K3, ?K4, ?K5; auto.
  exists S0. split.
  - eapply sol0_map; eassumption.
  - intros ph Hin. destruct (map_in_sol (sL s) (sL s') ph SL Hin) as (ph0 & A & <-). auto.
Qed.
Lemma boxed_ready s : boxed s -> runnable s -> ready s.
Proof.
  intros [B1 B2 B3 (F1 & F2 & F3 & F4 & F5 & F6) B5 B6 B7 B8] [R1 R2 R3 R4 R5 R6]. constructor; auto.
  - intros ph p A B. split; [|congruence]. destruct (B8 ph p A B) as [X Y]. unfold in_dom. lra.
  - intros ph A E. exfalso. exact (B6 ph A E).
  - congruence.
  - congruence.
Qed.

(** A run in a closed box never raises an exception, whatever its length. *)
Lemma p_C14_never_aborts : forall uf fill s, boxed s -> runnable s -> cfl_held uf fill s ->
  (forall s' tr, reach uf fill s s' -> exists r, pass uf fill s' tr = Ok r) /\
  (forall fuel e, main_loop uf fill fuel s <> Some (Err e)).
Proof.
  intros uf fill s HB HR HF.
  assert (ONE : forall s' tr, reach uf fill s s' -> exists r, pass uf fill s' tr = Ok r).
  { intros s' tr R. pose proof (boxed_reach uf fill s s' HB HF R) as HB'.
    pose proof (runnable_reach uf fill s s' (bx_count _ HB) HR R) as HR'.
    apply p_C58_pass_total; [apply boxed_ready; assumption|apply HR'..]. }
  split; [exact ONE|]. intros fuel e E. unfold main_loop in E.
  assert (M : forall fuel s1 tr, reach uf fill s s1 -> march uf fill fuel s1 tr <> Some (Err e)).
  { clear E fuel. induction fuel as [|n IH]; intros s1 tr R; cbn [march]; destruct (p_t (sP s1) <=? p_tf (sP s1))%num; try discriminate.
    destruct (ONE s1 tr R) as [[s2 tr2] E]. rewrite E. apply IH. eapply reach_S; eassumption. }
  destruct (march uf fill fuel s [EInitial]) as [[[s2 tr2]|e2]|] eqn:EM; try discriminate.
  injection E as ->. exact (M fuel s [EInitial] (reach_0 _ _ _) EM).
Qed.
