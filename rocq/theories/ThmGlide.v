(** * A body on a smooth floor: C153. *)
From Coq Require Import ZArith Reals List Bool Arith Lra Lia.
From RecordUpdate Require Import RecordUpdate.
From Verif Require Import State NumR Spec SpecLaws SpecStep SpecScheme SpecView LibList LibR ModelGrid ModelConstit ModelParticle ModelMPList
  ModelIntegr ModelMain ProofsGrid ProofsMap ProofsP2G ProofsWalls ProofsLaws ProofsInOut ProofsHist Concrete
  ThmMapping ThmWalls ThmLaws ThmInOut ThmHist ProofsStep ProofsPoints ThmStep ThmBalance ThmEnergy ThmFall ThmGeo ProofsScheme ProofsView ThmScheme ThmView ThmSpin ThmAngular ThmBeat ThmObserver ThmSilent ThmCells ThmMerge ThmJump ThmNewton ThmDrop ThmStride.
Import ListNotations.
Local Open Scope R_scope.

Section Glide.
  Context (E : scheme) (B : list mp) (a : axis).
  Hypothesis (HP : proper (e_P E)) (HO : forall k, e_open E a k = 1) (HT : 0 <= e_tol E).
  Hypothesis (HD : forall q, In q B -> in_dom (e_P E) (q_x q)) (HH : all_heavy E B) (HB : unloaded B).
  Let B1 := map (t_strained E B) B.
  Lemma glide_mass_vel k : (k < e_nodes E)%nat -> t_mass E B k * t_vel E B a k = Rsum (map (fun q => q_m q * comp a (q_v q) * hat (e_P E) (q_x q) k) B).
  Proof.
    intros Hk. unfold t_vel. destruct (Rlt_dec _ _) as [L|L]; [rewrite HO; field; lra|]. rewrite Rmult_0_r. symmetry. apply Rsum_zero. intros q Hq. rewrite (proj1 (light_hat E B HH q k Hq Hk L)). ring.
  Qed.
  Lemma glide_mass_acc k : (k < e_nodes E)%nat -> t_mass E B k * t_acc E B B1 a k = e_damp E * t_force E B1 a k.
  Proof.
    intros Hk. unfold t_acc. destruct (Rlt_dec _ _) as [L|L]; [rewrite HO; field; lra|]. rewrite Rmult_0_r. unfold t_force, B1. rewrite map_map, Rsum_zero; [ring|].
    intros q Hq. cbn [t_strained q_m q_b q_V q_s q_x]. destruct (light_hat E B HH q k Hq Hk L) as [Z1 Z2]. unfold over. rewrite Z1, !Z2. ring.
  Qed.
  Lemma glide_acc : fsum (e_nodes E) (fun k => t_mass E B k * t_acc E B B1 a k) = e_damp E * pull a (e_g E) B.
  Proof. rewrite (fsum_ext _ _ (fun k => e_damp E * t_force E B1 a k)) by (intros k Hk; apply (glide_mass_acc k Hk)). rewrite fsum_scal. unfold B1. rewrite (fall_force E B HP HD HB). reflexivity. Qed.
  Lemma glide_vel : fsum (e_nodes E) (fun k => t_mass E B k * t_vel E B a k) = drive a B.
  Proof.
    rewrite (fsum_ext _ _ (fun k => Rsum (map (fun q => q_m q * comp a (q_v q) * hat (e_P E) (q_x q) k) B))) by (intros k Hk; apply glide_mass_vel, Hk).
    rewrite fsum_Rsum_swap. apply Rsum_ext. intros q Hq. rewrite fsum_scal. destruct (hat_sums (e_P E) (q_x q) HP (HD q Hq)) as (U & _). change (fun k => hat (e_P E) (q_x q) k) with (hat (e_P E) (q_x q)) in *. unfold e_nodes. unfold nodes in U. rewrite U. ring.
  Qed.
  Lemma glide_drive : drive a (t_step E B) = drive a B + e_dt E * (e_damp E * pull a (e_g E) B).
  Proof.
    unfold drive at 1, t_step. fold B1. unfold B1 at 2. rewrite !map_map.
    transitivity (Rsum (map (fun q => q_m q * comp a (q_v q) + e_dt E * (q_m q * fsum (e_nodes E) (fun k => hat (e_P E) (q_x q) k * t_acc E B B1 a k))) B)).
    - apply Rsum_ext. intros q _. unfold t_moved. cbn [t_strained q_m q_v q_x]. clear. destruct a; cbn [v3 comp vx vy vz]; ring.
    - rewrite Rsum_plus, Rsum_scal, (spread E B), glide_acc. unfold drive. ring.
  Qed.
  Lemma glide_moment : moment a (t_step E B) = moment a B + e_dt E * (drive a B + e_dt E * (e_damp E * pull a (e_g E) B)).
  Proof.
    unfold moment at 1, t_step. fold B1. unfold B1 at 2. rewrite !map_map.
    transitivity (Rsum (map (fun q => q_m q * comp a (q_x q) + e_dt E * (q_m q * fsum (e_nodes E) (fun k => hat (e_P E) (q_x q) k * (t_vel E B a k + e_dt E * t_acc E B B1 a k)))) B)).
    - apply Rsum_ext. intros q _. unfold t_moved. cbn [t_strained q_m q_v q_x]. clear. destruct a; cbn [v3 comp vx vy vz]; ring.
    - rewrite Rsum_plus, Rsum_scal, (spread E B (fun k => t_vel E B a k + e_dt E * t_acc E B B1 a k)).
      rewrite (fsum_ext _ _ (fun k => t_mass E B k * t_vel E B a k + e_dt E * (t_mass E B k * t_acc E B B1 a k))) by (intros; ring). rewrite fsum_plus, fsum_scal, glide_acc, glide_vel. unfold moment. ring.
  Qed.
End Glide.

(** ** C153 *)
(** Any body on a grid with any walls, none of which holds the component [a] of the motion
    (a smooth floor does not hold the motion along it): along [a] the body gains the momentum that
    its weight gives it, and its centre of mass follows, as if there were no walls. *)
Lemma p_C153_glides : forall uf fill g th a n (s : state R) tr, plain s -> 0 <= p_Mtol (sP s) -> (forall P, no_surface (sP s) (uf P)) ->
  (forall k, removed a (roughness (pB (sP s))) (nth k (bv (sG s)) false) (nth k (bh (sG s)) false) = false) ->
  (forall P, ld_g (uf P) = g /\ ld_theta (uf P) = th) -> unloaded (bodies (sL s)) ->
  (forall k, (k < n)%nat -> let B := t_run uf k (sP s) (sG s) (bodies (sL s)) in all_heavy (scheme_at uf k (sP s) (sG s)) B /\
    Forall (fun q => in_dom (pG (sP s)) (q_x q) /\ (p_check (sP s) = true -> vz (q_x q) = 0)) B) ->
  exists s' tr', after uf fill n s tr = Ok (s', tr') /\
  let W := (if p_damping (sP s) then 7/10 else 1) * pull a (mkV3 (g * sin th) (g * cos th) 0) (bodies (sL s)) in let h := p_dt (sP s) in
  drive a (bodies (sL s')) = drive a (bodies (sL s)) + INR n * h * W /\
  moment a (bodies (sL s')) = moment a (bodies (sL s)) + INR n * h * drive a (bodies (sL s)) + INR n * (INR n + 1) / 2 * (h * h) * W.
Proof.
  intros uf fill g th a n s tr Hs HT HN HW HU HB HD.
  destruct (p_C84_run uf fill n s tr Hs HN) as (s' & sr & E1 & _ & B1); [intros k Hk; exact (proj2 (HD k Hk))|].
  exists s', sr. split; [exact E1|]. rewrite B1. clear E1 B1. set (B0 := bodies (sL s)) in *. set (V := mkV3 (g * sin th) (g * cos th) 0).
  enough (X : unloaded (t_run uf n (sP s) (sG s) B0) /\ pull a V (t_run uf n (sP s) (sG s) B0) = pull a V B0 /\
    let W := (if p_damping (sP s) then 7/10 else 1) * pull a V B0 in let h := p_dt (sP s) in
    drive a (t_run uf n (sP s) (sG s) B0) = drive a B0 + INR n * h * W /\ moment a (t_run uf n (sP s) (sG s) B0) = moment a B0 + INR n * h * drive a B0 + INR n * (INR n + 1) / 2 * (h * h) * W) by exact (proj2 (proj2 X)).
  induction n as [|n IH]; [cbn [t_run INR]; split; [exact HB|]; split; [reflexivity|]; split; [ring|field]|]. destruct IH as [W IH]; [intros k Hk; apply HD; lia|].
  rewrite t_run_S. destruct (clock_grid uf n (sP s)) as (E1 & E2 & E3 & E4 & E5 & E6). destruct (HD n (Nat.lt_succ_diag_r n)) as [HH F]. rewrite Forall_forall in F.
  set (E := scheme_at uf n (sP s) (sG s)) in *. set (B := t_run uf n (sP s) (sG s) B0) in *.
  assert (EP : e_P E = pG (sP s)) by exact E1. assert (ED : e_dt E = p_dt (sP s)) by exact E3.
  assert (HO : forall k, e_open E a k = 1) by (intros k; unfold E, scheme_at, scheme_of; cbn [e_open]; unfold passes; rewrite E2, (HW k); reflexivity).
  assert (HT' : 0 <= e_tol E) by (unfold E, scheme_at, scheme_of; cbn [e_tol]; congruence).
  assert (EQ : e_damp E = if p_damping (sP s) then 7/10 else 1) by (unfold E, scheme_at, scheme_of; cbn [e_damp]; rewrite E5; reflexivity).
  assert (HG : e_g E = V) by (unfold E, scheme_at, scheme_of; cbn [e_g]; destruct (HU (clock uf n (sP s))) as [-> ->]; reflexivity).
  assert (HP' : proper (e_P E)) by (rewrite EP; exact (pl_proper s Hs)).
  assert (HD' : forall q, In q B -> in_dom (e_P E) (q_x q)) by (intros q Hq; rewrite EP; exact (proj1 (F q Hq))).
  split; [exact (fall_unloaded E B W)|]. destruct IH as (I0 & I1 & I2).
  split; [rewrite (fall_pull E B); exact I0|]. cbv zeta. rewrite (glide_drive E B a HP' HO HT' HD' HH W), (glide_moment E B a HP' HO HT' HD' HH W), HG, I0, I1, I2, ED, EQ, S_INR. split; field.
Qed.
(** A floor and nothing else. *)
Definition floored : bounds R := mkBounds false false false None false false false true false false false false false false false false false false false false.
Definition on_floor (G : grid R) : state R := mkState (ex_params floored) G (perched (1/2) 0).
(** A point of mass two on a smooth floor. *)
Example x_C153_glides : forall g th, let uf := fun _ : params R => mkLoads g th 0 0 in exists s : state R, plain s /\ 0 <= p_Mtol (sP s) /\ (forall P, no_surface (sP s) (uf P)) /\
  (forall k, removed AX (roughness (pB (sP s))) (nth k (bv (sG s)) false) (nth k (bh (sG s)) false) = false) /\ nth 0 (bh (sG s)) false = true /\
  (forall P, ld_g (uf P) = g /\ ld_theta (uf P) = th) /\ unloaded (bodies (sL s)) /\
  (forall k, (k < 1)%nat -> let B := t_run uf k (sP s) (sG s) (bodies (sL s)) in all_heavy (scheme_at uf k (sP s) (sG s)) B /\
    Forall (fun q => in_dom (pG (sP s)) (q_x q) /\ (p_check (sP s) = true -> vz (q_x q) = 0)) B) /\
  pull AX (mkV3 (g * sin th) (g * cos th) 0) (bodies (sL s)) = 2 * (g * sin th).
Proof.
  intros g th uf. destruct (grid_init_ok ex_gridp floored ex_proper) as (G & EG & OK).
  exists (on_floor G). split; [|split; [cbn; unfold lit; unR; lra|split; [intros P; split; discriminate|split; [|split; [|split; [intros P; split; reflexivity|split; [intros q [<-|[]] K; discriminate K|split]]]]]]].
  - constructor; try assumption; try reflexivity; try (cbn; lra).
    + exact ex_proper.
    + intros ph [<-|[]]. reflexivity.
    + intros ph [<-|[]]. left. reflexivity.
    + eexists. split; [reflexivity|]. intros ph [<-|[]]. unfold equipped, has. cbn. split; discriminate.
    + intros ph p [<-|[]] [<-|[]]; eexists; reflexivity.
    + repeat split; reflexivity.
    + left; reflexivity.
  - intros k. cbn [on_floor sG sP]. change (roughness (pB (ex_params floored))) with false. unfold removed. cbn [andb]. rewrite orb_false_r. destruct (Nat.lt_ge_cases k 12) as [Hk|Hk].
    + destruct (p_C10_wall_masks R Num_R ex_gridp floored G EG) with (k := k) as (_ & Y & _); [repeat split; reflexivity|exact Hk|]. cbn [has_left has_right no_slip_bottom floored] in Y.
      destruct (nth k (bv G) false); [|reflexivity]. destruct (proj1 Y eq_refl) as [[_ Q]|[[_ Q]|[_ Q]]]; discriminate.
    + destruct OK. apply nth_overflow. rewrite go_bv. exact Hk.
  - destruct (p_C10_wall_masks R Num_R ex_gridp floored G EG) with (k := 0%nat) as (X & _ & _); [repeat split; reflexivity|cbn; lia|]. apply X. left. split; reflexivity.
  - intros [|n] Hn; [|lia]. cbn [t_run]. cbv zeta. split; [eapply (solo_heavy _ _ (1/2)); try reflexivity; [cbn; unfold lit; unR; f_equal; lra|lra]|]. repeat constructor; cbn; try (unR; lra); try reflexivity.
  - cbn. unR. ring.
Qed.
