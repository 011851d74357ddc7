(** * The motion of a free body as a whole: C148. *)
From Coq Require Import ZArith Reals List Bool Arith Lra Lia.
From RecordUpdate Require Import RecordUpdate.
From Verif Require Import State NumR Spec SpecLaws SpecStep SpecScheme SpecView LibList LibR ModelGrid ModelConstit ModelParticle ModelMPList
  ModelIntegr ModelMain ProofsGrid ProofsMap ProofsP2G ProofsWalls ProofsLaws ProofsInOut ProofsHist Concrete
  ThmMapping ThmWalls ThmLaws ThmInOut ThmHist ProofsStep ProofsPoints ThmStep ThmBalance ThmEnergy ThmFall ThmGeo ProofsScheme ProofsView ThmScheme ThmView ThmSpin ThmAngular ThmBeat ThmObserver ThmSilent ThmCells ThmMerge ThmJump.
Import ListNotations.
Local Open Scope R_scope.

(** Momentum and first moment of a set of points. *)
Definition drive (a : axis) (B : list mp) : R := Rsum (map (fun q => q_m q * comp a (q_v q)) B).
Definition moment (a : axis) (B : list mp) : R := Rsum (map (fun q => q_m q * comp a (q_x q)) B).

Section Free.
  Context (E : scheme) (B : list mp).
  Hypothesis (HP : proper (e_P E)) (HO : forall a k, e_open E a k = 1) (HT : 0 <= e_tol E) (HG : e_g E = v0).
  Hypothesis (HD : forall q, In q B -> in_dom (e_P E) (q_x q)) (HH : all_heavy E B) (HB : forall q, In q B -> q_b q = v0).
  Let B1 := map (t_strained E B) B.
  Lemma light_hat q k : In q B -> (k < e_nodes E)%nat -> ~ e_tol E < t_mass E B k -> hat (e_P E) (q_x q) k = 0 /\ forall a, ghat (e_P E) (q_x q) a k = 0.
  Proof.
    intros Hq Hk N. split.
    - destruct (Req_dec (hat (e_P E) (q_x q) k) 0) as [Z|Z]; [exact Z|]. destruct N. apply (HH q k Hq Hk). left. exact Z.
    - intros a. destruct (Req_dec (ghat (e_P E) (q_x q) a k) 0) as [Z|Z]; [exact Z|]. destruct N. apply (HH q k Hq Hk). right. exists a. exact Z.
  Qed.
  Lemma mass_vel a k : (k < e_nodes E)%nat -> t_mass E B k * t_vel E B a k = Rsum (map (fun q => q_m q * comp a (q_v q) * hat (e_P E) (q_x q) k) B).
  Proof.
    intros Hk. unfold t_vel. destruct (Rlt_dec _ _) as [L|L]; [rewrite HO; field; lra|]. rewrite Rmult_0_r. symmetry. apply Rsum_zero. intros q Hq. rewrite (proj1 (light_hat q k Hq Hk L)). ring.
  Qed.
  Lemma mass_acc a k : (k < e_nodes E)%nat -> t_mass E B k * t_acc E B B1 a k = e_damp E * t_force E B1 a k.
  Proof.
    intros Hk. unfold t_acc. destruct (Rlt_dec _ _) as [L|L]; [rewrite HO; field; lra|]. rewrite Rmult_0_r. unfold t_force, B1. rewrite map_map, Rsum_zero; [ring|].
    intros q Hq. cbn [t_strained q_m q_b q_V q_s q_x]. destruct (light_hat q k Hq Hk L) as [Z1 Z2]. unfold over. rewrite Z1, !Z2. ring.
  Qed.
  Lemma spread u : Rsum (map (fun q => q_m q * fsum (e_nodes E) (fun k => hat (e_P E) (q_x q) k * u k)) B) = fsum (e_nodes E) (fun k => t_mass E B k * u k).
  Proof.
    transitivity (Rsum (map (fun q => fsum (e_nodes E) (fun k => q_m q * hat (e_P E) (q_x q) k * u k)) B)).
    - apply Rsum_ext. intros q _. rewrite <- fsum_scal. apply fsum_ext. intros k _. ring.
    - rewrite <- fsum_Rsum_swap. apply fsum_ext. intros k _. unfold t_mass. rewrite (Rmult_comm _ (u k)), <- Rsum_scal. apply Rsum_ext. intros q _. ring.
  Qed.
  Lemma force_sum a : fsum (e_nodes E) (t_force E B1 a) = 0.
  Proof.
    unfold t_force, B1.
    rewrite (fsum_ext (e_nodes E) _ (fun k => Rsum (map (fun q => - q_V q * over (fun b => el a b (t_stress E q (t_strain E B q)) * ghat (e_P E) (q_x q) b k)) B))).
    - rewrite fsum_Rsum_swap. apply Rsum_zero. intros q Hq. rewrite fsum_scal. unfold over. rewrite !fsum_plus, !fsum_scal.
      assert (G : forall b, fsum (e_nodes E) (fun k => ghat (e_P E) (q_x q) b k) = 0) by (intros b; exact (ghat_sum (e_P E) (q_x q) b HP (HD q Hq))).
      rewrite !G. ring.
    - intros k _. rewrite map_map. apply Rsum_ext. intros q Hq. cbn [t_strained q_m q_b q_V q_s q_x]. rewrite HG, (HB q Hq). destruct (q_first q), a; cbn [comp vx vy vz v0]; unR; ring.
  Qed.
  Lemma acc_sum a : fsum (e_nodes E) (fun k => t_mass E B k * t_acc E B B1 a k) = 0.
  Proof. rewrite (fsum_ext _ _ (fun k => e_damp E * t_force E B1 a k)) by (intros k Hk; apply mass_acc, Hk). rewrite fsum_scal, force_sum. ring. Qed.
  Lemma vel_sum a : fsum (e_nodes E) (fun k => t_mass E B k * t_vel E B a k) = drive a B.
  Proof.
    rewrite (fsum_ext _ _ (fun k => Rsum (map (fun q => q_m q * comp a (q_v q) * hat (e_P E) (q_x q) k) B))) by (intros k Hk; apply mass_vel, Hk).
    rewrite fsum_Rsum_swap. apply Rsum_ext. intros q Hq. rewrite fsum_scal. destruct (hat_sums (e_P E) (q_x q) HP (HD q Hq)) as (U & _). change (fun k => hat (e_P E) (q_x q) k) with (hat (e_P E) (q_x q)) in *. unfold e_nodes. unfold nodes in U. rewrite U. ring.
  Qed.
  Lemma free_drive a : drive a (t_step E B) = drive a B.
  Proof.
    unfold drive at 1, t_step. fold B1. unfold B1 at 2. rewrite !map_map.
    transitivity (Rsum (map (fun q => q_m q * comp a (q_v q) + e_dt E * (q_m q * fsum (e_nodes E) (fun k => hat (e_P E) (q_x q) k * t_acc E B B1 a k))) B)).
    - apply Rsum_ext. intros q _. unfold t_moved. cbn [t_strained q_m q_v q_x]. destruct a; cbn [v3 comp vx vy vz]; ring.
    - rewrite Rsum_plus, Rsum_scal, spread, acc_sum. unfold drive. ring.
  Qed.
  Lemma free_moment a : moment a (t_step E B) = moment a B + e_dt E * drive a B.
  Proof.
    unfold moment at 1, t_step. fold B1. unfold B1 at 2. rewrite !map_map.
    transitivity (Rsum (map (fun q => q_m q * comp a (q_x q) + e_dt E * (q_m q * fsum (e_nodes E) (fun k => hat (e_P E) (q_x q) k * (t_vel E B a k + e_dt E * t_acc E B B1 a k)))) B)).
    - apply Rsum_ext. intros q _. unfold t_moved. cbn [t_strained q_m q_v q_x]. destruct a; cbn [v3 comp vx vy vz]; ring.
    - rewrite Rsum_plus, Rsum_scal, (spread (fun k => t_vel E B a k + e_dt E * t_acc E B B1 a k)).
      rewrite (fsum_ext _ _ (fun k => t_mass E B k * t_vel E B a k + e_dt E * (t_mass E B k * t_acc E B B1 a k))) by (intros; ring). rewrite fsum_plus, fsum_scal, acc_sum, vel_sum. unfold moment. ring.
  Qed.
  Lemma free_weight q : In q (t_step E B) -> q_b q = v0.
  Proof.
    unfold t_step. intros Hq. apply in_map_iff in Hq. destruct Hq as (q1 & <- & Hq). apply in_map_iff in Hq. destruct Hq as (q0 & <- & Hq). cbn [t_moved t_strained q_b]. rewrite HG, (HB q0 Hq). destruct (q_first q0); reflexivity.
  Qed.
End Free.

(** ** C148 *)
(** A body without walls and loads, of which all points touch heavy nodes only: for any
    number of steps it keeps its momentum, and its centre of mass moves on a straight line
    with the velocity that belongs to this momentum. *)
Lemma p_C148_free : forall uf fill n (s : state R) tr, plain s -> wall_free (bv (sG s)) (bh (sG s)) -> 0 <= p_Mtol (sP s) -> (forall P, no_surface (sP s) (uf P)) -> (forall P, ld_g (uf P) = 0) ->
  Forall (fun q => q_b q = v0) (bodies (sL s)) ->
  (forall k, (k < n)%nat -> let B := t_run uf k (sP s) (sG s) (bodies (sL s)) in all_heavy (scheme_at uf k (sP s) (sG s)) B /\
    Forall (fun q => in_dom (pG (sP s)) (q_x q) /\ (p_check (sP s) = true -> vz (q_x q) = 0)) B) ->
  exists s' tr', after uf fill n s tr = Ok (s', tr') /\ forall a, drive a (bodies (sL s')) = drive a (bodies (sL s)) /\
  moment a (bodies (sL s')) = moment a (bodies (sL s)) + INR n * p_dt (sP s) * drive a (bodies (sL s)).
Proof.
  intros uf fill n s tr Hs HW HT HN HU HB HD.
  destruct (p_C84_run uf fill n s tr Hs HN) as (s' & sr & E1 & _ & B1); [intros k Hk; exact (proj2 (HD k Hk))|].
  exists s', sr. split; [exact E1|]. rewrite B1. clear E1 B1.
  enough (X : Forall (fun q => q_b q = v0) (t_run uf n (sP s) (sG s) (bodies (sL s))) /\ forall a, drive a (t_run uf n (sP s) (sG s) (bodies (sL s))) = drive a (bodies (sL s)) /\
    moment a (t_run uf n (sP s) (sG s) (bodies (sL s))) = moment a (bodies (sL s)) + INR n * p_dt (sP s) * drive a (bodies (sL s))) by (exact (proj2 X)).
  induction n as [|n IH]; [cbn [t_run INR]; split; [exact HB|]; intros a; split; [reflexivity|ring]|]. destruct IH as [W IH]; [intros k Hk; apply HD; lia|].
  rewrite t_run_S. destruct (clock_grid uf n (sP s)) as (E1 & E2 & E3 & E4 & E5 & E6). destruct (HD n (Nat.lt_succ_diag_r n)) as [HH F]. rewrite Forall_forall in F, W.
  set (E := scheme_at uf n (sP s) (sG s)) in *. set (B := t_run uf n (sP s) (sG s) (bodies (sL s))) in *.
  assert (EP : e_P E = pG (sP s)) by exact E1. assert (ED : e_dt E = p_dt (sP s)) by exact E3.
  assert (HO : forall a k, e_open E a k = 1) by (intros; apply free_open, HW).
  assert (HT' : 0 <= e_tol E) by (unfold E, scheme_at, scheme_of; cbn [e_tol]; congruence).
  assert (HG : e_g E = v0) by (unfold E, scheme_at, scheme_of; cbn [e_g]; rewrite HU, !Rmult_0_l; reflexivity).
  assert (HP' : proper (e_P E)) by (rewrite EP; exact (pl_proper s Hs)).
  assert (HD' : forall q, In q B -> in_dom (e_P E) (q_x q)) by (intros q Hq; rewrite EP; exact (proj1 (F q Hq))).
  split; [apply Forall_forall; intros q Hq; exact (free_weight E B HG W q Hq)|]. intros a. destruct (IH a) as [I1 I2].
  rewrite (free_drive E B HP' HO HT' HG HD' HH W a), (free_moment E B HP' HO HT' HG HD' HH W a), I1, I2, ED, S_INR. split; [reflexivity|ring].
Qed.
(** A stressed point at rest, alone, next to a node that gets no mass: it sets itself in
    motion. *)
Lemma p_C148_self_refuted : forall fill t, t <> 0 -> exists (s s' : state R) tr, plain s /\ wall_free (bv (sG s)) (bh (sG s)) /\ Forall (fun q => in_dom (pG (sP s)) (q_x q) /\ q_v q = v0 /\ q_b q = v0) (bodies (sL s)) /\
  after calm fill 1 s [] = Ok (s', tr) /\ drive AX (bodies (sL s)) = 0 /\ drive AX (bodies (sL s')) = 1/10 * t.
Proof.
  intros fill t Ht. destruct (grid_init_ok ex_gridp ex_bounds ex_proper) as (G & EG & OK). pose proof (no_walls G EG OK) as HW.
  destruct (p_C84_run calm fill 1 (pair_state G (perched 0 t)) [] (perched_plain G 0 t OK)) as (s' & tr & E & _ & EB); [intros P; split; discriminate|intros [|j] Hj; [exact (perched_inside 0 t ltac:(lra))|lia]|].
  assert (V : map q_v (bodies (sL s')) = [mkV3 (1/10 * t / 2) 0 0]).
  { rewrite EB. cbn [t_run]. etransitivity; [apply (perched_step G 0 t (-1) ltac:(lra) HW)|].
    + intros k Hk. rewrite (Rminus_0_r 1), (hat_on k Hk). do 12 (destruct k as [|k]; [cbn; lra|]). lia.
    + intros k Hk. rewrite (Rminus_0_r 1). destruct Hk as [-> | ->]; rewrite gx_on by lia; cbn; lra.
    + f_equal; f_equal; lra. }
  assert (M : map q_m (bodies (sL s')) = [2]) by (rewrite EB; reflexivity).
  exists (pair_state G (perched 0 t)), s', tr. split; [apply perched_plain, OK|]. split; [exact HW|]. split.
  - apply Forall_forall. intros q [<-|[]]. split; [unfold in_dom; cbn; unR; lra|]. split; reflexivity.
  - split; [exact E|]. split; [cbn; unR; ring|]. destruct (bodies (sL s')) as [|q [|q' l]]; try discriminate V. cbn in V, M. injection V as V. injection M as M. unfold drive. cbn. rewrite V, M. cbn. field.
Qed.
(** Two elastic points of one cell, of which the first catches up with the second. *)
Example x_C148_free : exists s : state R, plain s /\ wall_free (bv (sG s)) (bh (sG s)) /\ 0 <= p_Mtol (sP s) /\ (forall P, no_surface (sP s) (calm P)) /\ (forall P, ld_g (calm P) = 0) /\
  Forall (fun q => q_b q = v0) (bodies (sL s)) /\
  (forall k, (k < 1)%nat -> let B := t_run calm k (sP s) (sG s) (bodies (sL s)) in all_heavy (scheme_at calm k (sP s) (sG s)) B /\
    Forall (fun q => in_dom (pG (sP s)) (q_x q) /\ (p_check (sP s) = true -> vz (q_x q) = 0)) B) /\ drive AX (bodies (sL s)) = 8.
Proof.
  destruct (grid_init_ok ex_gridp ex_bounds ex_proper) as (G & EG & OK). pose proof (no_walls G EG OK) as HW.
  exists (pair_state G (duet 3 1)). split.
  { constructor; try assumption; try reflexivity; try (cbn; lra).
    - exact ex_proper.
    - intros ph [<-|[]]. reflexivity.
    - intros ph [<-|[]]. left. reflexivity.
    - eexists. split; [reflexivity|]. intros ph [<-|[]]. unfold equipped, has. cbn. split; discriminate.
    - intros ph p [<-|[]] [<-|[<-|[]]]; eexists; reflexivity.
    - repeat split; reflexivity.
    - left; reflexivity. }
  split; [exact HW|]. split; [cbn; unfold lit; unR; lra|]. split; [intros P; split; discriminate|]. split; [reflexivity|]. split; [repeat constructor|]. split; [|cbn; unR; lra].
  intros [|n] Hn; [|lia]. cbn [t_run]. cbv zeta. split; [|repeat constructor; cbn; try (unR; lra); try reflexivity].
  intros q k Hq Hk HN. set (E := scheme_at _ _ _ _) in *. change (e_nodes E) with 12%nat in Hk. change (e_P E) with (ex_gridp (T := R)) in HN. change (e_tol E) with (1/1000).
  assert (M : t_mass E (bodies (sL (pair_state G (duet 3 1)))) k = nth k [1; 1; 0; 0; 1; 1; 0; 0; 0; 0; 0; 0] 0).
  { unfold t_mass. cbn - [nth hat]. rewrite (hatL k Hk), (hat2 k Hk). do 12 (destruct k as [|k]; [cbn; unR; lra|]). lia. }
  rewrite M. destruct Hq as [<-|[<-|[]]]; cbn [mp_of q_x px ex_particle] in HN.
  - change (mkV3 (1/4) (1/2) n0) with (mkV3 (1/4) (1/2) 0) in HN. destruct HN as [HN|[[] HN]]; [rewrite (hatL k Hk) in HN|rewrite (gxL k Hk) in HN|rewrite (gyL k Hk) in HN|destruct HN; reflexivity];
      clear M; do 12 (destruct k as [|k]; [cbn in *; lra|]); lia.
  - change (mkV3 (3/4) (1/2) n0) with (mkV3 (3/4) (1/2) 0) in HN. destruct HN as [HN|[[] HN]]; [rewrite (hat2 k Hk) in HN|rewrite (gxR k Hk) in HN|rewrite (gyR k Hk) in HN|destruct HN; reflexivity];
      clear M; do 12 (destruct k as [|k]; [cbn in *; lra|]); lia.
Qed.
