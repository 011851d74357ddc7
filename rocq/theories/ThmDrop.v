(** * The centre of mass of a falling body: C149. *)
From Coq Require Import ZArith Reals List Bool Arith Lra Lia.
From RecordUpdate Require Import RecordUpdate.
From Verif Require Import State NumR Spec SpecLaws SpecStep SpecScheme SpecView LibList LibR ModelGrid ModelConstit ModelParticle ModelMPList
  ModelIntegr ModelMain ProofsGrid ProofsMap ProofsP2G ProofsWalls ProofsLaws ProofsInOut ProofsHist Concrete
  ThmMapping ThmWalls ThmLaws ThmInOut ThmHist ProofsStep ProofsPoints ThmStep ThmBalance ThmEnergy ThmFall ThmGeo ProofsScheme ProofsView ThmScheme ThmView ThmSpin ThmAngular ThmBeat ThmObserver ThmSilent ThmCells ThmMerge ThmJump ThmNewton.
Import ListNotations.
Local Open Scope R_scope.

(** What gravity pulls at: the points of the first material. *)
Definition pull (a : axis) (g : V3 R) (B : list mp) : R := Rsum (map (fun q => if q_first q then q_m q * comp a g else 0) B).
Definition unloaded (B : list mp) : Prop := forall q, In q B -> q_first q = false -> q_b q = v0.

Section Fall.
  Context (E : scheme) (B : list mp).
  Hypothesis (HP : proper (e_P E)) (HO : forall a k, e_open E a k = 1) (HT : 0 <= e_tol E).
  Hypothesis (HD : forall q, In q B -> in_dom (e_P E) (q_x q)) (HH : all_heavy E B) (HB : unloaded B).
  Let B1 := map (t_strained E B) B.
  Lemma fall_force a : fsum (e_nodes E) (t_force E B1 a) = pull a (e_g E) B.
  Proof.
    unfold t_force, B1.
    rewrite (fsum_ext (e_nodes E) _ (fun k => Rsum (map (fun q => (if q_first q then q_m q * comp a (e_g E) else 0) * hat (e_P E) (q_x q) k + - q_V q * over (fun b => el a b (t_stress E q (t_strain E B q)) * ghat (e_P E) (q_x q) b k)) B))).
    - rewrite fsum_Rsum_swap. apply Rsum_ext. intros q Hq. rewrite fsum_plus, !fsum_scal. unfold over. rewrite !fsum_plus, !fsum_scal.
      assert (G : forall b, fsum (e_nodes E) (fun k => ghat (e_P E) (q_x q) b k) = 0) by (intros b; exact (ghat_sum (e_P E) (q_x q) b HP (HD q Hq))).
      assert (U : fsum (e_nodes E) (fun k => hat (e_P E) (q_x q) k) = 1) by exact (proj1 (hat_sums (e_P E) (q_x q) HP (HD q Hq))).
      rewrite !G. change (fun k => hat (e_P E) (q_x q) k) with (hat (e_P E) (q_x q)) in *. rewrite U. ring.
    - intros k _. rewrite map_map. apply Rsum_ext. intros q Hq. cbn [t_strained q_m q_b q_V q_s q_x]. destruct (q_first q) eqn:F; [ring|]. rewrite (HB q Hq F). destruct a; cbn [comp vx vy vz v0]; unR; ring.
  Qed.
  Lemma fall_acc a : fsum (e_nodes E) (fun k => t_mass E B k * t_acc E B B1 a k) = e_damp E * pull a (e_g E) B.
  Proof. rewrite (fsum_ext _ _ (fun k => e_damp E * t_force E B1 a k)) by (intros k Hk; apply (mass_acc E B HO HT HH a k Hk)). rewrite fsum_scal, fall_force. reflexivity. Qed.
  Lemma fall_drive a : drive a (t_step E B) = drive a B + e_dt E * (e_damp E * pull a (e_g E) B).
  Proof.
    unfold drive at 1, t_step. fold B1. unfold B1 at 2. rewrite !map_map.
    transitivity (Rsum (map (fun q => q_m q * comp a (q_v q) + e_dt E * (q_m q * fsum (e_nodes E) (fun k => hat (e_P E) (q_x q) k * t_acc E B B1 a k))) B)).
    - apply Rsum_ext. intros q _. unfold t_moved. cbn [t_strained q_m q_v q_x]. destruct a; cbn [v3 comp vx vy vz]; ring.
    - rewrite Rsum_plus, Rsum_scal, (spread E B), fall_acc. unfold drive. ring.
  Qed.
  Lemma fall_moment a : moment a (t_step E B) = moment a B + e_dt E * (drive a B + e_dt E * (e_damp E * pull a (e_g E) B)).
  Proof.
    unfold moment at 1, t_step. fold B1. unfold B1 at 2. rewrite !map_map.
    transitivity (Rsum (map (fun q => q_m q * comp a (q_x q) + e_dt E * (q_m q * fsum (e_nodes E) (fun k => hat (e_P E) (q_x q) k * (t_vel E B a k + e_dt E * t_acc E B B1 a k)))) B)).
    - apply Rsum_ext. intros q _. unfold t_moved. cbn [t_strained q_m q_v q_x]. destruct a; cbn [v3 comp vx vy vz]; ring.
    - rewrite Rsum_plus, Rsum_scal, (spread E B (fun k => t_vel E B a k + e_dt E * t_acc E B B1 a k)).
      rewrite (fsum_ext _ _ (fun k => t_mass E B k * t_vel E B a k + e_dt E * (t_mass E B k * t_acc E B B1 a k))) by (intros; ring). rewrite fsum_plus, fsum_scal, fall_acc, (vel_sum E B HP HO HT HD HH). unfold moment. ring.
  Qed.
  Lemma fall_pull a g : pull a g (t_step E B) = pull a g B.
  Proof. unfold pull, t_step. rewrite !map_map. reflexivity. Qed.
  Lemma fall_unloaded : unloaded (t_step E B).
  Proof.
    unfold t_step. intros q Hq. apply in_map_iff in Hq. destruct Hq as (q1 & <- & Hq). apply in_map_iff in Hq. destruct Hq as (q0 & <- & Hq). cbn [t_moved t_strained q_b q_first]. intros F. rewrite F. exact (HB q0 Hq F).
  Qed.
End Fall.

(** ** C149 *)
(** Any body without walls under constant gravity, of which all points touch heavy nodes
    only: after [n] steps its momentum has grown by [n dt] times the weight of the points of
    the first material, and its centre of mass has followed; with [damping] only 0.7 of the
    weight counts. *)
Lemma p_C149_falls : forall uf fill g th n (s : state R) tr, plain s -> wall_free (bv (sG s)) (bh (sG s)) -> 0 <= p_Mtol (sP s) -> (forall P, no_surface (sP s) (uf P)) ->
  (forall P, ld_g (uf P) = g /\ ld_theta (uf P) = th) -> unloaded (bodies (sL s)) ->
  (forall k, (k < n)%nat -> let B := t_run uf k (sP s) (sG s) (bodies (sL s)) in all_heavy (scheme_at uf k (sP s) (sG s)) B /\
    Forall (fun q => in_dom (pG (sP s)) (q_x q) /\ (p_check (sP s) = true -> vz (q_x q) = 0)) B) ->
  exists s' tr', after uf fill n s tr = Ok (s', tr') /\ forall a,
  let W := (if p_damping (sP s) then 7/10 else 1) * pull a (mkV3 (g * sin th) (g * cos th) 0) (bodies (sL s)) in let h := p_dt (sP s) in
  drive a (bodies (sL s')) = drive a (bodies (sL s)) + INR n * h * W /\
  moment a (bodies (sL s')) = moment a (bodies (sL s)) + INR n * h * drive a (bodies (sL s)) + INR n * (INR n + 1) / 2 * (h * h) * W.
Proof.
  intros uf fill g th n s tr Hs HW HT HN HU HB HD.
  destruct (p_C84_run uf fill n s tr Hs HN) as (s' & sr & E1 & _ & B1); [intros k Hk; exact (proj2 (HD k Hk))|].
  exists s', sr. split; [exact E1|]. rewrite B1. clear E1 B1. set (B0 := bodies (sL s)) in *. set (V := mkV3 (g * sin th) (g * cos th) 0).
  enough (X : unloaded (t_run uf n (sP s) (sG s) B0) /\ forall a, pull a V (t_run uf n (sP s) (sG s) B0) = pull a V B0 /\
    let W := (if p_damping (sP s) then 7/10 else 1) * pull a V B0 in let h := p_dt (sP s) in
    drive a (t_run uf n (sP s) (sG s) B0) = drive a B0 + INR n * h * W /\ moment a (t_run uf n (sP s) (sG s) B0) = moment a B0 + INR n * h * drive a B0 + INR n * (INR n + 1) / 2 * (h * h) * W) by (intros a; exact (proj2 (proj2 X a))).
  induction n as [|n IH]; [cbn [t_run INR]; split; [exact HB|]; intros a; split; [reflexivity|]; split; [ring|field]|]. destruct IH as [W IH]; [intros k Hk; apply HD; lia|].
  rewrite t_run_S. destruct (clock_grid uf n (sP s)) as (E1 & E2 & E3 & E4 & E5 & E6). destruct (HD n (Nat.lt_succ_diag_r n)) as [HH F]. rewrite Forall_forall in F.
  set (E := scheme_at uf n (sP s) (sG s)) in *. set (B := t_run uf n (sP s) (sG s) B0) in *.
  assert (EP : e_P E = pG (sP s)) by exact E1. assert (ED : e_dt E = p_dt (sP s)) by exact E3.
  assert (HO : forall a k, e_open E a k = 1) by (intros; apply free_open, HW).
  assert (HT' : 0 <= e_tol E) by (unfold E, scheme_at, scheme_of; cbn [e_tol]; congruence).
  assert (EQ : e_damp E = if p_damping (sP s) then 7/10 else 1) by (unfold E, scheme_at, scheme_of; cbn [e_damp]; rewrite E5; reflexivity).
  assert (HG : e_g E = V) by (unfold E, scheme_at, scheme_of; cbn [e_g]; destruct (HU (clock uf n (sP s))) as [-> ->]; reflexivity).
  assert (HP' : proper (e_P E)) by (rewrite EP; exact (pl_proper s Hs)).
  assert (HD' : forall q, In q B -> in_dom (e_P E) (q_x q)) by (intros q Hq; rewrite EP; exact (proj1 (F q Hq))).
  split; [exact (fall_unloaded E B W)|]. intros a. destruct (IH a) as (I0 & I1 & I2).
  split; [rewrite (fall_pull E B); exact I0|]. cbv zeta. rewrite (fall_drive E B HP' HO HT' HD' HH W a), (fall_moment E B HP' HO HT' HD' HH W a), HG, I0, I1, I2, ED, EQ, S_INR. split; field.
Qed.
(** A damped state, and constant gravity along y. *)
Definition damped_state (G : grid R) L : state R := mkState (ex_params ex_bounds <| p_damping := true |>) G L.
Definition down (g : R) (P : params R) : loads R := mkLoads g 0 0 0.
Lemma damped_duet G v w : grid_ok ex_gridp G -> plain (damped_state G (duet v w)).
Proof.
  intros OK. constructor; try assumption; try reflexivity; try (cbn; lra).
  - exact ex_proper.
  - intros ph [<-|[]]. reflexivity.
  - intros ph [<-|[]]. left. reflexivity.
  - eexists. split; [reflexivity|]. intros ph [<-|[]]. unfold equipped, has. cbn. split; discriminate.
  - intros ph p [<-|[]] [<-|[<-|[]]]; eexists; reflexivity.
  - repeat split; reflexivity.
  - left; reflexivity.
Qed.
Lemma duet_heavy E v w : e_P E = ex_gridp -> e_tol E = 1/1000 -> all_heavy E (bodies (duet v w)).
Proof.
  intros EP ET q k Hq Hk HN. unfold e_nodes in Hk. rewrite EP in Hk, HN. change (nx (ex_gridp (T := R)) * ny (ex_gridp (T := R)))%nat with 12%nat in Hk. rewrite ET.
  assert (M : t_mass E (bodies (duet v w)) k = nth k [1; 1; 0; 0; 1; 1; 0; 0; 0; 0; 0; 0] 0).
  { unfold t_mass. rewrite EP. cbn - [nth hat]. rewrite (hatL k Hk), (hat2 k Hk). do 12 (destruct k as [|k]; [cbn; unR; lra|]). lia. }
  rewrite M. clear M EP ET. destruct Hq as [<-|[<-|[]]]; cbn [mp_of q_x px ex_particle] in HN.
  - change (mkV3 (1/4) (1/2) n0) with (mkV3 (1/4) (1/2) 0) in HN. destruct HN as [HN|[[] HN]]; [rewrite (hatL k Hk) in HN|rewrite (gxL k Hk) in HN|rewrite (gyL k Hk) in HN|destruct HN; reflexivity];
      do 12 (destruct k as [|k]; [cbn in *; lra|]); lia.
  - change (mkV3 (3/4) (1/2) n0) with (mkV3 (3/4) (1/2) 0) in HN. destruct HN as [HN|[[] HN]]; [rewrite (hat2 k Hk) in HN|rewrite (gxR k Hk) in HN|rewrite (gyR k Hk) in HN|destruct HN; reflexivity];
      do 12 (destruct k as [|k]; [cbn in *; lra|]); lia.
Qed.
(** Two points of mass two each that collide while they fall. *)
Example x_C149_falls : forall g, exists s : state R, plain s /\ p_damping (sP s) = true /\ wall_free (bv (sG s)) (bh (sG s)) /\ 0 <= p_Mtol (sP s) /\ (forall P, no_surface (sP s) (down g P)) /\
  (forall P, ld_g (down g P) = g /\ ld_theta (down g P) = 0) /\ unloaded (bodies (sL s)) /\
  (forall k, (k < 1)%nat -> let B := t_run (down g) k (sP s) (sG s) (bodies (sL s)) in all_heavy (scheme_at (down g) k (sP s) (sG s)) B /\
    Forall (fun q => in_dom (pG (sP s)) (q_x q) /\ (p_check (sP s) = true -> vz (q_x q) = 0)) B) /\
  pull AY (mkV3 (g * sin 0) (g * cos 0) 0) (bodies (sL s)) = 4 * g /\ p_dt (sP s) = 1/10 /\ drive AY (bodies (sL s)) = 0.
Proof.
  intros g. destruct (grid_init_ok ex_gridp ex_bounds ex_proper) as (G & EG & OK). pose proof (no_walls G EG OK) as HW.
  exists (damped_state G (duet 3 1)). split; [apply damped_duet, OK|]. split; [reflexivity|]. split; [exact HW|]. split; [cbn; unfold lit; unR; lra|]. split; [intros P; split; discriminate|]. split; [intros P; split; reflexivity|].
  split; [intros q [<-|[<-|[]]] K; discriminate K|]. split; [|split; [cbn; unR; rewrite cos_0; lra|split; [reflexivity|cbn; unR; lra]]].
  intros [|n] Hn; [|lia]. cbn [t_run]. cbv zeta. split; [apply duet_heavy; reflexivity|]. repeat constructor; cbn; try (unR; lra); try reflexivity.
Qed.
(** With [damping] a body falls with 0.7 of the gravity that the script sets. *)
Lemma p_C149_damped_refuted : forall fill g, g <> 0 -> exists (s s' : state R) tr, plain s /\ p_damping (sP s) = true /\ wall_free (bv (sG s)) (bh (sG s)) /\ Forall (fun q => q_first q = true /\ in_dom (pG (sP s)) (q_x q)) (bodies (sL s)) /\
  after (down g) fill 1 s [] = Ok (s', tr) /\ let M := Rsum (map q_m (bodies (sL s))) in 0 < M /\
  drive AY (bodies (sL s')) = drive AY (bodies (sL s)) + p_dt (sP s) * (7/10 * (M * g)) /\ drive AY (bodies (sL s')) <> drive AY (bodies (sL s)) + p_dt (sP s) * (M * g).
Proof.
  intros fill g Hg. destruct (grid_init_ok ex_gridp ex_bounds ex_proper) as (G & EG & OK). pose proof (no_walls G EG OK) as HW. pose proof (damped_duet G 3 1 OK) as PL.
  destruct (p_C149_falls (down g) fill g 0 1 (damped_state G (duet 3 1)) [] PL HW) as (s' & tr & E & A).
  - cbn; unfold lit; unR; lra.
  - intros P; split; discriminate.
  - intros P; split; reflexivity.
  - intros q [<-|[<-|[]]] K; discriminate K.
  - intros [|n] Hn; [|lia]. cbn [t_run]. cbv zeta. split; [apply duet_heavy; reflexivity|]. repeat constructor; cbn; try (unR; lra); try reflexivity.
  - destruct (A AY) as [D _]. exists (damped_state G (duet 3 1)), s', tr. split; [exact PL|]. split; [reflexivity|]. split; [exact HW|].
    split; [apply Forall_forall; intros q [<-|[<-|[]]]; (split; [reflexivity|]); unfold in_dom; cbn; unR; lra|]. split; [exact E|]. cbv zeta.
    replace (Rsum (map q_m (bodies (sL (damped_state G (duet 3 1)))))) with 4 by (cbn; unR; lra).
    cbv zeta in D. replace (pull AY (mkV3 (g * sin 0) (g * cos 0) 0) (bodies (sL (damped_state G (duet 3 1))))) with (4 * g) in D by (cbn; unR; rewrite cos_0; lra).
    change (p_damping (sP (damped_state G (duet 3 1)))) with true in D. change (p_dt (sP (damped_state G (duet 3 1)))) with (1/10) in *. cbn [INR] in D. split; [lra|]. split; [rewrite D; lra|]. rewrite D. intros K. apply Hg. lra.
Qed.
