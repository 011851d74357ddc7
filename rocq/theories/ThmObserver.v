(** * Moving observers: C143. *)
From Coq Require Import ZArith Reals List Bool Arith Lra Lia.
From RecordUpdate Require Import RecordUpdate.
From Verif Require Import State NumR Spec SpecLaws SpecStep SpecScheme LibList LibR ModelGrid ModelConstit ModelParticle ModelMPList
  ModelIntegr ModelMain ProofsGrid ProofsMap ProofsP2G ProofsWalls ProofsLaws ProofsInOut ProofsHist Concrete
  ThmMapping ThmWalls ThmLaws ThmInOut ThmHist ProofsStep ProofsPoints ThmStep ThmBalance ThmEnergy ThmFall ThmGeo ProofsScheme ThmScheme ThmSpin ThmAngular ThmBeat.
Import ListNotations.
Local Open Scope R_scope.

(** What an observer who moves with velocity [- V] sees, a time [t] after passing the origin. *)
Definition add3 (u : V3 R) (c : R) (w : V3 R) : V3 R := v3 (fun a => comp a u + c * comp a w).
Definition seen_from (V : V3 R) (t : R) (q : mp) : mp :=
  mkMp (q_mat q) (q_m q) (q_V q) (add3 (q_x q) t V) (add3 (q_v q) 1 V) (q_s q) (q_p q) (q_b q) (q_first q).
(** Every node that a point of the body touches is heavy enough to carry a velocity. *)
Definition all_heavy (E : scheme) (B : list mp) : Prop := forall q k, In q B -> (k < e_nodes E)%nat ->
  hat (e_P E) (q_x q) k <> 0 \/ (exists a, ghat (e_P E) (q_x q) a k <> 0) -> e_tol E < t_mass E B k.
Lemma add0 u V : add3 u 0 V = u.
Proof. destruct u. unfold add3, v3. cbn. f_equal; ring. Qed.
Section Boost.
  Context (E : scheme) (V : V3 R) (B : list mp).
  Hypothesis (HP : proper (e_P E)) (HO : forall a k, e_open E a k = 1) (HT : 0 <= e_tol E).
  Hypothesis (HD : forall q, In q B -> in_dom (e_P E) (q_x q)) (HH : all_heavy E B).
  Let B' := map (seen_from V 0) B.
  Lemma boost_mass k : t_mass E B' k = t_mass E B k.
  Proof. unfold t_mass, B'. rewrite map_map. apply Rsum_ext. intros q _. cbn [seen_from q_m q_x]. rewrite add0. reflexivity. Qed.
  Lemma boost_vel a k : t_vel E B' a k = if Rlt_dec (e_tol E) (t_mass E B k) then t_vel E B a k + comp a V else 0.
  Proof.
    unfold t_vel. rewrite boost_mass. destruct (Rlt_dec _ _) as [L|L]; [|reflexivity]. rewrite HO.
    replace (Rsum (map (fun q => q_m q * comp a (q_v q) * hat (e_P E) (q_x q) k) B')) with (Rsum (map (fun q => q_m q * comp a (q_v q) * hat (e_P E) (q_x q) k) B) + comp a V * t_mass E B k); [field; lra|].
    unfold t_mass, B'. rewrite map_map, <- Rsum_scal, <- Rsum_plus. apply Rsum_ext. intros q _. cbn [seen_from q_m q_x q_v]. rewrite add0. unfold add3, v3. destruct a; cbn; ring.
  Qed.
  Lemma boost_strain q : In q B -> t_strain E B' (seen_from V 0 q) = t_strain E B q.
  Proof.
    intros Hq. unfold t_strain. cbn [seen_from q_x]. rewrite add0.
    assert (X : forall a b, fsum (e_nodes E) (fun k => (t_vel E B' a k * ghat (e_P E) (q_x q) b k + t_vel E B' b k * ghat (e_P E) (q_x q) a k) / 2) =
      fsum (e_nodes E) (fun k => (t_vel E B a k * ghat (e_P E) (q_x q) b k + t_vel E B b k * ghat (e_P E) (q_x q) a k) / 2)).
    { intros a b. transitivity (fsum (e_nodes E) (fun k => (t_vel E B a k * ghat (e_P E) (q_x q) b k + t_vel E B b k * ghat (e_P E) (q_x q) a k) / 2 + (comp a V / 2 * ghat (e_P E) (q_x q) b k + comp b V / 2 * ghat (e_P E) (q_x q) a k))).
      - apply fsum_ext. intros k Hk. rewrite !boost_vel. destruct (Rlt_dec _ _) as [L|L]; [field|].
        assert (Z : forall c, ghat (e_P E) (q_x q) c k = 0).
        { intros c. destruct (Req_dec (ghat (e_P E) (q_x q) c k) 0) as [|N]; [assumption|]. exfalso. apply L, (HH q k Hq Hk). right. exists c. exact N. }
        rewrite !Z. field.
      - rewrite !fsum_plus, !fsum_scal. pose proof (ghat_sum (e_P E) (q_x q) a HP (HD q Hq)) as Ga. pose proof (ghat_sum (e_P E) (q_x q) b HP (HD q Hq)) as Gb.
        change (fsum (e_nodes E) (ghat (e_P E) (q_x q) a) = 0) in Ga. change (fsum (e_nodes E) (ghat (e_P E) (q_x q) b) = 0) in Gb. change (fun i => ghat (e_P E) (q_x q) a i) with (ghat (e_P E) (q_x q) a). change (fun i => ghat (e_P E) (q_x q) b i) with (ghat (e_P E) (q_x q) b). rewrite Ga, Gb. ring. }
    unfold m3. rewrite !X. reflexivity.
  Qed.
  Lemma boost_strained : map (t_strained E B') B' = map (seen_from V 0) (map (t_strained E B) B).
  Proof.
    unfold B' at 2. rewrite !map_map. apply map_ext_in. intros q Hq. unfold t_strained at 1. rewrite (boost_strain q Hq). reflexivity.
  Qed.
  Lemma boost_force C a k : t_force E (map (seen_from V 0) C) a k = t_force E C a k.
  Proof. unfold t_force. rewrite map_map. apply Rsum_ext. intros q _. cbn [seen_from q_m q_x q_b q_V q_s]. rewrite add0. reflexivity. Qed.
  Lemma boost_acc C a k : t_acc E B' (map (seen_from V 0) C) a k = t_acc E B C a k.
  Proof. unfold t_acc. rewrite boost_mass, boost_force. reflexivity. Qed.
  Lemma boost_step : t_step E B' = map (seen_from V (e_dt E)) (t_step E B).
  Proof.
    unfold t_step. rewrite boost_strained. set (C := map (t_strained E B) B).
    rewrite !map_map. apply map_ext_in. intros q Hq. unfold C in Hq. apply in_map_iff in Hq. destruct Hq as (q0 & <- & Hq).
    unfold t_moved, seen_from. cbn [q_mat q_m q_V q_x q_v q_s q_p q_b q_first t_strained]. rewrite add0.
    assert (U : fsum (e_nodes E) (hat (e_P E) (q_x q0)) = 1) by (destruct (hat_sums (e_P E) (q_x q0) HP (HD q0 Hq)) as (U & _); exact U).
    assert (X : forall a, fsum (e_nodes E) (fun k => hat (e_P E) (q_x q0) k * (t_vel E B' a k + e_dt E * t_acc E B' (map (seen_from V 0) C) a k)) =
      fsum (e_nodes E) (fun k => hat (e_P E) (q_x q0) k * (t_vel E B a k + e_dt E * t_acc E B C a k)) + comp a V).
    { intros a. transitivity (fsum (e_nodes E) (fun k => hat (e_P E) (q_x q0) k * (t_vel E B a k + e_dt E * t_acc E B C a k) + comp a V * hat (e_P E) (q_x q0) k)).
      - apply fsum_ext. intros k Hk. rewrite boost_vel, boost_acc. destruct (Rlt_dec _ _) as [L|L]; [ring|].
        destruct (Req_dec (hat (e_P E) (q_x q0) k) 0) as [Z|N]; [rewrite Z; ring|]. exfalso. apply L, (HH q0 k Hq Hk). left. exact N.
      - rewrite fsum_plus, fsum_scal. change (fun i => hat (e_P E) (q_x q0) i) with (hat (e_P E) (q_x q0)). rewrite U. ring. }
    assert (Y : forall a, fsum (e_nodes E) (fun k => hat (e_P E) (q_x q0) k * t_acc E B' (map (seen_from V 0) C) a k) = fsum (e_nodes E) (fun k => hat (e_P E) (q_x q0) k * t_acc E B C a k))
      by (intros a; apply fsum_ext; intros k _; rewrite boost_acc; reflexivity).
    f_equal; unfold add3, v3; cbn [comp vx vy vz]; rewrite ?X, ?Y; cbn [comp]; f_equal; ring.
  Qed.
End Boost.

(** ** C143 *)
(** Away from walls, and if the points touch heavy nodes only: the points with
    a velocity added to all of them move in a step as before, but for that velocity. *)
Lemma p_C143_step : forall uf fill fill' (V : V3 R) (s t : state R) tr tr', plain s -> plain t -> sP t = sP s -> sG t = sG s ->
  wall_free (bv (sG s)) (bh (sG s)) -> 0 <= p_Mtol (sP s) -> (forall P, no_surface (sP s) (uf P)) ->
  bodies (sL t) = map (seen_from V 0) (bodies (sL s)) -> all_heavy (scheme_of (sP s) (uf (sP s)) (sG s)) (bodies (sL s)) ->
  Forall (fun q => in_dom (pG (sP s)) (q_x q) /\ (p_check (sP s) = true -> vz (q_x q) = 0)) (bodies (sL s)) ->
  exists s' sr t' sr', after uf fill 1 s tr = Ok (s', sr) /\ after uf fill' 1 t tr' = Ok (t', sr') /\
  bodies (sL t') = map (seen_from V (p_dt (sP s))) (bodies (sL s')).
Proof.
  intros uf fill fill' V s t tr tr' Hs Ht EP EG HW HT HN EB HH HI.
  destruct (p_C84_run uf fill 1 s tr Hs HN) as (s' & sr & E1 & _ & B1); [intros [|j] Hj; [exact HI|lia]|].
  destruct (p_C84_run uf fill' 1 t tr' Ht) as (t' & sr' & E2 & _ & B2); [rewrite EP; exact HN| |].
  - intros [|j] Hj; [|lia]. cbn [t_run]. rewrite EP, EB. apply Forall_forall. intros q Hq. apply in_map_iff in Hq. destruct Hq as (q0 & <- & Hq).
    cbn [seen_from q_x]. rewrite add0. rewrite Forall_forall in HI. exact (HI q0 Hq).
  - exists s', sr, t', sr'. split; [exact E1|]. split; [exact E2|]. rewrite B1, B2, EP, EG, EB. cbn [t_run].
    refine (boost_step (scheme_of (sP s) (uf (sP s)) (sG s)) V (bodies (sL s)) (pl_proper s Hs) _ HT _ HH).
    + intros a k. cbn [scheme_of e_open]. unfold passes. destruct (HW k) as [V1 V2]. rewrite V1, V2. destruct a, (roughness (pB (sP s))); reflexivity.
    + intros q Hq. rewrite Forall_forall in HI. exact (proj1 (HI q Hq)).
Qed.

(** An elastic point on a column of nodes, of which the next column gets no mass. *)
Definition lone (v : R) : list (phase R) := [mkPhase (stuff 3 2) 1 v0 [ex_particle 1 (1/2) (mkV3 v 0 0) m0]].
Lemma lone_plain G v : grid_ok ex_gridp G -> plain (pair_state G (lone v)).
Proof.
  intros OK. constructor; try assumption; try reflexivity; try (cbn; lra).
  - exact ex_proper.
  - intros ph [<-|[]]. reflexivity.
  - intros ph [<-|[]]. left. reflexivity.
  - eexists. split; [reflexivity|]. intros ph [<-|[]]. unfold equipped, has. cbn. split; discriminate.
  - intros ph p [<-|[]] [<-|[]]; eexists; reflexivity.
  - repeat split; reflexivity.
  - left; reflexivity.
Qed.
Lemma lone_inside v : Forall (fun q => in_dom (ex_gridp (T := R)) (q_x q) /\ (p_check (ex_params (T := R) ex_bounds) = true -> vz (q_x q) = 0)) (bodies (lone v)).
Proof. repeat constructor; cbn; try (unR; lra); try reflexivity. Qed.
Lemma hat_on k : (k < 12)%nat -> hat (ex_gridp (T := R)) (mkV3 1 (1/2) 0) k = nth k [0; 1/2; 0; 0; 0; 1/2; 0; 0; 0; 0; 0; 0] 0.
Proof. intros Hk. unfold hat. at_nodes k Hk. Qed.
Lemma gx_on k : (k < 12)%nat -> ghat (ex_gridp (T := R)) (mkV3 1 (1/2) 0) AX k = nth k [0; -1/2; 1/2; 0; 0; -1/2; 1/2; 0; 0; 0; 0; 0] 0.
Proof. intros Hk. unfold ghat. at_nodes k Hk. Qed.
Lemma lone_squeezed G v : wall_free (bv G) (bh G) ->
  map (fun q => xx (q_s q)) (t_step (scheme_of (ex_params ex_bounds) (mkLoads 0 0 0 0) G) (bodies (lone v))) = [- (17/30) * v].
Proof.
  intros HW. set (E := scheme_of _ _ _). set (B := bodies (lone v)).
  assert (HO : forall a k, e_open E a k = 1) by (intros a k; cbn [E scheme_of e_open]; unfold passes; destruct (HW k) as [V1 V2]; rewrite V1, V2; destruct a; reflexivity).
  assert (M : forall k, (k < 12)%nat -> t_mass E B k = nth k [0; 1; 0; 0; 0; 1; 0; 0; 0; 0; 0; 0] 0).
  { intros k Hk. unfold t_mass. cbn - [nth hat]. rewrite (hat_on k Hk). do 12 (destruct k as [|k]; [cbn; unR; lra|]). lia. }
  assert (VX : forall k, (k < 12)%nat -> t_vel E B AX k = nth k [0; v; 0; 0; 0; v; 0; 0; 0; 0; 0; 0] 0).
  { intros k Hk. unfold t_vel. rewrite (M k Hk), HO. change (e_tol E) with (1/1000). cbn - [nth hat]. rewrite (hat_on k Hk). do 12 (destruct k as [|k]; [cbn; unR; destruct (Rlt_dec _ _); lra|]). lia. }
  assert (VO : forall a k, a <> AX -> (k < 12)%nat -> t_vel E B a k = 0).
  { intros a k Ha Hk. unfold t_vel. destruct (Rlt_dec _ _); [|reflexivity]. destruct a; [destruct (Ha eq_refl)| |]; cbn - [nth hat]; unR; unfold Rdiv; ring. }
  assert (XX : forall q, In q B -> fsum 12 (fun k => (t_vel E B AX k * ghat ex_gridp (q_x q) AX k + t_vel E B AX k * ghat ex_gridp (q_x q) AX k) / 2) = - v).
  { intros q [<-|[]]. cbn [mp_of q_x px ex_particle]. rewrite (fsum_ext 12 _ (fun k => nth k [0; v; 0; 0; 0; v; 0; 0; 0; 0; 0; 0] 0 * nth k [0; -1/2; 1/2; 0; 0; -1/2; 1/2; 0; 0; 0; 0; 0] 0)); [cbn; lra|].
    intros k Hk. rewrite (VX k Hk). change (mkV3 1 (1/2) n0) with (mkV3 1 (1/2) 0). rewrite (gx_on k Hk). lra. }
  assert (Z : forall a q, a <> AX -> fsum 12 (fun k => (t_vel E B a k * ghat (e_P E) (q_x q) a k + t_vel E B a k * ghat (e_P E) (q_x q) a k) / 2) = 0).
  { intros a q Ha. rewrite (fsum_ext 12 _ (fun _ => 0)); [cbn; lra|]. intros k Hk. rewrite (VO a k Ha Hk). lra. }
  assert (D : forall q, In q B -> xx (t_strain E B q) = - (1/10) * v /\ yy (t_strain E B q) = 0 /\ zz (t_strain E B q) = 0).
  { intros q Hq. unfold t_strain, m3. cbn [xx yy zz]. change (e_nodes E) with 12%nat. rewrite (Z AY q), (Z AZ q) by discriminate. change (e_P E) with (ex_gridp (T := R)). rewrite (XX q Hq). change (e_dt E) with (1/10). lra. }
  unfold t_step. rewrite !map_map. transitivity (map (fun q => xx (t_stress E q (t_strain E B q))) B); [reflexivity|].
  transitivity (map (fun _ : mp => - (17/30) * v) B); [|reflexivity]. apply map_ext_in. intros q Hq. destruct (D q Hq) as (D1 & D2 & D3).
  assert (Q : q_s q = m0 /\ q_mat q = Solid 3 2) by (destruct Hq as [<-|[]]; split; reflexivity). destruct Q as [Q1 Q2].
  unfold t_stress, t_material, over, m3, tr3. rewrite Q1, Q2. cbn [xx el delta]. rewrite D1, D2, D3. cbn. unR. lra.
Qed.
(** A point without stress at rest stays as it is; for a moving observer it is squeezed. *)
Lemma p_C143_light_refuted : forall fill v, v <> 0 -> exists (s t s' t' : state R) tr tr', plain s /\ plain t /\ sP t = sP s /\ sG t = sG s /\ wall_free (bv (sG s)) (bh (sG s)) /\
  bodies (sL t) = map (seen_from (mkV3 v 0 0) 0) (bodies (sL s)) /\ after calm fill 1 s [] = Ok (s', tr) /\ after calm fill 1 t [] = Ok (t', tr') /\
  map (fun q => xx (q_s q)) (bodies (sL s')) = [0] /\ map (fun q => xx (q_s q)) (bodies (sL t')) <> [0].
Proof.
  intros fill v Hv. destruct (grid_init_ok ex_gridp ex_bounds ex_proper) as (G & EG & OK). pose proof (no_walls G EG OK) as HW.
  assert (R1 : forall w, exists s' tr, after calm fill 1 (pair_state G (lone w)) [] = Ok (s', tr) /\ map (fun q => xx (q_s q)) (bodies (sL s')) = [- (17/30) * w]).
  { intros w. destruct (p_C84_run calm fill 1 (pair_state G (lone w)) [] (lone_plain G w OK)) as (s' & tr & E & _ & EB); [intros P; split; discriminate|intros [|j] Hj; [exact (lone_inside w)|lia]|].
    exists s', tr. split; [exact E|]. rewrite EB. exact (lone_squeezed G w HW). }
  destruct (R1 0) as (s' & tr & E1 & B1), (R1 v) as (t' & tr' & E2 & B2).
  exists (pair_state G (lone 0)), (pair_state G (lone v)), s', t', tr, tr'. split; [apply lone_plain, OK|]. split; [apply lone_plain, OK|]. split; [reflexivity|]. split; [reflexivity|]. split; [exact HW|].
  split; [cbn; unfold seen_from, add3, v3, mp_of; cbn; repeat (f_equal; try (unR; ring))|]. split; [exact E1|]. split; [exact E2|]. split; [rewrite B1; f_equal; ring|].
  rewrite B2. intros K. injection K as K. lra.
Qed.
(** Two points that approach each other, seen at rest and from an observer at speed 3. *)
Definition duet (v w : R) : list (phase R) :=
  [mkPhase (stuff 3 2) 2 v0 [ex_particle (1/4) (1/2) (mkV3 v 0 0) m0; ex_particle (3/4) (1/2) (mkV3 w 0 0) m0]].
Example x_C143_step : exists (V : V3 R) (s t : state R), plain s /\ plain t /\ sP t = sP s /\ sG t = sG s /\
  wall_free (bv (sG s)) (bh (sG s)) /\ 0 <= p_Mtol (sP s) /\ (forall P, no_surface (sP s) (calm P)) /\
  bodies (sL t) = map (seen_from V 0) (bodies (sL s)) /\ all_heavy (scheme_of (sP s) (calm (sP s)) (sG s)) (bodies (sL s)) /\
  Forall (fun q => in_dom (pG (sP s)) (q_x q) /\ (p_check (sP s) = true -> vz (q_x q) = 0)) (bodies (sL s)) /\ length (bodies (sL s)) = 2%nat /\ V <> v0.
Proof.
  destruct (grid_init_ok ex_gridp ex_bounds ex_proper) as (G & EG & OK). pose proof (no_walls G EG OK) as HW.
  assert (PL : forall v w, plain (pair_state G (duet v w))).
  { intros v w. constructor; try assumption; try reflexivity; try (cbn; lra).
    - exact ex_proper.
    - intros ph [<-|[]]. reflexivity.
    - intros ph [<-|[]]. left. reflexivity.
    - eexists. split; [reflexivity|]. intros ph [<-|[]]. unfold equipped, has. cbn. split; discriminate.
    - intros ph p [<-|[]] [<-|[<-|[]]]; eexists; reflexivity.
    - repeat split; reflexivity.
    - left; reflexivity. }
  exists (mkV3 3 0 0), (pair_state G (duet 1 (-1))), (pair_state G (duet 4 2)).
  split; [apply PL|]. split; [apply PL|]. split; [reflexivity|]. split; [reflexivity|]. split; [exact HW|]. split; [cbn; unfold lit; unR; lra|]. split; [intros P; split; discriminate|].
  split; [cbn; unfold seen_from, add3, v3, mp_of; cbn; repeat (f_equal; try (unR; lra))|]. split; [|split; [repeat constructor; cbn; try (unR; lra); try reflexivity|split; [reflexivity|]]].
  - intros q k Hq Hk HN. set (E := scheme_of _ _ _) in *. change (e_nodes E) with 12%nat in Hk. change (e_P E) with (ex_gridp (T := R)) in HN. change (e_tol E) with (1/1000).
    assert (M : t_mass E (bodies (sL (pair_state G (duet 1 (-1))))) k = nth k [1; 1; 0; 0; 1; 1; 0; 0; 0; 0; 0; 0] 0).
    { unfold t_mass. cbn - [nth hat]. rewrite (hatL k Hk), (hat2 k Hk). do 12 (destruct k as [|k]; [cbn; unR; lra|]). lia. }
    rewrite M. destruct Hq as [<-|[<-|[]]]; cbn [mp_of q_x px ex_particle] in HN.
    + change (mkV3 (1/4) (1/2) n0) with (mkV3 (1/4) (1/2) 0) in HN. destruct HN as [HN|[[] HN]]; [rewrite (hatL k Hk) in HN|rewrite (gxL k Hk) in HN|rewrite (gyL k Hk) in HN|destruct HN; reflexivity];
        clear M; do 12 (destruct k as [|k]; [cbn in *; lra|]); lia.
    + change (mkV3 (3/4) (1/2) n0) with (mkV3 (3/4) (1/2) 0) in HN. destruct HN as [HN|[[] HN]]; [rewrite (hat2 k Hk) in HN|rewrite (gxR k Hk) in HN|rewrite (gyR k Hk) in HN|destruct HN; reflexivity];
        clear M; do 12 (destruct k as [|k]; [cbn in *; lra|]); lia.
  - intros K. apply (f_equal vx) in K. cbn in K. revert K. unR. lra.
Qed.
