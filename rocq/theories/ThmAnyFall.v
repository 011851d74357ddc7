(** * The centre of mass of a body of any material: C154. *)
From Coq Require Import ZArith Reals List Bool Arith Lra Lia.
From RecordUpdate Require Import RecordUpdate.
From Verif Require Import State NumR Spec SpecLaws SpecStep SpecScheme SpecView SpecLocal LibList LibR ModelGrid ModelConstit ModelParticle ModelMPList
  ModelIntegr ModelMain ProofsGrid ProofsMap ProofsP2G ProofsWalls ProofsLaws ProofsInOut ProofsHist Concrete
  ThmMapping ThmWalls ThmLaws ThmInOut ThmHist ProofsStep ProofsPoints ThmStep ThmBalance ThmEnergy ThmFall ThmGeo ProofsScheme ThmScheme ProofsLocal ThmLocal ThmApart ThmAlone ThmSpin ThmAngular ThmBeat ThmStride.
Import ListNotations.
Local Open Scope R_scope.

(** Momentum and first moment of a set of points, and what gravity pulls at: the points of the first material. *)
Definition zdrive (a : axis) (B : list point) : R := Rsum (map (fun q => z_m q * comp a (z_v q)) B).
Definition zmoment (a : axis) (B : list point) : R := Rsum (map (fun q => z_m q * comp a (z_x q)) B).
Definition zpull (a : axis) (g : V3 R) (B : list point) : R := Rsum (map (fun q => if z_first q then z_m q * comp a g else 0) B).
(** A point that is neither part of an intruder nor heated, and has no weight of its own. *)
Definition usual (q : point) : Prop :=
  match z_stuff q with Intruder | Heated _ _ _ _ => False | _ => True end /\ (z_first q = false -> z_b q = v0).
(** All nodes that a point of the body touches are heavy. *)
Definition well_fed (P : params R) (B : list point) : Prop := forall q k, In q B -> (k < nx (pG P) * ny (pG P))%nat ->
  hat (pG P) (z_x q) k <> 0 \/ (exists a, ghat (pG P) (z_x q) a k <> 0) -> p_Mtol P < Rsum (map (fun q => z_m q * hat (pG P) (z_x q) k) B).

Section Any.
  Context (E : ambient) (B : list point) (a : axis).
  Hypothesis (HP : proper (a_P E)) (HO : forall k, a_open E a k = 1) (HT : 0 <= a_tol E) (HL : forall k, a_load E a k = 0) (HC : forall k, a_belt E k = None).
  Hypothesis (HD : forall q, In q B -> in_dom (a_P E) (z_x q)) (HU : forall q, In q B -> usual q).
  Hypothesis (HH : forall q k, In q B -> (k < a_nodes E)%nat -> hat (a_P E) (z_x q) k <> 0 \/ (exists a, ghat (a_P E) (z_x q) a k <> 0) -> a_tol E < z_mass E B k).
  Let B1 := map (z_strained E B) B.
  Lemma any_light q k : In q B -> (k < a_nodes E)%nat -> ~ a_tol E < z_mass E B k -> hat (a_P E) (z_x q) k = 0 /\ forall b, ghat (a_P E) (z_x q) b k = 0.
  Proof.
    intros Hq Hk N. split.
    - destruct (Req_dec (hat (a_P E) (z_x q) k) 0) as [Z|Z]; [exact Z|]. destruct N. apply (HH q k Hq Hk). left. exact Z.
    - intros b. destruct (Req_dec (ghat (a_P E) (z_x q) b k) 0) as [Z|Z]; [exact Z|]. destruct N. apply (HH q k Hq Hk). right. exists b. exact Z.
  Qed.
  Lemma any_shed q : In q B -> z_shed E q = z_m q.
  Proof. intros Hq. destruct (HU q Hq) as [K _]. unfold z_shed. destruct (z_stuff q); try reflexivity; destruct K. Qed.
  Lemma any_mass_vel k : (k < a_nodes E)%nat -> z_mass E B k * z_vel E B a k = Rsum (map (fun q => z_m q * comp a (z_v q) * hat (a_P E) (z_x q) k) B).
  Proof.
    intros Hk. unfold z_vel. destruct (Rlt_dec _ _) as [L|L]; [rewrite HO; field; lra|]. rewrite Rmult_0_r. symmetry. apply Rsum_zero. intros q Hq. rewrite (proj1 (any_light q k Hq Hk L)). ring.
  Qed.
  Lemma any_mass_acc k : (k < a_nodes E)%nat -> z_mass E B k * z_acc E B B1 a k = a_damp E * z_force E B1 a k.
  Proof.
    intros Hk. unfold z_acc. destruct (Rlt_dec _ _) as [L|L]; [rewrite HO, HL; field; lra|]. rewrite Rmult_0_r. unfold z_force, B1. rewrite map_map, Rsum_zero; [ring|].
    intros q Hq. cbn [z_strained z_m z_b z_V z_s z_x]. destruct (any_light q k Hq Hk L) as [Z1 Z2]. unfold over. rewrite Z1, !Z2. ring.
  Qed.
  Lemma any_force : fsum (a_nodes E) (z_force E B1 a) = zpull a (a_g E) B.
  Proof.
    unfold z_force, B1.
    rewrite (fsum_ext (a_nodes E) _ (fun k => Rsum (map (fun q => (if z_first q then z_m q * comp a (a_g E) else 0) * hat (a_P E) (z_x q) k + - z_V q * over (fun b => el a b (z_stress E q (z_strain E B q)) * ghat (a_P E) (z_x q) b k)) B))).
    - rewrite fsum_Rsum_swap. apply Rsum_ext. intros q Hq. rewrite fsum_plus, !fsum_scal. unfold over. rewrite !fsum_plus, !fsum_scal.
      assert (G : forall b, fsum (a_nodes E) (fun k => ghat (a_P E) (z_x q) b k) = 0) by (intros b; exact (ghat_sum (a_P E) (z_x q) b HP (HD q Hq))).
      assert (U : fsum (a_nodes E) (fun k => hat (a_P E) (z_x q) k) = 1) by exact (proj1 (hat_sums (a_P E) (z_x q) HP (HD q Hq))).
      rewrite !G. change (fun k => hat (a_P E) (z_x q) k) with (hat (a_P E) (z_x q)) in *. rewrite U. ring.
    - intros k _. rewrite map_map. apply Rsum_ext. intros q Hq. cbn [z_strained z_m z_b z_V z_s z_x]. rewrite (any_shed q Hq). destruct (z_first q) eqn:F; [ring|]. rewrite (proj2 (HU q Hq) F). clear. destruct a; cbn [comp vx vy vz v0]; unR; ring.
  Qed.
  Lemma any_acc : fsum (a_nodes E) (fun k => z_mass E B k * z_acc E B B1 a k) = a_damp E * zpull a (a_g E) B.
  Proof. rewrite (fsum_ext _ _ (fun k => a_damp E * z_force E B1 a k)) by (intros k Hk; apply (any_mass_acc k Hk)). rewrite fsum_scal, any_force. reflexivity. Qed.
  Lemma any_vel : fsum (a_nodes E) (fun k => z_mass E B k * z_vel E B a k) = zdrive a B.
  Proof.
    rewrite (fsum_ext _ _ (fun k => Rsum (map (fun q => z_m q * comp a (z_v q) * hat (a_P E) (z_x q) k) B))) by (intros k Hk; apply any_mass_vel, Hk).
    rewrite fsum_Rsum_swap. apply Rsum_ext. intros q Hq. rewrite fsum_scal. destruct (hat_sums (a_P E) (z_x q) HP (HD q Hq)) as (U & _). change (fun k => hat (a_P E) (z_x q) k) with (hat (a_P E) (z_x q)) in *. unfold a_nodes. unfold nodes in U. rewrite U. ring.
  Qed.
  Lemma any_spread u : Rsum (map (fun q => z_m q * fsum (a_nodes E) (fun k => hat (a_P E) (z_x q) k * u k)) B) = fsum (a_nodes E) (fun k => z_mass E B k * u k).
  Proof.
    transitivity (Rsum (map (fun q => fsum (a_nodes E) (fun k => z_m q * hat (a_P E) (z_x q) k * u k)) B)).
    - apply Rsum_ext. intros q _. rewrite <- fsum_scal. apply fsum_ext. intros k _. ring.
    - rewrite <- fsum_Rsum_swap. apply fsum_ext. intros k _. unfold z_mass. rewrite (Rmult_comm _ (u k)), <- Rsum_scal. apply Rsum_ext. intros q _. ring.
  Qed.
  (** What a step makes of a usual point. *)
  Lemma any_moved q : In q B -> let r := z_moved E B B1 (z_strained E B q) in
    z_m r = z_m q /\ z_first r = z_first q /\ z_b r = (if z_first q then a_g E else z_b q) /\ usual r /\
    comp a (z_x r) = comp a (z_x q) + a_dt E * fsum (a_nodes E) (fun k => hat (a_P E) (z_x q) k * (z_vel E B a k + a_dt E * z_acc E B B1 a k)) /\
    comp a (z_v r) = comp a (z_v q) + a_dt E * fsum (a_nodes E) (fun k => hat (a_P E) (z_x q) k * z_acc E B B1 a k).
  Proof.
    intros Hq r. destruct (HU q Hq) as [K N]. pose proof (any_shed q Hq) as S.
    assert (X : fsum (a_nodes E) (fun k => hat (a_P E) (z_x q) k * z_end E B B1 a k) = fsum (a_nodes E) (fun k => hat (a_P E) (z_x q) k * (z_vel E B a k + a_dt E * z_acc E B B1 a k))).
    { apply fsum_ext. intros k _. unfold z_end. rewrite HC. destruct a; reflexivity. }
    rewrite <- X. clear X. unfold r, usual, z_moved, z_strained. cbn [z_stuff z_m z_V z_x z_v z_s z_b z_first]. rewrite S. clear S r.
    destruct (z_stuff q); try (destruct K; fail); cbn [z_memory z_dense z_stuff z_m z_x z_v z_b z_first]; (split; [reflexivity|]; split; [reflexivity|]; split; [reflexivity|]; split; [split; [exact I|intros F; rewrite F; exact (N F)]|]; split; destruct a; reflexivity).
  Qed.
  Lemma any_drive : zdrive a (z_step E B) = zdrive a B + a_dt E * (a_damp E * zpull a (a_g E) B).
  Proof.
    unfold zdrive at 1, z_step. fold B1. unfold B1 at 2. rewrite !map_map.
    transitivity (Rsum (map (fun q => z_m q * comp a (z_v q) + a_dt E * (z_m q * fsum (a_nodes E) (fun k => hat (a_P E) (z_x q) k * z_acc E B B1 a k))) B)).
    - apply Rsum_ext. intros q Hq. destruct (any_moved q Hq) as (M & _ & _ & _ & _ & X). cbv zeta in M, X. rewrite M, X. ring.
    - rewrite Rsum_plus, Rsum_scal, any_spread, any_acc. unfold zdrive. ring.
  Qed.
  Lemma any_moment : zmoment a (z_step E B) = zmoment a B + a_dt E * (zdrive a B + a_dt E * (a_damp E * zpull a (a_g E) B)).
  Proof.
    unfold zmoment at 1, z_step. fold B1. unfold B1 at 2. rewrite !map_map.
    transitivity (Rsum (map (fun q => z_m q * comp a (z_x q) + a_dt E * (z_m q * fsum (a_nodes E) (fun k => hat (a_P E) (z_x q) k * (z_vel E B a k + a_dt E * z_acc E B B1 a k)))) B)).
    - apply Rsum_ext. intros q Hq. destruct (any_moved q Hq) as (M & _ & _ & _ & X & _). cbv zeta in M, X. rewrite M, X. ring.
    - rewrite Rsum_plus, Rsum_scal, (any_spread (fun k => z_vel E B a k + a_dt E * z_acc E B B1 a k)).
      rewrite (fsum_ext _ _ (fun k => z_mass E B k * z_vel E B a k + a_dt E * (z_mass E B k * z_acc E B B1 a k))) by (intros; ring). rewrite fsum_plus, fsum_scal, any_acc, any_vel. unfold zmoment. ring.
  Qed.
  Lemma any_pull g : zpull a g (z_step E B) = zpull a g B.
  Proof.
    unfold zpull, z_step. fold B1. unfold B1 at 2. rewrite !map_map. apply Rsum_ext. intros q Hq. destruct (any_moved q Hq) as (M & F & _). cbv zeta in M, F. rewrite M, F. reflexivity.
  Qed.
  Lemma any_usual q : In q (z_step E B) -> usual q.
  Proof.
    unfold z_step. intros Hq. apply in_map_iff in Hq. destruct Hq as (q1 & <- & Hq). apply in_map_iff in Hq. destruct Hq as (q0 & <- & Hq). exact (proj1 (proj2 (proj2 (proj2 (any_moved q0 Hq))))).
  Qed.
End Any.

Lemma any_run uf rho g th a n : forall P G B, proper (pG P) -> 0 <= p_Mtol P -> conveyor (pB P) = false ->
  (forall l k, load_of P rho l a k = 0) -> (forall k, removed a (roughness (pB P)) (nth k (bv G) false) (nth k (bh G) false) = false) ->
  (forall P, ld_g (uf P) = g /\ ld_theta (uf P) = th) -> (forall q, In q B -> usual q) ->
  (forall k, (k < n)%nat -> well_fed P (z_run uf rho k P G B) /\ Forall (fun q => in_dom (pG P) (z_x q)) (z_run uf rho k P G B)) ->
  let W := (if p_damping P then 7/10 else 1) * zpull a (mkV3 (g * sin th) (g * cos th) 0) B in let h := p_dt P in
  zdrive a (z_run uf rho n P G B) = zdrive a B + INR n * h * W /\
  zmoment a (z_run uf rho n P G B) = zmoment a B + INR n * h * zdrive a B + INR n * (INR n + 1) / 2 * (h * h) * W.
Proof.
  induction n as [|n IH]; intros P G B HP HT HC HL HW HU HB HD W h; [cbn [z_run INR]; split; [ring|field]|].
  destruct (HD 0%nat ltac:(lia)) as [HH F]. cbn [z_run] in HH, F. rewrite Forall_forall in F.
  set (E := ambient_of P rho (uf P) G). 
  assert (HO : forall k, a_open E a k = 1) by (intros k; cbn [E ambient_of a_open]; unfold passes; rewrite (HW k); reflexivity).
  assert (HL' : forall k, a_load E a k = 0) by (intros k; apply HL).
  assert (HC' : forall k, a_belt E k = None) by (intros k; cbn [E ambient_of a_belt]; rewrite HC; reflexivity).
  assert (HG : a_g E = mkV3 (g * sin th) (g * cos th) 0) by (cbn [E ambient_of a_g]; destruct (HU P) as [-> ->]; reflexivity).
  cbn [z_run]. fold E.
  destruct (IH (ticked uf P) G (z_step E B)) as [I1 I2]; try assumption.
  - intros q Hq. eapply any_usual; eassumption.
  - intros k Hk. exact (HD (Datatypes.S k) ltac:(lia)).
  - change (p_damping (ticked uf P)) with (p_damping P) in I1, I2. change (p_dt (ticked uf P)) with (p_dt P) in I1, I2.
    rewrite any_pull in I1, I2 by assumption. fold W in I1, I2. fold h in I1, I2. rewrite I1, I2.
    rewrite (any_drive E B a HP HO HT HL' HC' F HB HH), (any_moment E B a HP HO HT HL' HC' F HB HH), HG, S_INR. change (a_dt E) with h.
    change (a_damp E * zpull a (mkV3 (g * sin th) (g * cos th) 0) B) with W. split; field.
Qed.

(** ** C154 *)
(** A body of points of six materials (all that C102 covers but intruders and heated points), on a grid with any walls
    none of which holds the component [a] of the motion, without load along [a] and without belts: along [a] the body gains the
    momentum that its weight gives it, and its centre of mass follows, whatever the materials do. *)
Lemma p_C154_any : forall uf fill g th a n (s : state R) tr s' tr' S0, whole s -> sol0 (sL s) = Ok S0 -> conveyor (pB (sP s)) = false ->
  match a with AX => horizontal_force (pB (sP s)) = false | AY => vertical_force (pB (sP s)) = false | AZ => True end ->
  (forall k, removed a (roughness (pB (sP s))) (nth k (bv (sG s)) false) (nth k (bh (sG s)) false) = false) ->
  (forall P, ld_g (uf P) = g /\ ld_theta (uf P) = th) -> Forall usual (cloud (sP s) (sL s)) ->
  (forall k, (k < n)%nat -> let B := z_run uf (s_rho S0) k (sP s) (sG s) (cloud (sP s) (sL s)) in
    well_fed (sP s) B /\ Forall (fun q => in_dom (pG (sP s)) (z_x q)) B) ->
  after uf fill n s tr = Ok (s', tr') ->
  let B := cloud (sP s) (sL s) in let B' := cloud (sP s) (sL s') in
  let W := (if p_damping (sP s) then 7/10 else 1) * zpull a (mkV3 (g * sin th) (g * cos th) 0) B in let h := p_dt (sP s) in
  zdrive a B' = zdrive a B + INR n * h * W /\
  zmoment a B' = zmoment a B + INR n * h * zdrive a B + INR n * (INR n + 1) / 2 * (h * h) * W.
Proof.
  intros uf fill g th a n s tr s' tr' S0 Hs H0 HC HL HW HU HB HD E. cbv zeta.
  destruct (p_C102_run uf fill n s tr s' tr' S0 Hs H0 (fun j Hj => proj2 (HD j Hj)) E) as [_ ->]. rewrite Forall_forall in HB.
  apply any_run; try assumption.
  - exact (wh_proper s Hs).
  - exact (wh_tol s Hs).
  - intros l k. unfold load_of. destruct a; [rewrite HL|rewrite HL|]; reflexivity.
Qed.
(** A point of Bingham's fluid and a Von Mises point, with stresses and velocities, in one place. *)
Example x_C154_any : forall fill g, let uf := fun _ : params R => mkLoads g 0 0 0 in exists (s s' : state R) tr' S0, whole s /\ sol0 (sL s) = Ok S0 /\ conveyor (pB (sP s)) = false /\
  vertical_force (pB (sP s)) = false /\ (forall k, removed AY (roughness (pB (sP s))) (nth k (bv (sG s)) false) (nth k (bh (sG s)) false) = false) /\
  (forall P, ld_g (uf P) = g /\ ld_theta (uf P) = 0) /\ Forall usual (cloud (sP s) (sL s)) /\
  (forall k, (k < 1)%nat -> let B := z_run uf (s_rho S0) k (sP s) (sG s) (cloud (sP s) (sL s)) in
    well_fed (sP s) B /\ Forall (fun q => in_dom (pG (sP s)) (z_x q)) B) /\
  after uf fill 1 s [] = Ok (s', tr') /\ zpull AY (mkV3 (g * sin 0) (g * cos 0) 0) (cloud (sP s) (sL s)) = 2 * g /\ length (cloud (sP s) (sL s)) = 2%nat.
Proof.
  intros fill g uf. destruct (grid_init_ok ex_gridp ex_bounds ex_proper) as (G & EG & OK). pose proof (no_walls G EG OK) as HW.
  set (s := mkState (ex_params ex_bounds) G [mix_phase Bingham (1/2); mix_phase VonMises (1/2)]).
  assert (W : whole s).
  { constructor; try reflexivity; try (cbn; unfold lit; unR; lra); try assumption.
    - exact ex_proper.
    - intros ph [<-|[<-|[]]]; cbn [s_law ph_sol mix_phase mix_solid]; try exact I; intros p [<-|[]]; reflexivity.
    - intros ph p [<-|[<-|[]]] [<-|[]]; eexists; reflexivity.
    - repeat split; reflexivity.
    - left. reflexivity. }
  assert (V : provided s).
  { constructor; try reflexivity; try (cbn; unfold lit; unR; lra).
    - intros ph [<-|[<-|[]]]; reflexivity.
    - exists (mix_solid Bingham). split; [reflexivity|]. intros ph [<-|[<-|[]]]; apply mix_equipped; cbn; tauto.
    - intros ph [<-|[<-|[]]] K; discriminate K. }
  assert (D : Forall (fun q => in_dom (pG (sP s)) (z_x q) /\ (p_check (sP s) = true -> vz (z_x q) = 0)) (cloud (sP s) (sL s))) by (repeat constructor; cbn; unR; lra).
  destruct (p_C102_total uf fill 1 s [] (mix_solid Bingham) W V eq_refl) as (s' & tr' & E & _); [intros [|j] Hj; [exact D|lia]|].
  exists s, s', tr', (mix_solid Bingham). split; [exact W|]. split; [reflexivity|]. split; [reflexivity|]. split; [reflexivity|].
  split; [intros k; destruct (HW k) as [V1 V2]; cbn [s sG sP]; rewrite V1, V2; reflexivity|]. split; [intros P; split; reflexivity|].
  split; [repeat constructor|]. split; [|split; [exact E|split; [cbn; unR; rewrite cos_0; lra|reflexivity]]].
  intros [|j] Hj; [|lia]. cbn [z_run]. cbv zeta. split; [|apply (Forall_impl _ (fun q X => proj1 X) D)].
  intros q k Hq Hk HN. change (pG (sP s)) with (ex_gridp (T := R)) in *. change (nx (ex_gridp (T := R)) * ny (ex_gridp (T := R)))%nat with 12%nat in Hk.
  assert (QX : z_x q = mkV3 (1/2) (1/2) 0) by (destruct Hq as [<-|[<-|[]]]; reflexivity). rewrite QX in HN.
  replace (Rsum (map (fun q => z_m q * hat ex_gridp (z_x q) k) (cloud (sP s) (sL s)))) with (4 * hat (ex_gridp (T := R)) (mkV3 (1/2) (1/2) 0) k).
  2:{ cbn - [hat]. change (mkV3 (1/2) (1/2) n0) with (mkV3 (1/2) (1/2) 0). unR. ring. }
  replace (p_Mtol (sP s)) with (1/1000) by (cbn; unfold lit; unR; lra).
  assert (N : nth k [1; 1; 0; 0; 1; 1; 0; 0; 0; 0; 0; 0] 0 <> 0).
  { intros Z. destruct HN as [HN|[a HN]]; [|apply HN, ghatM; try assumption; lra]. apply HN. rewrite (hatM (1/2) k) by (try assumption; lra). clear HN. do 12 (destruct k as [|k]; [cbn in Z |- *; lra|]). lia. }
  rewrite (hatM (1/2) k) by (try assumption; lra). clear HN. do 12 (destruct k as [|k]; [cbn in N |- *; lra|]). lia.
Qed.
