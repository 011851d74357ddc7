(** * What the walls take from a body: C156. *)
From Coq Require Import ZArith Reals List Bool Arith Lra Lia.
From RecordUpdate Require Import RecordUpdate.
From Verif Require Import State NumR Spec SpecLaws SpecStep SpecScheme SpecView SpecLocal LibList LibR ModelGrid ModelConstit ModelParticle ModelMPList
  ModelIntegr ModelMain ProofsGrid ProofsMap ProofsP2G ProofsWalls ProofsLaws ProofsInOut ProofsHist Concrete
  ThmMapping ThmWalls ThmLaws ThmInOut ThmHist ProofsStep ProofsPoints ThmStep ThmBalance ThmEnergy ThmFall ThmGeo ProofsScheme ThmScheme ProofsLocal ThmLocal ThmApart ThmAlone ThmSpin ThmAngular ThmBeat ThmStride ThmGlide ThmAnyFall ThmFloor.
Import ListNotations.
Local Open Scope R_scope.

(** Force on a node, with the load on the surface: from the strained points. *)
Definition node_force (E : ambient) (B : list point) (a : axis) (k : nat) : R := z_force E (map (z_strained E B) B) a k + a_load E a k * z_mass E B k.
(** Force of the body on the nodes that walls hold, and the load on its surface. *)
Definition on_walls (E : ambient) (B : list point) (a : axis) : R := fsum (a_nodes E) (fun k => (1 - a_open E a k) * node_force E B a k).
Definition on_surface (E : ambient) (B : list point) (a : axis) : R := fsum (a_nodes E) (fun k => a_load E a k * z_mass E B k).

Section Held.
  Context (E : ambient) (B : list point) (a : axis).
  Hypothesis (HP : proper (a_P E)) (HT : 0 <= a_tol E).
  Hypothesis (HD : forall q, In q B -> in_dom (a_P E) (z_x q)) (HU : forall q, In q B -> usual q).
  Hypothesis (HH : forall q k, In q B -> (k < a_nodes E)%nat -> hat (a_P E) (z_x q) k <> 0 \/ (exists a, ghat (a_P E) (z_x q) a k <> 0) -> a_tol E < z_mass E B k).
  Let B1 := map (z_strained E B) B.
  Lemma held_mass_acc k : (k < a_nodes E)%nat -> z_mass E B k * z_acc E B B1 a k = a_damp E * (node_force E B a k - (1 - a_open E a k) * node_force E B a k).
  Proof.
    intros Hk. unfold z_acc, node_force. fold B1. destruct (Rlt_dec _ _) as [L|L]; [field; lra|]. rewrite Rmult_0_r.
    assert (Z : z_mass E B k = 0) by (unfold z_mass; apply Rsum_zero; intros q Hq; rewrite (proj1 (any_light E B HH q k Hq Hk L)); ring).
    assert (Y : z_force E B1 a k = 0).
    { unfold z_force, B1. rewrite map_map. apply Rsum_zero. intros q Hq. cbn [z_strained z_m z_b z_V z_s z_x]. destruct (any_light E B HH q k Hq Hk L) as [Z1 Z2]. unfold over. rewrite Z1, !Z2. ring. }
    rewrite Z, Y. ring.
  Qed.
  Lemma held_moved q : In q B -> let r := z_moved E B B1 (z_strained E B q) in
    z_m r = z_m q /\ z_first r = z_first q /\ usual r /\
    comp a (z_v r) = comp a (z_v q) + a_dt E * fsum (a_nodes E) (fun k => hat (a_P E) (z_x q) k * z_acc E B B1 a k).
  Proof.
    intros Hq r. destruct (HU q Hq) as [K N]. pose proof (any_shed E B HU q Hq) as S.
    unfold r, usual, z_moved, z_strained. cbn [z_stuff z_m z_V z_x z_v z_s z_b z_first]. rewrite S. clear S r.
    destruct (z_stuff q); try (destruct K; fail); cbn [z_memory z_dense z_stuff z_m z_x z_v z_b z_first]; (split; [reflexivity|]; split; [reflexivity|]; split; [split; [exact I|intros F; rewrite F; exact (N F)]|]; clear; destruct a; reflexivity).
  Qed.
  Lemma held_drive : zdrive a (z_step E B) = zdrive a B + a_dt E * (a_damp E * (zpull a (a_g E) B + on_surface E B a - on_walls E B a)).
  Proof.
    unfold zdrive at 1, z_step. fold B1. unfold B1 at 2. rewrite !map_map.
    transitivity (Rsum (map (fun q => z_m q * comp a (z_v q) + a_dt E * (z_m q * fsum (a_nodes E) (fun k => hat (a_P E) (z_x q) k * z_acc E B B1 a k))) B)).
    - apply Rsum_ext. intros q Hq. destruct (held_moved q Hq) as (M & _ & _ & X). cbv zeta in M, X. rewrite M, X. ring.
    - rewrite Rsum_plus, Rsum_scal, any_spread. rewrite (fsum_ext _ _ (fun k => a_damp E * (node_force E B a k - (1 - a_open E a k) * node_force E B a k))) by (intros k Hk; apply (held_mass_acc k Hk)).
      rewrite fsum_scal, fsum_minus. unfold node_force at 1. rewrite fsum_plus. change (fun k => z_force E (map (z_strained E B) B) a k) with (z_force E (map (z_strained E B) B) a).
      rewrite (any_force E B a HP HD HU). unfold zdrive, on_surface, on_walls. ring.
  Qed.
  Lemma held_pull g : zpull a g (z_step E B) = zpull a g B.
  Proof.
    unfold zpull, z_step. fold B1. unfold B1 at 2. rewrite !map_map. apply Rsum_ext. intros q Hq. destruct (held_moved q Hq) as (M & F & _). cbv zeta in M, F. rewrite M, F. reflexivity.
  Qed.
  Lemma held_usual q : In q (z_step E B) -> usual q.
  Proof.
    unfold z_step. intros Hq. apply in_map_iff in Hq. destruct Hq as (q1 & <- & Hq). apply in_map_iff in Hq. destruct Hq as (q0 & <- & Hq). exact (proj1 (proj2 (proj2 (held_moved q0 Hq)))).
  Qed.
End Held.

(** The surroundings in step [j] of a run. *)
Definition ambient_at (uf : params R -> loads R) (rho : R) (j : nat) (P : params R) (G : grid R) : ambient := ambient_of (clock uf j P) rho (uf (clock uf j P)) G.
Lemma held_run uf rho a n : forall P G B, proper (pG P) -> 0 <= p_Mtol P -> (forall q, In q B -> usual q) ->
  (forall k, (k < n)%nat -> well_fed P (z_run uf rho k P G B) /\ Forall (fun q => in_dom (pG P) (z_x q)) (z_run uf rho k P G B)) ->
  zdrive a (z_run uf rho n P G B) = zdrive a B + p_dt P * ((if p_damping P then 7/10 else 1) *
    fsum n (fun j => let E := ambient_at uf rho j P G in let Bj := z_run uf rho j P G B in zpull a (a_g E) B + on_surface E Bj a - on_walls E Bj a)).
Proof.
  induction n as [|n IH]; intros P G B HP HT HB HD; [cbn [z_run fsum]; ring|].
  destruct (HD 0%nat ltac:(lia)) as [HH F]. cbn [z_run] in HH, F. rewrite Forall_forall in F.
  rewrite fsum_S. set (E := ambient_of P rho (uf P) G). cbn [z_run]. fold E.
  rewrite (IH (ticked uf P) G (z_step E B)); try assumption.
  - rewrite (held_drive E B a HP HT F HB HH). change (p_damping (ticked uf P)) with (p_damping P). change (p_dt (ticked uf P)) with (p_dt P). change (a_dt E) with (p_dt P). change (a_damp E) with (if p_damping P then 7/10 else 1).
    change (ambient_at uf rho 0 P G) with E. cbv zeta.
    rewrite (fsum_ext n _ (fun j => zpull a (a_g (ambient_at uf rho (Datatypes.S j) P G)) B + on_surface (ambient_at uf rho (Datatypes.S j) P G) (z_run uf rho j (ticked uf P) G (z_step E B)) a - on_walls (ambient_at uf rho (Datatypes.S j) P G) (z_run uf rho j (ticked uf P) G (z_step E B)) a)).
    + ring.
    + intros j Hj. change (ambient_at uf rho j (ticked uf P) G) with (ambient_at uf rho (Datatypes.S j) P G). rewrite (held_pull E B a HB). reflexivity.
  - intros q Hq. exact (held_usual E B a HB q Hq).
  - intros k Hk. exact (HD (Datatypes.S k) ltac:(lia)).
Qed.

(** ** C156 *)
(** The momentum of a body of six materials after any number of steps: what its weight and the load on its surface have given
    it, less the force on the nodes that the walls hold, summed over the steps. *)
Lemma p_C156_walls : forall uf fill a n (s : state R) tr s' tr' S0, whole s -> sol0 (sL s) = Ok S0 -> Forall usual (cloud (sP s) (sL s)) ->
  (forall k, (k < n)%nat -> let B := z_run uf (s_rho S0) k (sP s) (sG s) (cloud (sP s) (sL s)) in
    well_fed (sP s) B /\ Forall (fun q => in_dom (pG (sP s)) (z_x q)) B) ->
  after uf fill n s tr = Ok (s', tr') ->
  let B := cloud (sP s) (sL s) in
  zdrive a (cloud (sP s) (sL s')) = zdrive a B + p_dt (sP s) * ((if p_damping (sP s) then 7/10 else 1) *
    fsum n (fun j => let E := ambient_at uf (s_rho S0) j (sP s) (sG s) in let Bj := z_run uf (s_rho S0) j (sP s) (sG s) B in
      zpull a (a_g E) B + on_surface E Bj a - on_walls E Bj a)).
Proof.
  intros uf fill a n s tr s' tr' S0 Hs H0 HB HD E. cbv zeta.
  destruct (p_C102_run uf fill n s tr s' tr' S0 Hs H0 (fun j Hj => proj2 (HD j Hj)) E) as [_ ->]. rewrite Forall_forall in HB.
  apply held_run; try assumption; [exact (wh_proper s Hs)|exact (wh_tol s Hs)].
Qed.
(** A point of Bingham's fluid and a Von Mises point, with stresses and velocities, in the lowest cell above a floor. *)
Example x_C156_walls : forall uf fill, exists (s s' : state R) tr' S0, whole s /\ sol0 (sL s) = Ok S0 /\ Forall usual (cloud (sP s) (sL s)) /\
  (forall k, (k < 1)%nat -> let B := z_run uf (s_rho S0) k (sP s) (sG s) (cloud (sP s) (sL s)) in
    well_fed (sP s) B /\ Forall (fun q => in_dom (pG (sP s)) (z_x q)) B) /\
  after uf fill 1 s [] = Ok (s', tr') /\ length (cloud (sP s) (sL s)) = 2%nat /\
  a_open (ambient_at uf (s_rho S0) 0 (sP s) (sG s)) AY 0 = 0 /\ hat (pG (sP s)) (mkV3 (1/2) (1/2) 0) 0 = 1/4 /\ Forall (fun q => z_x q = mkV3 (1/2) (1/2) 0) (cloud (sP s) (sL s)).
Proof.
  intros uf fill. destruct (grid_init_ok ex_gridp floored ex_proper) as (G & EG & OK).
  set (s := mkState (ex_params floored) G [mix_phase Bingham (1/2); mix_phase VonMises (1/2)]).
  assert (W : whole s).
  { constructor; try reflexivity; try (cbn; unfold lit; unR; lra); try assumption.
    - exact ex_proper.
    - intros ph [<-|[<-|[]]]; cbn [s_law ph_sol mix_phase mix_solid]; try exact I; intros p [<-|[]]; reflexivity.
    - intros ph p [<-|[<-|[]]] [<-|[]]; eexists; reflexivity.
    - repeat split; reflexivity.
    - left. reflexivity. }
  assert (V : provided s).
  { constructor; try reflexivity; try (cbn; unfold lit; unR; lra).
    - intros ph [<-|[<-|[]]]; reflexivity.
    - exists (mix_solid Bingham). split; [reflexivity|]. intros ph [<-|[<-|[]]]; apply mix_equipped; cbn; tauto.
    - intros ph [<-|[<-|[]]] K; discriminate K. }
  assert (D : Forall (fun q => in_dom (pG (sP s)) (z_x q) /\ (p_check (sP s) = true -> vz (z_x q) = 0)) (cloud (sP s) (sL s))) by (repeat constructor; cbn; unR; lra).
  destruct (p_C102_total uf fill 1 s [] (mix_solid Bingham) W V eq_refl) as (s' & tr' & E & _); [intros [|j] Hj; [exact D|lia]|].
  exists s, s', tr', (mix_solid Bingham). split; [exact W|]. split; [reflexivity|].
  split; [repeat constructor|]. split; [|split; [exact E|split; [reflexivity|split; [|split; [|repeat constructor]]]]].
  - intros [|j] Hj; [|lia]. cbn [z_run]. cbv zeta. split; [|apply (Forall_impl _ (fun q X => proj1 X) D)].
    intros q k Hq Hk HN. change (pG (sP s)) with (ex_gridp (T := R)) in *. change (nx (ex_gridp (T := R)) * ny (ex_gridp (T := R)))%nat with 12%nat in Hk.
    assert (QX : z_x q = mkV3 (1/2) (1/2) 0) by (destruct Hq as [<-|[<-|[]]]; reflexivity). rewrite QX in HN.
    replace (Rsum (map (fun q => z_m q * hat ex_gridp (z_x q) k) (cloud (sP s) (sL s)))) with (4 * hat (ex_gridp (T := R)) (mkV3 (1/2) (1/2) 0) k).
    2:{ cbn - [hat]. change (mkV3 (1/2) (1/2) n0) with (mkV3 (1/2) (1/2) 0). unR. ring. }
    replace (p_Mtol (sP s)) with (1/1000) by (cbn; unfold lit; unR; lra).
    assert (N : nth k [1; 1; 0; 0; 1; 1; 0; 0; 0; 0; 0; 0] 0 <> 0).
    { intros Z. destruct HN as [HN|[a HN]]; [|apply HN, ghatM; try assumption; lra]. apply HN. rewrite (hatM (1/2) k) by (try assumption; lra). clear HN. do 12 (destruct k as [|k]; [cbn in Z |- *; lra|]). lia. }
    rewrite (hatM (1/2) k) by (try assumption; lra). clear HN. do 12 (destruct k as [|k]; [cbn in N |- *; lra|]). lia.
  - destruct (p_C10_wall_masks R Num_R ex_gridp floored G EG) with (k := 0%nat) as (X & _ & _); [repeat split; reflexivity|cbn; lia|].
    cbn [ambient_at ambient_of a_open clock s sP sG]. unfold passes, removed. rewrite (proj2 X); [reflexivity|]. left. split; reflexivity.
  - change (pG (sP s)) with (ex_gridp (T := R)). rewrite (hatM (1/2) 0) by (lra || lia). cbn. lra.
Qed.
