(** * The order of the materials: C139. *)
From Coq Require Import ZArith Reals List Bool Arith Lra Lia Permutation.
From RecordUpdate Require Import RecordUpdate.
From Verif Require Import State NumR Spec SpecLaws SpecStep SpecScheme LibList LibR ModelGrid ModelConstit ModelParticle ModelMPList
  ModelIntegr ModelMain ProofsGrid ProofsMap ProofsP2G ProofsWalls ProofsLaws ProofsInOut ProofsHist Concrete
  ThmMapping ThmWalls ThmLaws ThmInOut ThmHist ProofsStep ProofsPoints ThmStep ThmBalance ThmEnergy ThmFall ThmGeo ProofsScheme ThmScheme ThmAngular.
Import ListNotations.
Local Open Scope R_scope.

Lemma Rsum_perm {A} (f : A -> R) l l' : Permutation l l' -> Rsum (map f l) = Rsum (map f l').
Proof. intros H. induction H; unfold Rsum in *; cbn in *; lra. Qed.
Lemma t_mass_perm E B B' k : Permutation B B' -> t_mass E B k = t_mass E B' k.
Proof. intros H. apply Rsum_perm, H. Qed.
Lemma t_vel_perm E B B' a k : Permutation B B' -> t_vel E B a k = t_vel E B' a k.
Proof. intros H. unfold t_vel. rewrite (t_mass_perm E B B' k H), (Rsum_perm _ B B' H). reflexivity. Qed.
Lemma t_strained_perm E B B' q : Permutation B B' -> t_strained E B q = t_strained E B' q.
Proof.
  intros H. assert (X : t_strain E B q = t_strain E B' q); [|unfold t_strained; rewrite X; reflexivity].
  assert (Y : forall a b, fsum (e_nodes E) (fun k => (t_vel E B a k * ghat (e_P E) (q_x q) b k + t_vel E B b k * ghat (e_P E) (q_x q) a k) / 2) = fsum (e_nodes E) (fun k => (t_vel E B' a k * ghat (e_P E) (q_x q) b k + t_vel E B' b k * ghat (e_P E) (q_x q) a k) / 2)).
  { intros a b. apply fsum_ext. intros k _. rewrite !(t_vel_perm E B B' _ k H). reflexivity. }
  unfold t_strain, m3. rewrite !Y. reflexivity.
Qed.
Lemma t_acc_perm E B B' C C' a k : Permutation B B' -> Permutation C C' -> t_acc E B C a k = t_acc E B' C' a k.
Proof. intros H K. unfold t_acc, t_force. rewrite (t_mass_perm E B B' k H), (Rsum_perm _ C C' K). reflexivity. Qed.
Lemma t_step_perm E B B' : Permutation B B' -> Permutation (t_step E B) (t_step E B').
Proof.
  intros H. unfold t_step.
  assert (S1 : Permutation (map (t_strained E B) B) (map (t_strained E B') B')).
  { rewrite (map_ext (t_strained E B) (t_strained E B')) by (intros q; apply t_strained_perm, H). apply Permutation_map, H. }
  rewrite (map_ext (t_moved E B (map (t_strained E B) B)) (t_moved E B' (map (t_strained E B') B'))); [apply Permutation_map, S1|].
  intros q. unfold t_moved, v3. f_equal; f_equal; f_equal; f_equal; apply fsum_ext; intros k _; rewrite ?(t_vel_perm E B B' _ k H), (t_acc_perm E B B' _ _ _ k H S1); reflexivity.
Qed.
Lemma t_run_perm uf n : forall P G B B', Permutation B B' -> Permutation (t_run uf n P G B) (t_run uf n P G B').
Proof. induction n as [|n IH]; intros P G B B' H; [exact H|]. cbn [t_run]. apply IH, t_step_perm, H. Qed.
Lemma step_mask E E' B : e_P E = e_P E' -> e_dt E = e_dt E' -> e_tol E = e_tol E' -> e_damp E = e_damp E' -> e_g E = e_g E' -> e_open E = e_open E' -> t_step E B = t_step E' B.
Proof. destruct E, E'. cbn. intros; subst. reflexivity. Qed.

(** ** C139 *)
(** Points can be listed in any order, and shared out among the materials in
    any way, as long as they keep their properties and those of the first
    material stay in the first material. *)
Lemma p_C139_regroup : forall uf fill fill' n (s t : state R) tr tr', plain s -> plain t -> sP t = sP s -> sG t = sG s -> Permutation (bodies (sL s)) (bodies (sL t)) ->
  (forall P, no_surface (sP s) (uf P)) ->
  (forall j, (j < n)%nat -> Forall (fun q => in_dom (pG (sP s)) (q_x q) /\ (p_check (sP s) = true -> vz (q_x q) = 0)) (t_run uf j (sP s) (sG s) (bodies (sL s)))) ->
  exists s' sr t' tr'', after uf fill n s tr = Ok (s', sr) /\ after uf fill' n t tr' = Ok (t', tr'') /\ Permutation (bodies (sL s')) (bodies (sL t')).
Proof.
  intros uf fill fill' n s t tr tr' Hs Ht EP EG HB HN HD.
  destruct (p_C84_run uf fill n s tr Hs HN HD) as (s' & sr & E1 & _ & B1).
  destruct (p_C84_run uf fill' n t tr' Ht) as (t' & tr2 & E2 & _ & B2).
  - rewrite EP. exact HN.
  - intros j Hj. rewrite EP, EG. eapply Permutation_Forall; [|exact (HD j Hj)]. apply t_run_perm, HB.
  - exists s', sr, t', tr2. split; [exact E1|]. split; [exact E2|]. rewrite B1, B2, EP, EG. apply t_run_perm, HB.
Qed.

(** The momentum of a body without stress that is at rest, after one step. *)
Lemma rest_push E B a : (forall a k, e_open E a k = 1) -> 0 <= e_tol E -> e_damp E = 1 ->
  (forall q, In q B -> q_v q = v0 /\ q_s q = m0 /\ exists K G, q_mat q = Solid K G) -> (forall k q, (k < e_nodes E)%nat -> In q B -> t_mass E B k <= e_tol E -> hat (e_P E) (q_x q) k = 0) ->
  (forall q, In q B -> fsum (e_nodes E) (hat (e_P E) (q_x q)) = 1) ->
  Rsum (map (fun q => q_m q * comp a (q_v q)) (t_step E B)) = e_dt E * Rsum (map (fun q => q_m q * comp a (if q_first q then e_g E else q_b q)) B).
Proof.
  intros HO HT HDm HR HH HS.
  assert (HV : forall q, In q B -> q_v q = v0) by (intros q Hq; apply (HR q Hq)).
  set (acc := t_acc E B (map (t_strained E B) B)).
  transitivity (Rsum (map (fun q => e_dt E * (q_m q * seen E q (acc a))) B)).
  { unfold t_step. rewrite !map_map. apply Rsum_ext. intros q Hq. cbn [t_moved t_strained q_m q_v q_x]. unfold seen. fold acc. rewrite (HV q Hq). destruct a; cbn; ring. }
  rewrite Rsum_scal. f_equal. rewrite (seen_sum E q_m (acc a)).
  transitivity (fsum (e_nodes E) (fun k => Rsum (map (fun q => q_m q * comp a (if q_first q then e_g E else q_b q) * hat (e_P E) (q_x q) k) B))).
  2:{ rewrite fsum_Rsum_swap. apply Rsum_ext. intros q Hq. rewrite fsum_scal, (HS q Hq). ring. }
  apply fsum_ext. intros k Hk. fold (t_mass E B k).
  assert (FF : t_force E (map (t_strained E B) B) a k = Rsum (map (fun q => q_m q * comp a (if q_first q then e_g E else q_b q) * hat (e_P E) (q_x q) k) B)).
  { unfold t_force. rewrite map_map. apply Rsum_ext. intros q Hq. destruct (HR q Hq) as (_ & ES & K & G & EM). cbn [t_strained q_m q_b q_x q_V q_s].
    rewrite (rest_strain E B q HV), (still_stress E q K G EM), ES. unfold over. destruct a; cbn; unR; ring. }
  unfold acc, t_acc. rewrite FF, HO, HDm. destruct (Rlt_dec (e_tol E) (t_mass E B k)) as [L|L]; [field; lra|].
  rewrite Rsum_zero; [ring|]. intros q Hq. rewrite (HH k q Hk Hq) by lra. ring.
Qed.
(** Two materials at rest, of different mass, that are listed in one order and in the other. *)
Definition light : particle R := ex_particle (1/4) (1/4) v0 m0.
Definition heavy_pt : particle R := ex_particle (3/4) (1/2) v0 m0 <| pm := 4 |>.
Definition one_way : list (phase R) := [mkPhase (stuff 3 2) 1 v0 [light]; mkPhase (stuff 6 4) 1 v0 [heavy_pt]].
Definition other_way : list (phase R) := [mkPhase (stuff 6 4) 1 v0 [heavy_pt]; mkPhase (stuff 3 2) 1 v0 [light]].
Definition falling (_ : params R) : loads R := mkLoads (-1) 0 0 0.
Lemma way_plain G L : grid_ok ex_gridp G -> L = one_way \/ L = other_way -> plain (pair_state G L).
Proof.
  intros OK HL. constructor; try assumption; try reflexivity; try (cbn; lra).
  - exact ex_proper.
  - destruct HL as [-> | ->]; intros ph [<-|[<-|[]]]; reflexivity.
  - destruct HL as [-> | ->]; intros ph [<-|[<-|[]]]; left; reflexivity.
  - destruct HL as [-> | ->]; eexists; (split; [reflexivity|]); intros ph [<-|[<-|[]]]; unfold equipped, has; cbn; split; discriminate.
  - destruct HL as [-> | ->]; intros ph p [<-|[<-|[]]] [<-|[]]; eexists; reflexivity.
  - repeat split; reflexivity.
  - left; reflexivity.
Qed.
Lemma way_inside L : L = one_way \/ L = other_way -> Forall (fun q => in_dom (ex_gridp (T := R)) (q_x q) /\ (p_check (ex_params (T := R) ex_bounds) = true -> vz (q_x q) = 0)) (bodies L).
Proof. intros [-> | ->]; repeat constructor; cbn; try (unR; lra); try reflexivity. Qed.
Lemma way_falls G L : wall_free (bv G) (bh G) -> L = one_way \/ L = other_way ->
  Rsum (map (fun q => q_m q * comp AY (q_v q)) (t_step (scheme_of (ex_params ex_bounds) (mkLoads (-1) 0 0 0) G) (bodies L))) = - (1/10) * (match L with ph :: _ => match ph_pts ph with p :: _ => pm p | _ => 0 end | _ => 0 end).
Proof.
  intros HW HL. set (E := scheme_of _ _ _).
  assert (HO : forall a k, e_open E a k = 1) by (intros a k; cbn [E scheme_of e_open]; unfold passes; destruct (HW k) as [V1 V2]; rewrite V1, V2; destruct a; reflexivity).
  rewrite (rest_push E (bodies L) AY HO); [| | |  | |].
  - change (e_dt E) with (1 / 10). destruct HL as [-> | ->]; cbn; unR; rewrite cos_0; lra.
  - cbn. lra.
  - reflexivity.
  - destruct HL as [-> | ->]; intros q [<-|[<-|[]]]; (split; [reflexivity|]); (split; [reflexivity|]); eexists; eexists; reflexivity.
  - intros k q Hk Hq HT. change (e_nodes E) with 12%nat in Hk. change (e_tol E) with (1 / 1000) in HT.
    assert (M : t_mass E (bodies L) k = nth k [13/8; 15/8; 0; 0; 7/8; 13/8; 0; 0; 0; 0; 0; 0] 0).
    { destruct HL as [-> | ->]; unfold t_mass; cbn - [nth hat]; rewrite (hat1 k Hk), (hat2 k Hk); do 12 (destruct k as [|k]; [cbn; unR; lra|]); lia. }
    rewrite M in HT. assert (Q : q_x q = mkV3 (1/4) (1/4) 0 \/ q_x q = mkV3 (3/4) (1/2) 0) by (destruct HL as [-> | ->]; destruct Hq as [<-|[<-|[]]]; auto).
    destruct Q as [-> | ->]; change (e_P E) with (ex_gridp (T := R)); [rewrite (hat1 k Hk)|rewrite (hat2 k Hk)]; do 12 (destruct k as [|k]; [cbn in *; lra|]); lia.
  - intros q Hq. assert (Q : q_x q = mkV3 (1/4) (1/4) 0 \/ q_x q = mkV3 (3/4) (1/2) 0) by (destruct HL as [-> | ->]; destruct Hq as [<-|[<-|[]]]; auto).
    change (e_nodes E) with 12%nat. change (e_P E) with (ex_gridp (T := R)).
    destruct Q as [-> | ->]; [rewrite (fsum_ext 12 _ _ hat1)|rewrite (fsum_ext 12 _ _ hat2)]; cbn; lra.
Qed.
(** The same points, with the two materials in the other order: they fall at another speed. *)
Lemma p_C139_order_refuted : forall fill, exists (s t s' t' : state R) tr tr', plain s /\ plain t /\ sP t = sP s /\ sG t = sG s /\ sL t = rev (sL s) /\
  after falling fill 1 s [] = Ok (s', tr) /\ after falling fill 1 t [] = Ok (t', tr') /\
  Rsum (map (fun q => q_m q * comp AY (q_v q)) (bodies (sL s'))) = - (2/10) /\ Rsum (map (fun q => q_m q * comp AY (q_v q)) (bodies (sL t'))) = - (4/10).
Proof.
  intros fill. destruct (grid_init_ok ex_gridp ex_bounds ex_proper) as (G & EG & OK). pose proof (no_walls G EG OK) as HW.
  assert (R1 : forall L, L = one_way \/ L = other_way -> exists s' tr, after falling fill 1 (pair_state G L) [] = Ok (s', tr) /\
    bodies (sL s') = t_step (scheme_of (ex_params ex_bounds) (mkLoads (-1) 0 0 0) G) (bodies L)).
  { intros L HL. destruct (p_C84_run falling fill 1 (pair_state G L) [] (way_plain G L OK HL)) as (s' & tr & E & _ & EB);
      [intros P; split; discriminate|intros [|j] Hj; [exact (way_inside L HL)|lia]|]. exists s', tr. split; [exact E|exact EB]. }
  destruct (R1 one_way (or_introl eq_refl)) as (s' & tr & E1 & B1). destruct (R1 other_way (or_intror eq_refl)) as (t' & tr' & E2 & B2).
  exists (pair_state G one_way), (pair_state G other_way), s', t', tr, tr'.
  split; [apply way_plain; auto|]. split; [apply way_plain; auto|]. split; [reflexivity|]. split; [reflexivity|]. split; [reflexivity|]. split; [exact E1|]. split; [exact E2|].
  rewrite B1, B2, !(way_falls G) by auto. cbn. unR. lra.
Qed.
(** Two groups of points of one material, behind a first material, become one group listed the other way round. *)
Example x_C139_regroup : forall fill, exists (s t s' t' : state R) tr tr', plain s /\ plain t /\ length (sL s) = 3%nat /\ length (sL t) = 2%nat /\
  after falling fill 1 s [] = Ok (s', tr) /\ after falling fill 1 t [] = Ok (t', tr') /\ bodies (sL s) <> bodies (sL t) /\ Permutation (bodies (sL s')) (bodies (sL t')).
Proof.
  intros fill. destruct (grid_init_ok ex_gridp ex_bounds ex_proper) as (G & EG & OK).
  set (third := ex_particle (5/2) (3/2) v0 m0 : particle R).
  set (L := [mkPhase (stuff 3 2) 1 v0 [light]; mkPhase (stuff 6 4) 1 v0 [heavy_pt]; mkPhase (stuff 6 4) 1 v0 [third]] : list (phase R)).
  set (L' := [mkPhase (stuff 3 2) 1 v0 [light]; mkPhase (stuff 6 4) 2 v0 [third; heavy_pt]] : list (phase R)).
  assert (P1 : plain (pair_state G L)).
  { constructor; try assumption; try reflexivity; try (cbn; lra).
    - exact ex_proper.
    - intros ph [<-|[<-|[<-|[]]]]; reflexivity.
    - intros ph [<-|[<-|[<-|[]]]]; left; reflexivity.
    - eexists; (split; [reflexivity|]); intros ph [<-|[<-|[<-|[]]]]; unfold equipped, has; cbn; split; discriminate.
    - intros ph p [<-|[<-|[<-|[]]]] [<-|[]]; eexists; reflexivity.
    - repeat split; reflexivity.
    - left; reflexivity. }
  assert (P2 : plain (pair_state G L')).
  { constructor; try assumption; try reflexivity; try (cbn; lra).
    - exact ex_proper.
    - intros ph [<-|[<-|[]]]; reflexivity.
    - intros ph [<-|[<-|[]]]; left; reflexivity.
    - eexists; (split; [reflexivity|]); intros ph [<-|[<-|[]]]; unfold equipped, has; cbn; split; discriminate.
    - intros ph p [<-|[<-|[]]] [<-|Hp]; [eexists; reflexivity|destruct Hp|eexists; reflexivity|destruct Hp as [<-|[]]; eexists; reflexivity].
    - repeat split; reflexivity.
    - left; reflexivity. }
  assert (HP : Permutation (bodies L) (bodies L')) by (cbn; apply perm_skip, perm_swap).
  destruct (p_C139_regroup falling fill fill 1 (pair_state G L) (pair_state G L') [] [] P1 P2 eq_refl eq_refl HP) as (s' & tr & t' & tr' & E1 & E2 & HQ).
  - intros P; split; discriminate.
  - intros [|j] Hj; [|lia]. cbn [t_run]. repeat constructor; cbn; try (unR; lra); try reflexivity.
  - exists (pair_state G L), (pair_state G L'), s', t', tr, tr'.
    split; [exact P1|]. split; [exact P2|]. split; [reflexivity|]. split; [reflexivity|]. split; [exact E1|]. split; [exact E2|]. split; [|exact HQ].
    intros K. apply (f_equal (fun l => match l with _ :: q :: _ => q_m q | _ => 0 end)) in K. cbn in K. revert K. unR. lra.
Qed.
