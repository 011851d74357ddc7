(** * A small shift of a point: C147. *)
From Coq Require Import ZArith Reals List Bool Arith Lra Lia.
From RecordUpdate Require Import RecordUpdate.
From Verif Require Import State NumR Spec SpecLaws SpecStep SpecScheme SpecView LibList LibR ModelGrid ModelConstit ModelParticle ModelMPList
  ModelIntegr ModelMain ProofsGrid ProofsMap ProofsP2G ProofsWalls ProofsLaws ProofsInOut ProofsHist Concrete
  ThmMapping ThmWalls ThmLaws ThmInOut ThmHist ProofsStep ProofsPoints ThmStep ThmBalance ThmEnergy ThmFall ThmGeo ProofsScheme ProofsView ThmScheme ThmView ThmSpin ThmAngular ThmBeat ThmObserver ThmSilent ThmCells ThmMerge.
Import ListNotations.
Local Open Scope R_scope.

(** The phases after every point has been put at another place. *)
Definition put_at (f : particle R -> V3 R) (L : list (phase R)) : list (phase R) :=
  map (fun ph => ph <| ph_pts := map (fun p => p <| px := f p |>) (ph_pts ph) |>) L.
Lemma psum_put f L (c : particle R -> R) : psum (put_at f L) (fun _ p => c p) = psum L (fun _ p => c (p <| px := f p |>)).
Proof.
  unfold psum, put_at. rewrite map_map. f_equal. apply map_ext. intros ph. unfold live. cbn [ph_n ph_pts set]. destruct ph as [a n b l]. cbn. rewrite firstn_map, map_map. reflexivity.
Qed.
Lemma psum_abs L c : Rabs (psum L c) <= psum L (fun ph p => Rabs (c ph p)).
Proof.
  rewrite !psum_flat. generalize (flat_map (fun ph => map (pair ph) (live ph)) L) as l. induction l as [|a l IH]; [cbn; rewrite Rabs_R0; lra|]. cbn [map Rsum fold_right]. eapply Rle_trans; [apply Rabs_triang|]. apply Rplus_le_compat_l. exact IH.
Qed.
(** ** C147 *)
(** The mass that a node gets changes by at most [eps (1/dx + 1/dy)] times the mass of
    the body, when every point is moved by at most [eps] along each axis. *)
Lemma p_C147_mass : forall P G H L L1 L2 G' M1 M2 H' (f : particle R -> V3 R) eps,
  proper (pG P) -> grid_ok (pG P) G -> grid_ok (pG P) H -> all_live L (fun _ p => in_dom (pG P) (px p)) -> all_live (put_at f L) (fun _ p => in_dom (pG P) (px p)) ->
  ref_nodes P (wipe P G) L = Ok L1 -> basis_all (wipe P G) L1 = Ok L2 -> p2g_all P L2 (wipe P G) = Ok G' ->
  ref_nodes P (wipe P H) (put_at f L) = Ok M1 -> basis_all (wipe P H) M1 = Ok M2 -> p2g_all P M2 (wipe P H) = Ok H' ->
  all_live L (fun _ p => 0 <= pm p /\ Rabs (vx (px p) - vx (f p)) <= eps /\ Rabs (vy (px p) - vy (f p)) <= eps) ->
  forall k, (k < nodes (pG P))%nat -> Rabs (nth k (gm G') 0 - nth k (gm H') 0) <= eps * (/ cell_w (pG P) + / cell_h (pG P)) * psum L (fun _ p => pm p).
Proof.
  intros P G H L L1 L2 G' M1 M2 H' f eps HP OG OH DL DM R1 R2 R3 Q1 Q2 Q3 HE k Hk.
  destruct (p_C04_nodal_mass P G L L1 L2 G' HP OG DL R1 R2 R3) as [_ EL]. destruct (p_C04_nodal_mass P H (put_at f L) M1 M2 H' HP OH DM Q1 Q2 Q3) as [_ EM].
  rewrite (EL k Hk), (EM k Hk). pose proof (cell_w_pos _ HP) as W. pose proof (cell_h_pos _ HP) as Hh.
  pose proof (psum_put f L (fun p => pm p * (tent ((vx (px p) - node_x (pG P) k) / cell_w (pG P)) * tent ((vy (px p) - node_y (pG P) k) / cell_h (pG P))))) as X. cbv beta in X. rewrite X. clear X.
  match goal with |- Rabs (psum L ?c - psum L ?d) <= _ => replace (psum L c - psum L d) with (psum L (fun ph p => c ph p + -1 * d ph p)) by (rewrite psum_plus, psum_scal; ring) end.
  eapply Rle_trans; [apply psum_abs|]. rewrite <- psum_scal. apply psum_le. intros ph p Hph Hp. destruct (HE ph p Hph Hp) as (E0 & E1 & E2).
  pose proof (hat_near (pG P) (px p) (f p) k HP) as N. unfold hat in N.
  replace (pm p * (tent ((vx (px p) - node_x (pG P) k) / cell_w (pG P)) * tent ((vy (px p) - node_y (pG P) k) / cell_h (pG P))) + -1 * (pm (p <| px := f p |>) * (tent ((vx (px (p <| px := f p |>)) - node_x (pG P) k) / cell_w (pG P)) * tent ((vy (px (p <| px := f p |>)) - node_y (pG P) k) / cell_h (pG P)))))
    with (pm p * (tent ((vx (px p) - node_x (pG P) k) / cell_w (pG P)) * tent ((vy (px p) - node_y (pG P) k) / cell_h (pG P)) - tent ((vx (f p) - node_x (pG P) k) / cell_w (pG P)) * tent ((vy (f p) - node_y (pG P) k) / cell_h (pG P)))) by (destruct p; cbn; ring).
  rewrite Rabs_mult, (Rabs_right (pm p)) by lra. rewrite (Rmult_comm _ (pm p)). apply Rmult_le_compat_l; [exact E0|]. eapply Rle_trans; [exact N|]. unfold Rdiv.
  pose proof (Rinv_0_lt_compat _ W). pose proof (Rinv_0_lt_compat _ Hh). rewrite Rmult_plus_distr_l. apply Rplus_le_compat; apply Rmult_le_compat_r; lra.
Qed.

(** A stressed elastic point at rest, near the second column of nodes. *)
Definition perched (d t : R) : list (phase R) := [mkPhase (stuff 3 2) 1 v0 [ex_particle (1 - d) (1/2) v0 (mkM3 t 0 0 0 0 0 0 0 0)]].
Lemma perched_plain G d t : grid_ok ex_gridp G -> plain (pair_state G (perched d t)).
Proof.
  intros OK. constructor; try assumption; try reflexivity; try (cbn; lra).
  - exact ex_proper.
  - intros ph [<-|[]]. reflexivity.
  - intros ph [<-|[]]. left. reflexivity.
  - eexists. split; [reflexivity|]. intros ph [<-|[]]. unfold equipped, has. cbn. split; discriminate.
  - intros ph p [<-|[]] [<-|[]]; eexists; reflexivity.
  - repeat split; reflexivity.
  - left; reflexivity.
Qed.
Lemma perched_inside d t : 0 <= d < 1 -> Forall (fun q => in_dom (ex_gridp (T := R)) (q_x q) /\ (p_check (ex_params (T := R) ex_bounds) = true -> vz (q_x q) = 0)) (bodies (perched d t)).
Proof. intros Hd. repeat constructor; cbn; try (unR; lra); try reflexivity. Qed.
Lemma perched_step G d t l : 0 <= d < 1/1000 -> wall_free (bv G) (bh G) ->
  (forall k, (k < 12)%nat -> hat (ex_gridp (T := R)) (mkV3 (1 - d) (1/2) 0) k = nth k [d/2; (1 - d)/2; 0; 0; d/2; (1 - d)/2; 0; 0; 0; 0; 0; 0] 0) ->
  (forall k, k = 1%nat \/ k = 5%nat -> ghat (ex_gridp (T := R)) (mkV3 (1 - d) (1/2) 0) AX k = l / 2) ->
  map q_v (t_step (scheme_of (ex_params ex_bounds) (mkLoads 0 0 0 0) G) (bodies (perched d t))) = [mkV3 (- l * (1/10) * t / 2) 0 0].
Proof.
  intros Hd HW HH HG. set (E := scheme_of _ _ _). set (B := bodies (perched d t)).
  assert (HO : forall a k, e_open E a k = 1) by (intros; apply free_open, HW).
  assert (RE : forall q, In q B -> q_v q = v0) by (intros q [<-|[]]; reflexivity).
  assert (EG0 : e_g E = v0) by (cbn [E scheme_of e_g ld_g ld_theta]; rewrite !Rmult_0_l; reflexivity).
  set (B1 := map (t_strained E B) B).
  assert (EB1 : B1 = map (fun q => mkMp (q_mat q) (q_m q) (q_V q) (q_x q) (q_v q) (mkM3 t 0 0 0 0 0 0 0 0) (t_pressure q (m3 (fun _ _ => 0))) v0 (q_first q)) B).
  { unfold B1. apply map_ext_in. intros q Hq. unfold t_strained. rewrite (rest_strain E B q RE). rewrite (still_stress E q 3 2) by (destruct Hq as [<-|[]]; reflexivity). rewrite EG0. destruct Hq as [<-|[]]; reflexivity. }
  assert (M : forall k, (k < 12)%nat -> t_mass E B k = nth k [d; 1 - d; 0; 0; d; 1 - d; 0; 0; 0; 0; 0; 0] 0).
  { intros k Hk. unfold t_mass. cbn - [nth hat]. rewrite (HH k Hk). do 12 (destruct k as [|k]; [cbn; unR; lra|]). lia. }
  assert (F : forall a k, t_force E B1 a k = match a with AX => - (t * ghat (ex_gridp (T := R)) (mkV3 (1 - d) (1/2) 0) AX k) | _ => 0 end).
  { intros a k. rewrite EB1. unfold t_force. rewrite map_map. unfold over. destruct a; cbn - [hat ghat]; unR; lra. }
  assert (AC : forall a k, (k < 12)%nat -> t_acc E B B1 a k = match a with AX => nth k [0; - (t * l / 2) / (1 - d); 0; 0; 0; - (t * l / 2) / (1 - d); 0; 0; 0; 0; 0; 0] 0 | _ => 0 end).
  { intros a k Hk. unfold t_acc. rewrite (M k Hk), HO, F. change (e_tol E) with (1/1000). change (e_damp E) with 1.
    destruct a; [|destruct (Rlt_dec _ _); [unfold Rdiv; ring|reflexivity]..].
    do 12 (destruct k as [|k]; [try (rewrite HG by auto); cbn - [ghat]; destruct (Rlt_dec _ _); try lra; field; lra|]). lia. }
  assert (S : forall a, fsum 12 (fun k => hat (ex_gridp (T := R)) (mkV3 (1 - d) (1/2) 0) k * t_acc E B B1 a k) = match a with AX => - (t * l / 2) | _ => 0 end).
  { intros []; [rewrite (fsum_ext 12 _ (fun k => nth k [d/2; (1 - d)/2; 0; 0; d/2; (1 - d)/2; 0; 0; 0; 0; 0; 0] 0 * nth k [0; - (t * l / 2) / (1 - d); 0; 0; 0; - (t * l / 2) / (1 - d); 0; 0; 0; 0; 0; 0] 0)); [cbn; field; lra|intros k Hk; rewrite (AC AX k Hk), (HH k Hk); reflexivity]
      |apply fsum_zero; intros k Hk; rewrite AC by exact Hk; ring..]. }
  transitivity (map (fun q => v3 (fun a => comp a (q_v q) + 1/10 * fsum 12 (fun k => hat (ex_gridp (T := R)) (q_x q) k * t_acc E B B1 a k))) B).
  { unfold t_step. fold B1. unfold B1 at 2. rewrite !map_map. reflexivity. }
  clear - S. clearbody B1. set (A := t_acc E B B1) in *. clearbody A. subst B. unfold v3.
  cbn [perched bodies bodies_from live ph_pts ph_n map app firstn mp_of q_v q_x velocity px ex_particle]. change (mkV3 (1 - d) (1/2) n0) with (mkV3 (1 - d) (1/2) 0). rewrite !S. cbn. unR. f_equal; f_equal; field.
Qed.
(** A stressed point at rest, on a column of nodes or next to it: a shift as small as one
    likes turns the velocity round that it gets in a step. *)
Lemma p_C147_jump_refuted : forall fill t eps, t <> 0 -> 0 < eps < 1/1000 -> exists (s u s' u' : state R) tr tr', plain s /\ plain u /\ sP u = sP s /\ sG u = sG s /\ wall_free (bv (sG s)) (bh (sG s)) /\
  Forall (fun q => in_dom (pG (sP s)) (q_x q)) (bodies (sL s)) /\ Forall (fun q => in_dom (pG (sP u)) (q_x q)) (bodies (sL u)) /\
  bodies (sL s) = map (slid eps) (bodies (sL u)) /\ after calm fill 1 s [] = Ok (s', tr) /\ after calm fill 1 u [] = Ok (u', tr') /\
  map q_v (bodies (sL s')) = [mkV3 (1/10 * t / 2) 0 0] /\ map q_v (bodies (sL u')) = [mkV3 (- (1/10 * t / 2)) 0 0].
Proof.
  intros fill t eps Ht He. destruct (grid_init_ok ex_gridp ex_bounds ex_proper) as (G & EG & OK). pose proof (no_walls G EG OK) as HW.
  destruct (p_C84_run calm fill 1 (pair_state G (perched 0 t)) [] (perched_plain G 0 t OK)) as (s' & tr & E & _ & EB); [intros P; split; discriminate|intros [|j] Hj; [exact (perched_inside 0 t ltac:(lra))|lia]|].
  destruct (p_C84_run calm fill 1 (pair_state G (perched eps t)) [] (perched_plain G eps t OK)) as (u' & tr' & E' & _ & EB'); [intros P; split; discriminate|intros [|j] Hj; [exact (perched_inside eps t ltac:(lra))|lia]|].
  exists (pair_state G (perched 0 t)), (pair_state G (perched eps t)), s', u', tr, tr'. split; [apply perched_plain, OK|]. split; [apply perched_plain, OK|]. split; [reflexivity|]. split; [reflexivity|]. split; [exact HW|].
  split; [eapply Forall_impl; [|exact (perched_inside 0 t ltac:(lra))]; intros q H; exact (proj1 H)|]. split; [eapply Forall_impl; [|exact (perched_inside eps t ltac:(lra))]; intros q H; exact (proj1 H)|].
  split; [|split; [exact E|split; [exact E'|split]]].
  - cbn. unfold slid, mp_of. cbn. replace (1 - eps + eps) with (1 - 0) by ring. reflexivity.
  - rewrite EB. cbn [t_run]. etransitivity; [apply (perched_step G 0 t (-1) ltac:(lra) HW)|].
    + intros k Hk. rewrite (Rminus_0_r 1), (hat_on k Hk). do 12 (destruct k as [|k]; [cbn; lra|]). lia.
    + intros k Hk. rewrite (Rminus_0_r 1). destruct Hk as [-> | ->]; rewrite gx_on by lia; cbn; lra.
    + f_equal; f_equal; lra.
  - rewrite EB'. cbn [t_run]. etransitivity; [apply (perched_step G eps t 1 ltac:(lra) HW)|].
    + intros k Hk. rewrite (hat_d (1 - eps) k) by (assumption || lra). do 12 (destruct k as [|k]; [cbn; lra|]). lia.
    + intros k Hk. destruct Hk as [-> | ->]; rewrite gx_d by (lia || lra); cbn; lra.
    + f_equal; f_equal; lra.
Qed.
(** The point on the column of nodes, moved by a tenth of a cell. *)
Example x_C147_mass : exists P G L L1 L2 G' M1 M2 H' (f : particle R -> V3 R) eps,
  proper (pG P) /\ grid_ok (pG P) G /\ all_live L (fun _ p => in_dom (pG P) (px p)) /\ all_live (put_at f L) (fun _ p => in_dom (pG P) (px p)) /\
  ref_nodes P (wipe P G) L = Ok L1 /\ basis_all (wipe P G) L1 = Ok L2 /\ p2g_all P L2 (wipe P G) = Ok G' /\
  ref_nodes P (wipe P G) (put_at f L) = Ok M1 /\ basis_all (wipe P G) M1 = Ok M2 /\ p2g_all P M2 (wipe P G) = Ok H' /\
  all_live L (fun _ p => 0 <= pm p /\ Rabs (vx (px p) - vx (f p)) <= eps /\ Rabs (vy (px p) - vy (f p)) <= eps) /\ 0 < eps /\ psum L (fun _ p => pm p) = 2.
Proof.
  destruct (grid_init_ok ex_gridp ex_bounds ex_proper) as (G & EG & OK).
  set (P := ex_params (T := R) ex_bounds). set (f := fun p : particle R => mkV3 (vx (px p) - 1/10) (vy (px p)) 0).
  assert (D1 : all_live (perched 0 1) (fun _ p => in_dom (pG P) (px p))) by (intros ph p [<-|[]] [<-|[]]; unfold in_dom; cbn; unR; lra).
  assert (D2 : all_live (put_at f (perched 0 1)) (fun _ p => in_dom (pG P) (px p))) by (intros ph p [<-|[]] [<-|[]]; unfold in_dom; cbn; unR; lra).
  destruct (p_C04_mapping_total P G (perched 0 1) ex_proper OK D1) as (L1 & L2 & G' & A1 & A2 & A3); [intros ph [<-|[]]; cbn; lia|intros ph p [<-|[]] [<-|[]] K; discriminate K|].
  destruct (p_C04_mapping_total P G (put_at f (perched 0 1)) ex_proper OK D2) as (M1 & M2 & H' & B1 & B2 & B3); [intros ph [<-|[]]; cbn; lia|intros ph p [<-|[]] [<-|[]] K; discriminate K|].
  exists P, G, (perched 0 1), L1, L2, G', M1, M2, H', f, (1/10). repeat (split; [first [exact ex_proper|assumption]|]).
  split; [|split; [lra|cbn; unR; lra]]. intros ph p [<-|[]] [<-|[]]. cbn. unR. repeat split; try lra; apply Rabs_le; lra.
Qed.
