(** * Points at different places stay at different places: C145. *)
From Coq Require Import ZArith Reals List Bool Arith Lra Lia.
From RecordUpdate Require Import RecordUpdate.
From Verif Require Import State NumR Spec SpecLaws SpecStep SpecScheme SpecView LibList LibR ModelGrid ModelConstit ModelParticle ModelMPList
  ModelIntegr ModelMain ProofsGrid ProofsMap ProofsP2G ProofsWalls ProofsLaws ProofsInOut ProofsHist Concrete
  ThmMapping ThmWalls ThmLaws ThmInOut ThmHist ProofsStep ProofsPoints ThmStep ThmBalance ThmEnergy ThmFall ThmGeo ProofsScheme ProofsView ThmScheme ThmView ThmSpin ThmAngular ThmBeat ThmObserver ThmSilent ThmCells.
Import ListNotations.
Local Open Scope R_scope.

(** The place of a point in the plane, and how far a node goes in a step. *)
Definition spot (q : mp) : R * R := (vx (q_x q), vy (q_x q)).
Definition node_goes (E : scheme) (B : list mp) (a : axis) (k : nat) : R :=
  e_dt E * (t_vel E B a k + e_dt E * t_acc E B (map (t_strained E B) B) a k).
Definition goes_by (c : R) (E : scheme) (B : list mp) : Prop := forall a k, (k < e_nodes E)%nat -> Rabs (node_goes E B a k) <= c.

Lemma tent_near s t : Rabs (tent s - tent t) <= Rabs (s - t).
Proof. unfold tent, Rmax, Rabs. repeat (match goal with |- context [Rcase_abs ?a] => destruct (Rcase_abs a) | |- context [Rle_dec ?a ?b] => destruct (Rle_dec a b) end; try lra). Qed.
Lemma tent_range t : 0 <= tent t <= 1.
Proof. unfold tent, Rmax, Rabs. repeat (match goal with |- context [Rcase_abs ?a] => destruct (Rcase_abs a) | |- context [Rle_dec ?a ?b] => destruct (Rle_dec a b) end; try lra). Qed.
Lemma hat_near P x y k : proper P -> Rabs (hat P x k - hat P y k) <= Rabs (vx x - vx y) / cell_w P + Rabs (vy x - vy y) / cell_h P.
Proof.
  intros HP. pose proof (cell_w_pos P HP) as W. pose proof (cell_h_pos P HP) as H. unfold hat.
  set (w := cell_w P) in *. set (h := cell_h P) in *. set (a := node_x P k). set (b := node_y P k).
  pose proof (tent_near ((vx x - a) / w) ((vx y - a) / w)) as A. replace ((vx x - a) / w - (vx y - a) / w) with ((vx x - vx y) * / w) in A by (field; lra).
  pose proof (tent_near ((vy x - b) / h) ((vy y - b) / h)) as B. replace ((vy x - b) / h - (vy y - b) / h) with ((vy x - vy y) * / h) in B by (field; lra).
  rewrite Rabs_mult, (Rabs_right (/ w)) in A by (apply Rle_ge, Rlt_le, Rinv_0_lt_compat, W). rewrite Rabs_mult, (Rabs_right (/ h)) in B by (apply Rle_ge, Rlt_le, Rinv_0_lt_compat, H).
  pose proof (tent_range ((vx x - a) / w)). pose proof (tent_range ((vy y - b) / h)).
  set (s := tent ((vx x - a) / w)) in *. set (s' := tent ((vx y - a) / w)) in *. set (t := tent ((vy x - b) / h)) in *. set (t' := tent ((vy y - b) / h)) in *.
  replace (s * t - s' * t') with ((s - s') * t' + s * (t - t')) by ring. eapply Rle_trans; [apply Rabs_triang|]. rewrite !Rabs_mult, (Rabs_right s), (Rabs_right t') by lra.
  pose proof (Rabs_pos (s - s')). pose proof (Rabs_pos (t - t')). unfold Rdiv. apply Rplus_le_compat; nra.
Qed.
Lemma fsum_abs n f : Rabs (fsum n f) <= fsum n (fun i => Rabs (f i)).
Proof. induction n as [|n IH]; cbn [fsum]; [rewrite Rabs_R0; lra|]. eapply Rle_trans; [apply Rabs_triang|]. lra. Qed.
Lemma hats_near P x y : proper P -> in_dom P x -> in_dom P y ->
  fsum (nodes P) (fun k => Rabs (hat P x k - hat P y k)) <= 8 * (Rabs (vx x - vx y) / cell_w P + Rabs (vy x - vy y) / cell_h P).
Proof.
  intros HP Hx Hy. set (d := Rabs (vx x - vx y) / cell_w P + Rabs (vy x - vy y) / cell_h P).
  assert (D : 0 <= d) by (eapply Rle_trans; [apply Rabs_pos|apply (hat_near P x y 0 HP)]).
  set (near := fun x k => if existsb (Nat.eqb k) (map (corner_node P (cell_node P x)) [0; 1; 2; 3]%nat) then d else 0).
  assert (F : forall z k, (forall r, (r < 4)%nat -> k <> corner_node P (cell_node P z) r) -> near z k = 0).
  { intros z k N. unfold near. destruct (existsb _ _) eqn:X; [|reflexivity]. apply existsb_exists in X. destruct X as (m & I & Q). apply Nat.eqb_eq in Q. subst m. cbn [map] in I.
    destruct I as [I|[I|[I|[I|[]]]]]; [destruct (N 0%nat)|destruct (N 1%nat)|destruct (N 2%nat)|destruct (N 3%nat)]; (lia || symmetry; exact I). }
  assert (T : forall z, in_dom P z -> fsum (nodes P) (near z) <= 4 * d).
  { intros z Hz. rewrite (cell_sum P HP z (near z) Hz (F z)). cbn [fsum]. assert (L : forall k, near z k <= d) by (intros k; unfold near; destruct (existsb _ _); lra).
    pose proof (L (corner_node P (cell_node P z) 0)). pose proof (L (corner_node P (cell_node P z) 1)). pose proof (L (corner_node P (cell_node P z) 2)). pose proof (L (corner_node P (cell_node P z) 3)). lra. }
  apply Rle_trans with (fsum (nodes P) (fun k => near x k + near y k)); [|rewrite fsum_plus; pose proof (T x Hx); pose proof (T y Hy); lra].
  apply fsum_le. intros k Hk. assert (G : forall z, 0 <= near z k) by (intros z; unfold near; destruct (existsb _ _); lra).
  assert (N : forall z, in_dom P z -> near z k = 0 -> d <> 0 -> hat P z k = 0).
  { intros z Hz N0 Hd. apply (hat_far P HP z k Hz). intros r Hr ->. unfold near in N0. destruct (existsb _ _) eqn:X; [exact (Hd N0)|].
    assert (Y : existsb (Nat.eqb (corner_node P (cell_node P z) r)) (map (corner_node P (cell_node P z)) [0; 1; 2; 3]%nat) = true); [|rewrite Y in X; discriminate].
    apply existsb_exists. exists (corner_node P (cell_node P z) r). split; [|apply Nat.eqb_refl]. apply in_map. destruct r as [|[|[|[|r]]]]; cbn; auto; lia. }
  pose proof (hat_near P x y k HP) as A. fold d in A. pose proof (G x). pose proof (G y).
  assert (V : forall z, near z k = d \/ near z k = 0) by (intros z; unfold near; destruct (existsb _ _); auto).
  destruct (V x) as [E1|E1]; [lra|]. destruct (V y) as [E2|E2]; [lra|].
  destruct (Req_dec d 0) as [Z|Z]; [lra|]. rewrite (N x Hx E1 Z), (N y Hy E2 Z), Rminus_0_r, Rabs_R0. lra.
Qed.
(** A map that moves no node by a sixteenth of a cell brings no two places together. *)
Lemma no_merge P (u : axis -> nat -> R) c x y : proper P -> in_dom P x -> in_dom P y -> 16 * c < cell_w P -> 16 * c < cell_h P ->
  (forall a k, (k < nodes P)%nat -> Rabs (u a k) <= c) ->
  vx x + fsum (nodes P) (fun k => hat P x k * u AX k) = vx y + fsum (nodes P) (fun k => hat P y k * u AX k) ->
  vy x + fsum (nodes P) (fun k => hat P x k * u AY k) = vy y + fsum (nodes P) (fun k => hat P y k * u AY k) -> vx x = vx y /\ vy x = vy y.
Proof.
  intros HP Hx Hy CW CH HU EX EY. pose proof (cell_w_pos P HP) as W. pose proof (cell_h_pos P HP) as H.
  set (S := fsum (nodes P) (fun k => Rabs (hat P x k - hat P y k))).
  assert (A : forall a, Rabs (fsum (nodes P) (fun k => hat P x k * u a k) - fsum (nodes P) (fun k => hat P y k * u a k)) <= c * S).
  { intros a. rewrite <- fsum_minus. eapply Rle_trans; [apply fsum_abs|]. unfold S. rewrite <- fsum_scal. apply fsum_le. intros k Hk. replace (hat P x k * u a k - hat P y k * u a k) with (u a k * (hat P x k - hat P y k)) by ring.
    rewrite Rabs_mult. apply Rmult_le_compat_r; [apply Rabs_pos|apply HU, Hk]. }
  pose proof (A AX) as A1. pose proof (A AY) as A2.
  replace (fsum (nodes P) (fun k => hat P x k * u AX k) - fsum (nodes P) (fun k => hat P y k * u AX k)) with (- (vx x - vx y)) in A1 by lra.
  replace (fsum (nodes P) (fun k => hat P x k * u AY k) - fsum (nodes P) (fun k => hat P y k * u AY k)) with (- (vy x - vy y)) in A2 by lra.
  rewrite Rabs_Ropp in A1, A2. pose proof (hats_near P x y HP Hx Hy) as B. fold S in B.
  assert (C : 0 <= c). { destruct HP as (N1 & N2 & _). eapply Rle_trans; [apply Rabs_pos|apply (HU AX 0%nat)]. unfold nodes. nia. }
  set (dx := Rabs (vx x - vx y)) in *. set (dy := Rabs (vy x - vy y)) in *. assert (PX : 0 <= dx) by apply Rabs_pos. assert (PY : 0 <= dy) by apply Rabs_pos.
  set (w := cell_w P) in *. set (h := cell_h P) in *.
  assert (K : dx + dy <= 16 * c / w * dx + 16 * c / h * dy).
  { replace (16 * c / w * dx + 16 * c / h * dy) with (2 * (c * (8 * (dx / w + dy / h)))) by (field; lra). assert (c * S <= c * (8 * (dx / w + dy / h))) by (apply Rmult_le_compat_l; assumption). lra. }
  assert (R1 : 16 * c / w < 1) by (apply (Rmult_lt_reg_r w); [exact W|]; unfold Rdiv; rewrite Rmult_assoc, Rinv_l; lra).
  assert (R2 : 16 * c / h < 1) by (apply (Rmult_lt_reg_r h); [exact H|]; unfold Rdiv; rewrite Rmult_assoc, Rinv_l; lra).
  assert (Z1 : dx = 0) by nra. assert (Z2 : dy = 0) by nra.
  split; [unfold dx in Z1; destruct (Req_dec (vx x - vx y) 0); [lra|]|unfold dy in Z2; destruct (Req_dec (vy x - vy y) 0); [lra|]]; exfalso; eapply Rabs_no_R0; eauto.
Qed.
Lemma NoDup_on {A B} (f : A -> B) l : NoDup l -> (forall x y, In x l -> In y l -> f x = f y -> x = y) -> NoDup (map f l).
Proof.
  intros N. induction N as [|a l NI N IH]; intros HI; cbn [map]; constructor.
  - intros K. apply in_map_iff in K. destruct K as (b & E & I). apply NI. rewrite <- (HI b a); [exact I|right; exact I|left; reflexivity|exact E].
  - apply IH. intros x y Hx Hy. apply HI; right; assumption.
Qed.
Lemma NoDup_along {A B C} (f : A -> B) (g : A -> C) l : NoDup (map f l) -> (forall x y, In x l -> In y l -> g x = g y -> f x = f y) -> NoDup (map g l).
Proof.
  induction l as [|a l IH]; intros N HI; cbn [map] in *; [constructor|]. inversion N as [|? ? NI N']; subst. constructor.
  - intros K. apply in_map_iff in K. destruct K as (b & E & I). apply NI. apply in_map_iff. exists b. split; [|exact I]. apply HI; [right; exact I|left; reflexivity|exact E].
  - apply IH; [exact N'|]. intros x y Hx Hy. apply HI; right; assumption.
Qed.
Lemma merge_step E B c : proper (e_P E) -> (forall q, In q B -> in_dom (e_P E) (q_x q)) -> 16 * c < cell_w (e_P E) -> 16 * c < cell_h (e_P E) -> goes_by c E B ->
  NoDup (map spot B) -> NoDup (map spot (t_step E B)).
Proof.
  intros HP HD CW CH HG N. unfold t_step. rewrite !map_map. apply (NoDup_along spot); [exact N|]. intros x y Hx Hy K.
  unfold spot, t_moved, v3 in K. cbn [q_x vx vy t_strained comp] in K. injection K as K1 K2.
  assert (Q : forall z a, e_dt E * fsum (e_nodes E) (fun k => hat (e_P E) z k * (t_vel E B a k + e_dt E * t_acc E B (map (t_strained E B) B) a k)) = fsum (nodes (e_P E)) (fun k => hat (e_P E) z k * node_goes E B a k)).
  { intros z a. rewrite <- fsum_scal. apply fsum_ext. intros k _. unfold node_goes. ring. }
  rewrite !Q in K1, K2. destruct (no_merge (e_P E) (node_goes E B) c (q_x x) (q_x y) HP (HD x Hx) (HD y Hy) CW CH HG K1 K2) as [A1 A2]. unfold spot. rewrite A1, A2. reflexivity.
Qed.

(** ** C145 *)
(** As long as no node goes a sixteenth of a cell in a step, points at different places
    stay at different places: for any walls, loads, materials and numbers of steps. *)
Lemma p_C145_apart : forall uf fill n c (s : state R) tr, plain s -> (forall P, no_surface (sP s) (uf P)) ->
  16 * c < cell_w (pG (sP s)) -> 16 * c < cell_h (pG (sP s)) ->
  (forall k, (k < n)%nat -> let B := t_run uf k (sP s) (sG s) (bodies (sL s)) in goes_by c (scheme_at uf k (sP s) (sG s)) B /\
    Forall (fun q => in_dom (pG (sP s)) (q_x q) /\ (p_check (sP s) = true -> vz (q_x q) = 0)) B) ->
  NoDup (map spot (bodies (sL s))) ->
  exists s' tr', after uf fill n s tr = Ok (s', tr') /\ length (bodies (sL s')) = length (bodies (sL s)) /\ NoDup (map spot (bodies (sL s'))).
Proof.
  intros uf fill n c s tr Hs HN CW CH HD ND.
  destruct (p_C84_run uf fill n s tr Hs HN) as (s' & sr & E1 & _ & B1); [intros k Hk; exact (proj2 (HD k Hk))|].
  exists s', sr. split; [exact E1|]. rewrite B1. clear E1 B1.
  induction n as [|n IH]; [split; [reflexivity|exact ND]|]. destruct IH as [L N]; [intros k Hk; apply HD; lia|].
  rewrite t_run_S. destruct (clock_grid uf n (sP s)) as (E1 & _). destruct (HD n (Nat.lt_succ_diag_r n)) as [HG F]. rewrite Forall_forall in F.
  assert (EP : e_P (scheme_at uf n (sP s) (sG s)) = pG (sP s)) by exact E1.
  split; [unfold t_step; rewrite !map_length; exact L|].
  apply (merge_step _ _ c); rewrite ?EP; try assumption; [exact (pl_proper s Hs)|]. intros q Hq. exact (proj1 (F q Hq)).
Qed.
(** Two points without stiffness that approach each other so fast that the nodes of their
    cell go half a cell in the step. *)
Lemma dust_meets G h : 0 < h -> wall_free (bv G) (bh G) ->
  map spot (t_step (scheme_of (ex_params ex_bounds <| p_dt := h |>) (mkLoads 0 0 0 0) G) (bodies (beat 0 0 (/ h)))) = [(1/2, 1/2); (1/2, 1/2)].
Proof.
  intros Hh HW. set (E := scheme_of _ _ _). set (v := / h). set (B := bodies (beat 0 0 v)).
  assert (HO : forall a k, e_open E a k = 1) by (intros; apply free_open, HW).
  assert (M : forall k, (k < 12)%nat -> t_mass E B k = nth k [1; 1; 0; 0; 1; 1; 0; 0; 0; 0; 0; 0] 0).
  { intros k Hk. unfold t_mass. cbn - [nth hat]. rewrite (hatL k Hk), (hat2 k Hk). do 12 (destruct k as [|k]; [cbn; unR; lra|]). lia. }
  assert (VX : forall k, (k < 12)%nat -> t_vel E B AX k = nth k [v/2; -v/2; 0; 0; v/2; -v/2; 0; 0; 0; 0; 0; 0] 0).
  { intros k Hk. unfold t_vel. rewrite (M k Hk), HO. change (e_tol E) with (1/1000). cbn - [nth hat]. rewrite (hatL k Hk), (hat2 k Hk). do 12 (destruct k as [|k]; [cbn; unR; destruct (Rlt_dec _ _); lra|]). lia. }
  assert (VO : forall a k, a <> AX -> (k < 12)%nat -> t_vel E B a k = 0).
  { intros a k Ha Hk. unfold t_vel. destruct (Rlt_dec _ _); [|reflexivity]. destruct a; [destruct (Ha eq_refl)| |]; cbn - [nth hat]; unR; unfold Rdiv; ring. }
  assert (ST : forall q d, In q B -> t_stress E q d = m0).
  { intros q d Hq. assert (Q : q_s q = m0 /\ q_mat q = Solid 0 0) by (destruct Hq as [<-|[<-|[]]]; split; reflexivity). destruct Q as [Q1 Q2].
    apply ThmLaws.m3_ext; unfold t_stress, t_material, over, m3, tr3; rewrite Q1, Q2; cbn; unR; field. }
  assert (EG0 : e_g E = v0) by (cbn [E scheme_of e_g ld_g ld_theta]; rewrite !Rmult_0_l; reflexivity).
  set (B1 := map (t_strained E B) B).
  assert (FO : forall a k, t_force E B1 a k = 0).
  { intros a k. unfold t_force, B1. rewrite map_map. apply Rsum_zero. intros q Hq. unfold t_strained. cbn [q_m q_b q_V q_s q_x]. rewrite (ST q _ Hq), EG0.
    replace (if q_first q then v0 else q_b q) with (v0 (T := R)) by (destruct Hq as [<-|[<-|[]]]; reflexivity). unfold over. destruct a; cbn - [hat ghat]; unR; ring. }
  assert (AC : forall a k, t_acc E B B1 a k = 0).
  { intros a k. unfold t_acc. rewrite (FO a k). destruct (Rlt_dec _ _); [unfold Rdiv; ring|reflexivity]. }
  assert (SL : forall z a, (z = mkV3 (1/4) (1/2) 0 -> fsum 12 (fun k => hat (ex_gridp (T := R)) z k * (t_vel E B a k + h * t_acc E B B1 a k)) = match a with AX => v / 4 | _ => 0 end) /\
    (z = mkV3 (3/4) (1/2) 0 -> fsum 12 (fun k => hat (ex_gridp (T := R)) z k * (t_vel E B a k + h * t_acc E B B1 a k)) = match a with AX => - v / 4 | _ => 0 end)).
  { intros z a. split; intros ->; (destruct a; [|rewrite (fsum_ext 12 _ (fun k => 0)); [cbn; lra|intros k Hk; rewrite AC, VO by (discriminate || assumption); ring]..]).
    - rewrite (fsum_ext 12 _ (fun k => nth k [3/8; 1/8; 0; 0; 3/8; 1/8; 0; 0; 0; 0; 0; 0] 0 * nth k [v/2; -v/2; 0; 0; v/2; -v/2; 0; 0; 0; 0; 0; 0] 0)); [cbn - [v]; lra|intros k Hk; rewrite AC, (VX k Hk), (hatL k Hk); ring].
    - rewrite (fsum_ext 12 _ (fun k => nth k [1/8; 3/8; 0; 0; 1/8; 3/8; 0; 0; 0; 0; 0; 0] 0 * nth k [v/2; -v/2; 0; 0; v/2; -v/2; 0; 0; 0; 0; 0; 0] 0)); [cbn - [v]; lra|intros k Hk; rewrite AC, (VX k Hk), (hat2 k Hk); ring]. }
  transitivity (map (fun q => (vx (q_x q) + h * fsum 12 (fun k => hat (ex_gridp (T := R)) (q_x q) k * (t_vel E B AX k + h * t_acc E B B1 AX k)), vy (q_x q) + h * fsum 12 (fun k => hat (ex_gridp (T := R)) (q_x q) k * (t_vel E B AY k + h * t_acc E B B1 AY k)))) B).
  { unfold t_step. fold B1. unfold B1 at 2. rewrite !map_map. reflexivity. }
  clear - SL Hh. clearbody B1. set (A := fun a k => t_vel E B a k + h * t_acc E B B1 a k) in *.
  change (forall z a, (z = mkV3 (1/4) (1/2) 0 -> fsum 12 (fun k => hat (ex_gridp (T := R)) z k * A a k) = match a with AX => v / 4 | _ => 0 end) /\ (z = mkV3 (3/4) (1/2) 0 -> fsum 12 (fun k => hat (ex_gridp (T := R)) z k * A a k) = match a with AX => - v / 4 | _ => 0 end)) in SL.
  change (map (fun q => (vx (q_x q) + h * fsum 12 (fun k => hat (ex_gridp (T := R)) (q_x q) k * A AX k), vy (q_x q) + h * fsum 12 (fun k => hat (ex_gridp (T := R)) (q_x q) k * A AY k))) B = [(1/2, 1/2); (1/2, 1/2)]).
  clearbody A. subst B.
  cbn [beat bodies bodies_from live ph_pts ph_n map app firstn mp_of q_v q_x velocity px ex_particle].
  change (mkV3 (1/4) (1/2) n0) with (mkV3 (1/4) (1/2) 0). change (mkV3 (3/4) (1/2) n0) with (mkV3 (3/4) (1/2) 0).
  rewrite (proj1 (SL (mkV3 (1/4) (1/2) 0) AX) eq_refl), (proj1 (SL (mkV3 (1/4) (1/2) 0) AY) eq_refl), (proj2 (SL (mkV3 (3/4) (1/2) 0) AX) eq_refl), (proj2 (SL (mkV3 (3/4) (1/2) 0) AY) eq_refl). cbn [vx vy]. unfold v. f_equal; [|f_equal]; f_equal; field; lra.
Qed.
(** Two points that approach each other so fast that the nodes of their cell go half a cell
    in the step end at one place, whatever the time step. *)
Lemma p_C145_meet_refuted : forall fill h, 0 < h -> exists (s s' : state R) tr, plain s /\ p_dt (sP s) = h /\ Forall (fun q => in_dom (pG (sP s)) (q_x q)) (bodies (sL s)) /\ NoDup (map spot (bodies (sL s))) /\
  after calm fill 1 s [] = Ok (s', tr) /\ map spot (bodies (sL s')) = [(1/2, 1/2); (1/2, 1/2)] /\ ~ NoDup (map spot (bodies (sL s'))).
Proof.
  intros fill h Hh. destruct (grid_init_ok ex_gridp ex_bounds ex_proper) as (G & EG & OK). pose proof (no_walls G EG OK) as HW.
  destruct (p_C84_run calm fill 1 (beat_state G h 0 0 (/ h)) [] (beat_plain G h 0 0 (/ h) OK)) as (s' & tr & E & _ & EB); [intros P; split; discriminate|intros [|j] Hj; [exact (beat_inside 0 0 (/ h))|lia]|].
  assert (S : map spot (bodies (sL s')) = [(1/2, 1/2); (1/2, 1/2)]) by (rewrite EB; cbn [t_run]; exact (dust_meets G h Hh HW)).
  exists (beat_state G h 0 0 (/ h)), s', tr. split; [apply beat_plain, OK|]. split; [reflexivity|]. split; [eapply Forall_impl; [|exact (beat_inside 0 0 (/ h))]; intros q H; exact (proj1 H)|].
  split; [|split; [exact E|split; [exact S|]]].
  - repeat constructor; cbn; unR; intros K; [destruct K as [K|[]]; injection K as K; lra|exact K].
  - rewrite S. intros N. inversion N as [|? ? NI _]; subst. apply NI. left. reflexivity.
Qed.
(** Two points without stiffness that approach each other, slowly. *)
Example x_C145_apart : exists c (s : state R), plain s /\ (forall P, no_surface (sP s) (calm P)) /\
  16 * c < cell_w (pG (sP s)) /\ 16 * c < cell_h (pG (sP s)) /\
  (forall k, (k < 1)%nat -> let B := t_run calm k (sP s) (sG s) (bodies (sL s)) in goes_by c (scheme_at calm k (sP s) (sG s)) B /\
    Forall (fun q => in_dom (pG (sP s)) (q_x q) /\ (p_check (sP s) = true -> vz (q_x q) = 0)) B) /\
  NoDup (map spot (bodies (sL s))) /\ map q_v (bodies (sL s)) = [mkV3 1 0 0; mkV3 (- 1) 0 0].
Proof.
  destruct (grid_init_ok ex_gridp ex_bounds ex_proper) as (G & EG & OK). pose proof (no_walls G EG OK) as HW.
  exists (1/20), (beat_state G (1/10) 0 0 1). split; [apply beat_plain, OK|]. split; [intros P; split; discriminate|].
  change (pG (sP (beat_state G (1/10) 0 0 1))) with (ex_gridp (T := R)). rewrite (proj1 unit_cells), (proj2 unit_cells). split; [lra|]. split; [lra|]. split; [|split; [repeat constructor; cbn; unR; intros K; [destruct K as [K|[]]; injection K as K; lra|exact K]|reflexivity]].
  intros [|k] Hk; [|lia]. cbn [t_run]. cbv zeta. split; [|exact (beat_inside 0 0 1)].
  unfold scheme_at. cbn [clock]. set (E := scheme_of _ _ _). set (B := bodies _).
  assert (HO : forall a k, e_open E a k = 1) by (intros; apply free_open, HW).
  assert (M : forall k, (k < 12)%nat -> t_mass E B k = nth k [1; 1; 0; 0; 1; 1; 0; 0; 0; 0; 0; 0] 0).
  { intros k Hk'. unfold t_mass. cbn - [nth hat]. rewrite (hatL k Hk'), (hat2 k Hk'). do 12 (destruct k as [|k]; [cbn; unR; lra|]). lia. }
  assert (VX : forall k, (k < 12)%nat -> t_vel E B AX k = nth k [1/2; -1/2; 0; 0; 1/2; -1/2; 0; 0; 0; 0; 0; 0] 0).
  { intros k Hk'. unfold t_vel. rewrite (M k Hk'), HO. change (e_tol E) with (1/1000). cbn - [nth hat]. rewrite (hatL k Hk'), (hat2 k Hk'). do 12 (destruct k as [|k]; [cbn; unR; destruct (Rlt_dec _ _); lra|]). lia. }
  assert (VO : forall a k, a <> AX -> (k < 12)%nat -> t_vel E B a k = 0).
  { intros a k Ha Hk'. unfold t_vel. destruct (Rlt_dec _ _); [|reflexivity]. destruct a; [destruct (Ha eq_refl)| |]; cbn - [nth hat]; unR; unfold Rdiv; ring. }
  assert (ST : forall q d, In q B -> t_stress E q d = m0).
  { intros q d Hq. assert (Q : q_s q = m0 /\ q_mat q = Solid 0 0) by (destruct Hq as [<-|[<-|[]]]; split; reflexivity). destruct Q as [Q1 Q2].
    apply ThmLaws.m3_ext; unfold t_stress, t_material, over, m3, tr3; rewrite Q1, Q2; cbn; unR; field. }
  assert (EG0 : e_g E = v0) by (cbn [E scheme_of e_g ld_g ld_theta calm]; rewrite !Rmult_0_l; reflexivity).
  assert (FO : forall a k, t_force E (map (t_strained E B) B) a k = 0).
  { intros a k. unfold t_force. rewrite map_map. apply Rsum_zero. intros q Hq. unfold t_strained. cbn [q_m q_b q_V q_s q_x]. rewrite (ST q _ Hq), EG0.
    replace (if q_first q then v0 else q_b q) with (v0 (T := R)) by (destruct Hq as [<-|[<-|[]]]; reflexivity). unfold over. destruct a; cbn - [hat ghat]; unR; ring. }
  intros a k Hk'. change (e_nodes E) with 12%nat in Hk'. unfold node_goes. assert (AC : t_acc E B (map (t_strained E B) B) a k = 0).
  { unfold t_acc. rewrite (FO a k). destruct (Rlt_dec _ _); [unfold Rdiv; ring|reflexivity]. }
  rewrite AC. change (e_dt E) with (1/10). destruct a; [rewrite (VX k Hk')|rewrite VO by (discriminate || assumption)..].
  - clear - Hk'. apply Rabs_le. do 12 (destruct k as [|k]; [cbn; lra|]). lia.
  - apply Rabs_le. lra.
  - apply Rabs_le. lra.
Qed.
