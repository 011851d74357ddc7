(** * Bodies that move apart: C141. *)
From Coq Require Import ZArith Reals List Bool Arith Lra Lia.
From RecordUpdate Require Import RecordUpdate.
From Verif Require Import State NumR Spec SpecLaws SpecStep SpecScheme LibList LibR ModelGrid ModelConstit ModelParticle ModelMPList
  ModelIntegr ModelMain ProofsGrid ProofsMap ProofsP2G ProofsWalls ProofsLaws ProofsInOut ProofsHist Concrete
  ThmMapping ThmWalls ThmLaws ThmInOut ThmHist ProofsStep ProofsPoints ThmStep ThmBalance ThmEnergy ThmFall ThmGeo ProofsScheme ThmScheme ThmAngular ThmBeat.
Import ListNotations.
Local Open Scope R_scope.

(** Two elastic bodies of one point each, in one cell, with velocities of opposite sign. *)
Definition two_bodies (K g K2 g2 v : R) : list (phase R) :=
  [mkPhase (stuff K g) 1 v0 [ex_particle (1/4) (1/2) (mkV3 v 0 0) m0]; mkPhase (stuff K2 g2) 1 v0 [ex_particle (3/4) (1/2) (mkV3 (- v) 0 0) m0]].
Definition part_state (G : grid R) (h K g K2 g2 v : R) : state R := mkState (ex_params ex_bounds <| p_dt := h |>) G (two_bodies K g K2 g2 v).
Lemma part_plain G h K g K2 g2 v : grid_ok ex_gridp G -> plain (part_state G h K g K2 g2 v).
Proof.
  intros OK. constructor; try assumption; try reflexivity; try (cbn; lra).
  - exact ex_proper.
  - intros ph [<-|[<-|[]]]; reflexivity.
  - intros ph [<-|[<-|[]]]; left; reflexivity.
  - eexists; (split; [reflexivity|]); intros ph [<-|[<-|[]]]; unfold equipped, has; cbn; split; discriminate.
  - intros ph p [<-|[<-|[]]] [<-|[]]; eexists; reflexivity.
  - repeat split; reflexivity.
  - left; reflexivity.
Qed.
Lemma part_inside K g K2 g2 v : Forall (fun q => in_dom (ex_gridp (T := R)) (q_x q) /\ (p_check (ex_params (T := R) ex_bounds) = true -> vz (q_x q) = 0)) (bodies (two_bodies K g K2 g2 v)).
Proof. repeat constructor; cbn; try (unR; lra); try reflexivity. Qed.
Lemma part_step G h K g K2 g2 v : wall_free (bv G) (bh G) ->
  map q_v (t_step (scheme_of (ex_params ex_bounds <| p_dt := h |>) (mkLoads 0 0 0 0) G) (bodies (two_bodies K g K2 g2 v))) =
  [mkV3 (v * (1 - h * h * ((K + 4/3 * g) + (K2 + 4/3 * g2)) / 4)) 0 0; mkV3 (- v * (1 - h * h * ((K + 4/3 * g) + (K2 + 4/3 * g2)) / 4)) 0 0].
Proof.
  intros HW. set (E := scheme_of _ _ _). set (B := bodies (two_bodies K g K2 g2 v)).
  assert (HO : forall a k, e_open E a k = 1) by (intros a k; cbn [E scheme_of e_open]; unfold passes; destruct (HW k) as [V1 V2]; rewrite V1, V2; destruct a; reflexivity).
  assert (M : forall k, (k < 12)%nat -> t_mass E B k = nth k [1; 1; 0; 0; 1; 1; 0; 0; 0; 0; 0; 0] 0).
  { intros k Hk. unfold t_mass. cbn - [nth hat]. rewrite (hatL k Hk), (hat2 k Hk). do 12 (destruct k as [|k]; [cbn; unR; lra|]). lia. }
  assert (VX : forall k, (k < 12)%nat -> t_vel E B AX k = nth k [v/2; -v/2; 0; 0; v/2; -v/2; 0; 0; 0; 0; 0; 0] 0).
  { intros k Hk. unfold t_vel. rewrite (M k Hk), HO. change (e_tol E) with (1/1000). cbn - [nth hat]. rewrite (hatL k Hk), (hat2 k Hk). do 12 (destruct k as [|k]; [cbn; unR; destruct (Rlt_dec _ _); lra|]). lia. }
  assert (VO : forall a k, a <> AX -> (k < 12)%nat -> t_vel E B a k = 0).
  { intros a k Ha Hk. unfold t_vel. destruct (Rlt_dec _ _); [|reflexivity]. destruct a; [destruct (Ha eq_refl)| |]; cbn - [nth hat]; unR; unfold Rdiv; ring. }
  assert (D : forall q, In q B -> t_strain E B q = mkM3 (- h * v) 0 0 0 0 0 0 0 0).
  { assert (Z : forall a b q, a <> AX -> b <> AX -> fsum 12 (fun k => (t_vel E B a k * ghat (e_P E) (q_x q) b k + t_vel E B b k * ghat (e_P E) (q_x q) a k) / 2) = 0).
    { intros a b q Ha Hb. rewrite (fsum_ext 12 _ (fun _ => 0)); [cbn; lra|]. intros k Hk. rewrite (VO a k Ha Hk), (VO b k Hb Hk). lra. }
    intros q Hq. unfold t_strain, m3. change (e_nodes E) with 12%nat. change (e_dt E) with h. rewrite (Z AY AY q), (Z AY AZ q), (Z AZ AY q), (Z AZ AZ q) by discriminate.
    change (e_P E) with (ex_gridp (T := R)).
    assert (Q : (q_x q = mkV3 (1/4) (1/2) 0) \/ (q_x q = mkV3 (3/4) (1/2) 0)) by (destruct Hq as [<-|[<-|[]]]; auto).
    assert (XX : fsum 12 (fun k => (t_vel E B AX k * ghat ex_gridp (q_x q) AX k + t_vel E B AX k * ghat ex_gridp (q_x q) AX k) / 2) = - v).
    { rewrite (fsum_ext 12 _ (fun k => nth k [v/2; -v/2; 0; 0; v/2; -v/2; 0; 0; 0; 0; 0; 0] 0 * nth k [-1/2; 1/2; 0; 0; -1/2; 1/2; 0; 0; 0; 0; 0; 0] 0)).
      - cbn. lra.
      - intros k Hk. rewrite (VX k Hk). destruct Q as [-> | ->]; [rewrite (gxL k Hk)|rewrite (gxR k Hk)]; lra. }
    assert (XY : fsum 12 (fun k => (t_vel E B AX k * ghat ex_gridp (q_x q) AY k + t_vel E B AY k * ghat ex_gridp (q_x q) AX k) / 2) = 0).
    { destruct Q as [-> | ->].
      - rewrite (fsum_ext 12 _ (fun k => nth k [v/2; -v/2; 0; 0; v/2; -v/2; 0; 0; 0; 0; 0; 0] 0 * nth k [-3/4; -1/4; 0; 0; 3/4; 1/4; 0; 0; 0; 0; 0; 0] 0 / 2)); [cbn; lra|].
        intros k Hk. rewrite (VX k Hk), (VO AY k) by (discriminate || assumption). rewrite (gyL k Hk). lra.
      - rewrite (fsum_ext 12 _ (fun k => nth k [v/2; -v/2; 0; 0; v/2; -v/2; 0; 0; 0; 0; 0; 0] 0 * nth k [-1/4; -3/4; 0; 0; 1/4; 3/4; 0; 0; 0; 0; 0; 0] 0 / 2)); [cbn; lra|].
        intros k Hk. rewrite (VX k Hk), (VO AY k) by (discriminate || assumption). rewrite (gyR k Hk). lra. }
    assert (YX : fsum 12 (fun k => (t_vel E B AY k * ghat ex_gridp (q_x q) AX k + t_vel E B AX k * ghat ex_gridp (q_x q) AY k) / 2) = 0).
    { rewrite <- XY. apply fsum_ext. intros k _. lra. }
    assert (XZ : fsum 12 (fun k => (t_vel E B AX k * ghat ex_gridp (q_x q) AZ k + t_vel E B AZ k * ghat ex_gridp (q_x q) AX k) / 2) = 0).
    { rewrite (fsum_ext 12 _ (fun _ => 0)); [cbn; lra|]. intros k Hk. rewrite (VO AZ k) by (discriminate || assumption). cbn [ghat]. lra. }
    assert (ZX : fsum 12 (fun k => (t_vel E B AZ k * ghat ex_gridp (q_x q) AX k + t_vel E B AX k * ghat ex_gridp (q_x q) AZ k) / 2) = 0).
    { rewrite <- XZ. apply fsum_ext. intros k _. lra. }
    rewrite XX, XY, YX, XZ, ZX. f_equal; ring. }
  set (sx := - h * v * (K + 4/3 * g)). set (sy := - h * v * (K - 2/3 * g)). set (tx := - h * v * (K2 + 4/3 * g2)). set (ty := - h * v * (K2 - 2/3 * g2)).
  set (sig := fun q => if Rlt_dec (vx (q_x q)) (1/2) then mkM3 sx 0 0 0 sy 0 0 0 sy else mkM3 tx 0 0 0 ty 0 0 0 ty).
  assert (ST : forall q, In q B -> t_stress E q (mkM3 (- h * v) 0 0 0 0 0 0 0 0) = sig q).
  { intros q [<-|[<-|[]]]; unfold sig; cbn [mp_of q_x px ex_particle vx]; destruct (Rlt_dec _ _) as [L|L]; try (exfalso; lra); apply ThmLaws.m3_ext; unfold t_stress, t_material, over, m3, tr3; cbn; unR; unfold sx, sy, tx, ty; field. }
  assert (EG0 : e_g E = v0) by (cbn [E scheme_of e_g ld_g ld_theta]; rewrite !Rmult_0_l; reflexivity).
  set (B1 := map (t_strained E B) B).
  assert (EB1 : B1 = map (fun q => mkMp (q_mat q) (q_m q) (q_V q) (q_x q) (q_v q) (sig q) (t_pressure q (mkM3 (- h * v) 0 0 0 0 0 0 0 0)) v0 (q_first q)) B).
  { unfold B1. apply map_ext_in. intros q Hq. unfold t_strained. rewrite (D q Hq), (ST q Hq). rewrite EG0. destruct Hq as [<-|[<-|[]]]; reflexivity. }
  assert (EB2 : B1 = [mkMp (Solid K g) 2 1 (mkV3 (1/4) (1/2) 0) (mkV3 v 0 0) (mkM3 sx 0 0 0 sy 0 0 0 sy) (tr3 m0 / 3) v0 true; mkMp (Solid K2 g2) 2 1 (mkV3 (3/4) (1/2) 0) (mkV3 (- v) 0 0) (mkM3 tx 0 0 0 ty 0 0 0 ty) (tr3 m0 / 3) v0 false]).
  { rewrite EB1. unfold sig. clear. subst B. cbn [two_bodies bodies bodies_from live ph_pts ph_n map app firstn mp_of q_v q_x velocity px ex_particle q_mat q_m q_V q_first vx t_pressure q_s]. destruct (Rlt_dec (1/4) (1/2)); [|exfalso; lra]. destruct (Rlt_dec (3/4) (1/2)); [exfalso; lra|]. reflexivity. }
  assert (FX : forall k, (k < 12)%nat -> t_force E B1 AX k = nth k [(sx + tx) / 2; - (sx + tx) / 2; 0; 0; (sx + tx) / 2; - (sx + tx) / 2; 0; 0; 0; 0; 0; 0] 0).
  { intros k Hk. rewrite EB2. unfold t_force, over. cbn - [nth hat ghat sx sy tx ty]. rewrite (gxL k Hk), (gxR k Hk). unR. clearbody sx sy tx ty. do 12 (destruct k as [|k]; [cbn - [hat ghat]; lra|]). lia. }
  assert (FY : forall k, (k < 12)%nat -> t_force E B1 AY k = nth k [3/4 * sy + 1/4 * ty; 1/4 * sy + 3/4 * ty; 0; 0; - (3/4 * sy + 1/4 * ty); - (1/4 * sy + 3/4 * ty); 0; 0; 0; 0; 0; 0] 0).
  { intros k Hk. rewrite EB2. unfold t_force, over. cbn - [nth hat ghat sx sy tx ty]. rewrite (gyL k Hk), (gyR k Hk). unR. clearbody sx sy tx ty. do 12 (destruct k as [|k]; [cbn - [hat ghat]; lra|]). lia. }
  assert (FZ : forall k, (k < 12)%nat -> t_force E B1 AZ k = 0).
  { intros k Hk. rewrite EB2. unfold t_force, over. cbn - [nth hat sx sy tx ty]. unR. lra. }
  assert (AX' : forall k, (k < 12)%nat -> t_acc E B B1 AX k = nth k [(sx + tx) / 2; - (sx + tx) / 2; 0; 0; (sx + tx) / 2; - (sx + tx) / 2; 0; 0; 0; 0; 0; 0] 0).
  { intros k Hk. unfold t_acc. rewrite (FX k Hk), (M k Hk), HO. change (e_tol E) with (1/1000). change (e_damp E) with 1. do 12 (destruct k as [|k]; [cbn - [sx tx]; destruct (Rlt_dec _ _); lra|]). lia. }
  assert (AY' : forall k, (k < 12)%nat -> t_acc E B B1 AY k = nth k [3/4 * sy + 1/4 * ty; 1/4 * sy + 3/4 * ty; 0; 0; - (3/4 * sy + 1/4 * ty); - (1/4 * sy + 3/4 * ty); 0; 0; 0; 0; 0; 0] 0).
  { intros k Hk. unfold t_acc. rewrite (FY k Hk), (M k Hk), HO. change (e_tol E) with (1/1000). change (e_damp E) with 1. do 12 (destruct k as [|k]; [cbn - [sy ty]; destruct (Rlt_dec _ _); lra|]). lia. }
  assert (AZ' : forall k, (k < 12)%nat -> t_acc E B B1 AZ k = 0).
  { intros k Hk. unfold t_acc. rewrite (FZ k Hk). destruct (Rlt_dec _ _); [unfold Rdiv; ring|reflexivity]. }
  assert (SL : forall a, fsum 12 (fun k => hat (ex_gridp (T := R)) (mkV3 (1/4) (1/2) 0) k * t_acc E B B1 a k) = match a with AX => (sx + tx) / 4 | _ => 0 end).
  { intros []; [rewrite (fsum_ext 12 _ (fun k => nth k [3/8; 1/8; 0; 0; 3/8; 1/8; 0; 0; 0; 0; 0; 0] 0 * nth k [(sx + tx) / 2; - (sx + tx) / 2; 0; 0; (sx + tx) / 2; - (sx + tx) / 2; 0; 0; 0; 0; 0; 0] 0)); [cbn - [sx tx]; lra|intros k Hk; rewrite (AX' k Hk), (hatL k Hk); reflexivity]
      |rewrite (fsum_ext 12 _ (fun k => nth k [3/8; 1/8; 0; 0; 3/8; 1/8; 0; 0; 0; 0; 0; 0] 0 * nth k [3/4 * sy + 1/4 * ty; 1/4 * sy + 3/4 * ty; 0; 0; - (3/4 * sy + 1/4 * ty); - (1/4 * sy + 3/4 * ty); 0; 0; 0; 0; 0; 0] 0)); [cbn - [sy ty]; lra|intros k Hk; rewrite (AY' k Hk), (hatL k Hk); reflexivity]
      |rewrite (fsum_ext 12 _ (fun k => 0)); [cbn; lra|intros k Hk; rewrite (AZ' k Hk); ring]]. }
  assert (SR : forall a, fsum 12 (fun k => hat (ex_gridp (T := R)) (mkV3 (3/4) (1/2) 0) k * t_acc E B B1 a k) = match a with AX => - (sx + tx) / 4 | _ => 0 end).
  { intros []; [rewrite (fsum_ext 12 _ (fun k => nth k [1/8; 3/8; 0; 0; 1/8; 3/8; 0; 0; 0; 0; 0; 0] 0 * nth k [(sx + tx) / 2; - (sx + tx) / 2; 0; 0; (sx + tx) / 2; - (sx + tx) / 2; 0; 0; 0; 0; 0; 0] 0)); [cbn - [sx tx]; lra|intros k Hk; rewrite (AX' k Hk), (hat2 k Hk); reflexivity]
      |rewrite (fsum_ext 12 _ (fun k => nth k [1/8; 3/8; 0; 0; 1/8; 3/8; 0; 0; 0; 0; 0; 0] 0 * nth k [3/4 * sy + 1/4 * ty; 1/4 * sy + 3/4 * ty; 0; 0; - (3/4 * sy + 1/4 * ty); - (1/4 * sy + 3/4 * ty); 0; 0; 0; 0; 0; 0] 0)); [cbn - [sy ty]; lra|intros k Hk; rewrite (AY' k Hk), (hat2 k Hk); reflexivity]
      |rewrite (fsum_ext 12 _ (fun k => 0)); [cbn; lra|intros k Hk; rewrite (AZ' k Hk); ring]]. }
  transitivity (map (fun q => v3 (fun a => comp a (q_v q) + h * fsum 12 (fun k => hat (ex_gridp (T := R)) (q_x q) k * t_acc E B B1 a k))) B).
  { unfold t_step. fold B1. unfold B1 at 2. rewrite !map_map. reflexivity. }
  clear - SL SR. clearbody B1. set (A := t_acc E B B1) in *. clearbody A. subst B. unfold v3.
  cbn [two_bodies bodies bodies_from live ph_pts ph_n map app firstn mp_of q_v q_x velocity px ex_particle]. rewrite !SL, !SR. cbn. unR. subst sx tx. f_equal; [|f_equal]; f_equal; field.
Qed.

(** ** C141 *)
(** Two elastic bodies without stress that leave each other at speed [w] while they share a
    cell: after a step both are slower, as if they were glued together. *)
Lemma p_C141_apart_refuted : forall fill h K g K2 g2 w, 0 < w -> 0 < K -> 0 <= g -> 0 < K2 -> 0 <= g2 -> 0 < h -> h * h * ((K + 4/3 * g) + (K2 + 4/3 * g2)) < 4 ->
  exists (s s' : state R) tr w', plain s /\ length (sL s) = 2%nat /\ p_dt (sP s) = h /\ wall_free (bv (sG s)) (bh (sG s)) /\
  map (fun q => (vx (q_x q), q_v q, q_s q)) (bodies (sL s)) = [(1/4, mkV3 (- w) 0 0, m0); (3/4, mkV3 w 0 0, m0)] /\
  map q_mat (bodies (sL s)) = [Solid K g; Solid K2 g2] /\
  after calm fill 1 s [] = Ok (s', tr) /\ map q_v (bodies (sL s')) = [mkV3 (- w') 0 0; mkV3 w' 0 0] /\
  0 < w' < w /\ w' = w * (1 - h * h * ((K + 4/3 * g) + (K2 + 4/3 * g2)) / 4).
Proof.
  intros fill h K g K2 g2 w Hw HK Hg HK2 Hg2 Hh HS. destruct (grid_init_ok ex_gridp ex_bounds ex_proper) as (G & EG & OK). pose proof (no_walls G EG OK) as HW.
  destruct (p_C84_run calm fill 1 (part_state G h K g K2 g2 (- w)) [] (part_plain G _ _ _ _ _ _ OK)) as (s' & tr & E & _ & EB); [intros P; split; discriminate|intros [|j] Hj; [exact (part_inside _ _ _ _ _)|lia]|].
  exists (part_state G h K g K2 g2 (- w)), s', tr, (w * (1 - h * h * ((K + 4/3 * g) + (K2 + 4/3 * g2)) / 4)).
  split; [apply part_plain, OK|]. split; [reflexivity|]. split; [reflexivity|]. split; [exact HW|]. split; [cbn; rewrite Ropp_involutive; reflexivity|]. split; [reflexivity|]. split; [exact E|]. split.
  - rewrite EB. cbn [t_run]. etransitivity; [exact (part_step G h K g K2 g2 (- w) HW)|]. f_equal; [|f_equal]; f_equal; field.
  - assert (0 < h * h * ((K + 4/3 * g) + (K2 + 4/3 * g2))) by (apply Rmult_lt_0_compat; [apply Rmult_lt_0_compat|]; lra). split; [|reflexivity].
    set (m := h * h * ((K + 4/3 * g) + (K2 + 4/3 * g2))) in *. split; nra.
Qed.
(** Steps of a tenth, bodies with moduli 3, 2 and 6, 4. *)
Example x_C141_apart_refuted : forall fill, exists (s s' : state R) tr, plain s /\ after calm fill 1 s [] = Ok (s', tr) /\
  map (fun q => vx (q_v q)) (bodies (sL s)) = [-1; 1] /\ map (fun q => vx (q_v q)) (bodies (sL s')) = [- (383/400); 383/400].
Proof.
  intros fill. destruct (p_C141_apart_refuted fill (1/10) 3 2 6 4 1) as (s & s' & tr & w' & H1 & _ & _ & _ & H2 & _ & H3 & H4 & _ & H5); try lra.
  exists s, s', tr. split; [exact H1|]. split; [exact H3|]. split.
  - transitivity (map (fun r => vx (snd (fst r))) (map (fun q => (vx (q_x q), q_v q, q_s q)) (bodies (sL s)))); [rewrite map_map; reflexivity|]. rewrite H2. cbn. f_equal. 
  - transitivity (map vx (map q_v (bodies (sL s')))); [rewrite map_map; reflexivity|]. rewrite H4. cbn. rewrite H5. f_equal; [|f_equal]; field.
Qed.
