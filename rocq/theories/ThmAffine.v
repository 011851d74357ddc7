(** * A step is exact for affine fields on a filled grid: C101. *)
From Coq Require Import ZArith Reals List Bool Arith Lra Lia.
From Verif Require Import State NumR Spec SpecLaws SpecStep SpecScheme LibList LibR ModelGrid ModelInputs ModelConstit ModelParticle ModelMPList
  ModelIntegr ModelMain ProofsGrid ProofsMap ProofsP2G ProofsWalls ProofsLaws ProofsInOut ProofsHist Concrete
  ThmMapping ThmWalls ThmLaws ThmInOut ThmHist ProofsStep ProofsPoints ThmStep ThmBalance ThmEnergy ThmFall ThmGeo ProofsScheme ThmScheme
  ThmDensity ProofsFill ThmFill ProofsAffine.
Import ListNotations.
Local Open Scope R_scope.

(** ** C101 *)
(** Velocity, stress and pressure that depend linearly on the place: values at the origin and slopes along the axes. *)
Record field := mkField {
  f_v : axis -> R; f_vx : axis -> R; f_vy : axis -> R;
  f_s : axis -> axis -> R; f_sx : axis -> axis -> R; f_sy : axis -> axis -> R;
  f_p : R; f_px : R; f_py : R }.
Definition speed (F : field) (x y : R) : V3 R := v3 (fun a => lin (f_v F a) (f_vx F a) (f_vy F a) x y).
Definition tension (F : field) (x y : R) : M3 R := m3 (fun a b => lin (f_s F a b) (f_sx F a b) (f_sy F a b) x y).
(** A point of density [rho] and volume [V] in such a field. *)
Definition drawn (mat : matter) (rho V : R) (F : field) (b : V3 R) (first : bool) (xy : R * R) : mp :=
  mkMp mat (rho * V) V (mkV3 (fst xy) (snd xy) 0) (speed F (fst xy) (snd xy)) (tension F (fst xy) (snd xy))
    (lin (f_p F) (f_px F) (f_py F) (fst xy) (snd xy)) b first.
(** The strain of a time step [dt]. *)
Definition grad (F : field) (a b : axis) : R := match b with AX => f_vx F a | AY => f_vy F a | AZ => 0 end.
Definition strain_of (F : field) (dt : R) : M3 R := m3 (fun a b => dt * ((grad F a b + grad F b a) / 2)).
(** The slope of the stress after a strain [d] if it was [s] before, that of the pressure [p]: a solid keeps it, the
    stress of a fluid follows the pressure; less [2 (d s + s d)]. *)
Definition new_slope (mat : matter) (d : M3 R) (s : axis -> axis -> R) (p : R) (a b : axis) : R :=
  match mat with Solid _ _ => s a b | Fluid _ _ _ => p * delta a b end -
  2 * over (fun c => el a c d * s c b + s a c * el c b d).
(** The divergence of the stress after the step. *)
Definition divergence (mat : matter) (F : field) (dt : R) (a : axis) : R :=
  new_slope mat (strain_of F dt) (f_sx F) (f_px F) a AX + new_slope mat (strain_of F dt) (f_sy F) (f_py F) a AY.

Section Exact.
  Context (P : gridp R) (HP : proper P) (c rows : nat) (Hc : (1 <= c)%nat) (Hr : (1 <= rows <= ny P - 1)%nat).
  Context (mat : matter) (rho V : R) (F : field) (b : V3 R) (first : bool) (Hrho : 0 < rho) (HV : 0 < V).
  Context (E : scheme) (EP : e_P E = P) (Htol : e_tol E < rho * V * (INR c * INR c))
    (Hopen : forall a i j, (0 < i < nx P - 1)%nat -> (0 < j < rows)%nat -> e_open E a (j * nx P + i) = 1).
  Let lay := layer P c rows (head P rows).
  Let B := map (drawn mat rho V F b first) lay.
  Let Cp : 0 < INR c. Proof. apply lt_0_INR. lia. Qed.
  Let Mp : 0 < rho * V. Proof. apply Rmult_lt_0_compat; assumption. Qed.

  Lemma ex_mass i j : (0 < i < nx P - 1)%nat -> (0 < j < rows)%nat -> t_mass E B (j * nx P + i) = rho * V * (INR c * INR c).
  Proof.
    intros Hi Hj. unfold t_mass, B. rewrite EP, map_map. cbn [drawn q_m q_x].
    rewrite (map_ext _ (fun xy => rho * V * (lin 1 0 0 (fst xy) (snd xy) * hat P (mkV3 (fst xy) (snd xy) 0) (j * nx P + i)))) by (intros; unfold lin; ring).
    rewrite Rsum_scal. unfold lay. rewrite (lay_hat P HP c rows Hc Hr i j Hi Hj 1 0 0). unfold lin. ring.
  Qed.
  Lemma ex_vel a i j : (0 < i < nx P - 1)%nat -> (0 < j < rows)%nat ->
    t_vel E B a (j * nx P + i) = lin (f_v F a) (f_vx F a) (f_vy F a) (x_m P + INR i * cell_w P) (y_m P + INR j * cell_h P).
  Proof.
    intros Hi Hj. unfold t_vel. rewrite (ex_mass i j Hi Hj). destruct (Rlt_dec _ _) as [_|N]; [|lra]. rewrite (Hopen a i j Hi Hj).
    unfold B. rewrite EP, map_map. cbn [drawn q_m q_x q_v].
    rewrite (map_ext _ (fun xy => rho * V * (lin (f_v F a) (f_vx F a) (f_vy F a) (fst xy) (snd xy) * hat P (mkV3 (fst xy) (snd xy) 0) (j * nx P + i)))) by (intros xy; unfold speed, v3; destruct a; cbn [comp vx vy vz]; ring).
    rewrite Rsum_scal. unfold lay. rewrite (lay_hat P HP c rows Hc Hr i j Hi Hj). destruct (node_ij P i j ltac:(lia)) as [-> ->]. field. split; lra.
  Qed.
  Lemma ex_grad a d x : deep P rows 1 x -> fsum (e_nodes E) (fun k => t_vel E B a k * ghat P x d k) = grad F a d.
  Proof.
    intros HD. destruct (deep_cell P HP c rows Hc Hr 1 x HD) as (i & j & t & s & A1 & A2 & A3 & A4 & EX & EY & Ht & Hs). unfold e_nodes. rewrite EP.
    pose proof (proj1 (cw P HP)) as Wx. pose proof (proj1 (ch P HP)) as Wy.
    destruct d; cbn [grad].
    - rewrite (cell_gx P HP c rows Hc Hr x i j t s) by (assumption || lia). rewrite !ex_vel by lia. unfold lin. rewrite !plus_INR. simpl INR. field. lra.
    - rewrite (cell_gy P HP c rows Hc Hr x i j t s) by (assumption || lia). rewrite !ex_vel by lia. unfold lin. rewrite !plus_INR. simpl INR. field. lra.
    - apply fsum_zero. intros k _. unfold ghat. ring.
  Qed.
  Lemma ex_strain xy : deep P rows 1 (mkV3 (fst xy) (snd xy) 0) -> t_strain E B (drawn mat rho V F b first xy) = strain_of F (e_dt E).
  Proof.
    intros HD. assert (K : forall a d, e_dt E * fsum (e_nodes E) (fun k => (t_vel E B a k * ghat (e_P E) (q_x (drawn mat rho V F b first xy)) d k +
         t_vel E B d k * ghat (e_P E) (q_x (drawn mat rho V F b first xy)) a k) / 2) = e_dt E * ((grad F a d + grad F d a) / 2)).
    { intros a d. f_equal. rewrite <- (ex_grad a d _ HD), <- (ex_grad d a _ HD), <- fsum_plus. unfold Rdiv at 2. rewrite <- fsum_scal_r. rewrite EP. reflexivity. }
    unfold t_strain, strain_of, m3. rewrite !K. reflexivity.
  Qed.
  (** The stress after the strain is again affine. *)
  Definition new_value (a d : axis) : R :=
    let D := strain_of F (e_dt E) in let e := tr3 D / 3 in
    match mat with
    | Solid K g => f_s F a d + 3 * K * e * delta a d + 2 * g * (el a d D - e * delta a d)
    | Fluid K eta zeta => (f_p F + K * e) * delta a d + 2 * eta * (el a d D - e * delta a d) / e_dt E - zeta * e * delta a d / e_dt E
    end - 2 * over (fun k => el a k D * f_s F k d + f_s F a k * el k d D).
  Lemma ex_stress_lin a d xy : el a d (t_stress E (drawn mat rho V F b first xy) (strain_of F (e_dt E))) =
    lin (new_value a d) (new_slope mat (strain_of F (e_dt E)) (f_sx F) (f_px F) a d) (new_slope mat (strain_of F (e_dt E)) (f_sy F) (f_py F) a d) (fst xy) (snd xy).
  Proof.
    assert (ELM : forall f p q, el p q (m3 f) = f p q) by (intros f [] []; reflexivity).
    unfold t_stress. rewrite ELM. unfold t_material. cbn [drawn q_mat q_s q_p]. cbv zeta. unfold new_value, new_slope, lin. cbv zeta.
    set (D := strain_of F (e_dt E)). unfold over, tension. destruct mat as [K g|K eta zeta]; rewrite !ELM; unfold lin; [|unfold Rdiv]; ring.
  Qed.
  (** The points that a node sees. *)
  Lemma seen i j xy a : (2 <= i)%nat -> (i + 2 < nx P)%nat -> (2 <= j)%nat -> (j + 2 <= rows)%nat ->
    ghat P (mkV3 (fst xy) (snd xy) 0) a (j * nx P + i) = 0 \/ deep P rows 1 (mkV3 (fst xy) (snd xy) 0).
  Proof.
    intros H1 H2 H3 H4. destruct (cw P HP) as [Wx EX], (ch P HP) as [Wy EY]. destruct (node_ij P i j ltac:(lia)) as [NX NY].
    set (x := mkV3 (fst xy) (snd xy) 0). unfold ghat. rewrite NX, NY.
    destruct (Rlt_dec ((vx x - (x_m P + INR i * cell_w P)) / cell_w P) (-1)) as [L|L].
    { left. destruct a; [rewrite slope_far by lra|rewrite tent_far by lra|]; unfold Rdiv; ring. }
    destruct (Rle_dec 1 ((vx x - (x_m P + INR i * cell_w P)) / cell_w P)) as [U|U].
    { left. destruct a; [rewrite slope_far by lra|rewrite tent_far by lra|]; unfold Rdiv; ring. }
    destruct (Rlt_dec ((vy x - (y_m P + INR j * cell_h P)) / cell_h P) (-1)) as [L'|L'].
    { left. destruct a; [rewrite (tent_far ((vy x - _) / _)) by lra|rewrite (slope_far ((vy x - _) / _)) by lra|]; unfold Rdiv; ring. }
    destruct (Rle_dec 1 ((vy x - (y_m P + INR j * cell_h P)) / cell_h P)) as [U'|U'].
    { left. destruct a; [rewrite (tent_far ((vy x - _) / _)) by lra|rewrite (slope_far ((vy x - _) / _)) by lra|]; unfold Rdiv; ring. }
    right. unfold deep. simpl INR.
    assert (K : forall w z lo k, 0 < w -> ~ (z - (lo + k * w)) / w < -1 -> ~ 1 <= (z - (lo + k * w)) / w -> lo + (k - 1) * w <= z < lo + (k + 1) * w).
    { intros w z lo k Hw A C. set (q := (z - (lo + k * w)) / w) in *. replace z with (lo + k * w + q * w) by (unfold q; field; lra). split; nra. }
    pose proof (K _ _ _ _ Wx L U) as [X1 X2]. pose proof (K _ _ _ _ Wy L' U') as [Y1 Y2].
    pose proof (le_INR _ _ H1) as I1. pose proof (le_INR (i + 3) (nx P) ltac:(lia)) as I2. pose proof (le_INR _ _ H3) as I3. pose proof (le_INR _ _ H4) as I4.
    rewrite plus_INR in I2, I4. simpl INR in I1, I2, I3, I4. rewrite EX. rewrite minus_INR by lia. simpl INR. split; nra.
  Qed.
  Let b1 : V3 R := if first then e_g E else b.
  Lemma ex_force a i j : (2 <= i)%nat -> (i + 2 < nx P)%nat -> (2 <= j)%nat -> (j + 2 <= rows)%nat ->
    t_force E (map (t_strained E B) B) a (j * nx P + i) = V * (INR c * INR c) * (rho * comp a b1 + divergence mat F (e_dt E) a).
  Proof.
    intros H1 H2 H3 H4. unfold t_force. rewrite map_map. match goal with |- Rsum (map ?f B) = _ => change (map f B) with (map f (map (drawn mat rho V F b first) lay)) end. rewrite map_map. set (k := (j * nx P + i)%nat).
    set (D := strain_of F (e_dt E)). set (sx := new_slope mat D (f_sx F) (f_px F)). set (sy := new_slope mat D (f_sy F) (f_py F)).
    rewrite (Rsum_ext _ (fun xy => rho * V * comp a b1 * (lin 1 0 0 (fst xy) (snd xy) * hat P (mkV3 (fst xy) (snd xy) 0) k) +
       (- V * (lin (new_value a AX) (sx a AX) (sy a AX) (fst xy) (snd xy) * ghat P (mkV3 (fst xy) (snd xy) 0) AX k) +
        - V * (lin (new_value a AY) (sx a AY) (sy a AY) (fst xy) (snd xy) * ghat P (mkV3 (fst xy) (snd xy) 0) AY k)))).
    - rewrite !Rsum_plus, !Rsum_scal. unfold lay, k.
      rewrite (lay_hat P HP c rows Hc Hr i j) by lia. rewrite (lay_gx P HP c rows Hc Hr i j) by lia. rewrite (lay_gy P HP c rows Hc Hr i j) by lia.
      unfold divergence. fold D sx sy. unfold lin. ring.
    - intros xy _. cbn [t_strained drawn q_m q_b q_x q_V q_s q_first]. fold b1. rewrite EP. unfold over.
      assert (Z : ghat P (mkV3 (fst xy) (snd xy) 0) AZ k = 0) by reflexivity. rewrite Z.
      assert (K : forall d, el a d (t_stress E (drawn mat rho V F b first xy) (t_strain E B (drawn mat rho V F b first xy))) * ghat P (mkV3 (fst xy) (snd xy) 0) d k =
        lin (new_value a d) (sx a d) (sy a d) (fst xy) (snd xy) * ghat P (mkV3 (fst xy) (snd xy) 0) d k).
      { intros d. destruct (seen i j xy d H1 H2 H3 H4) as [N|HD]; [fold k in N; rewrite N; ring|]. rewrite (ex_strain xy HD), ex_stress_lin. reflexivity. }
      cbn [drawn] in K. rewrite (K AX), (K AY). unfold lin. ring.
  Qed.
  Lemma ex_acc a i j : (2 <= i)%nat -> (i + 2 < nx P)%nat -> (2 <= j)%nat -> (j + 2 <= rows)%nat ->
    t_acc E B (map (t_strained E B) B) a (j * nx P + i) = e_damp E * (comp a b1 + divergence mat F (e_dt E) a / rho).
  Proof.
    intros H1 H2 H3 H4. unfold t_acc. rewrite ex_mass by lia. destruct (Rlt_dec _ _) as [_|N]; [|lra]. rewrite Hopen, ex_force by lia. field. repeat split; lra.
  Qed.

  (** What the step does to a point: to its stress one cell inside, to its motion two cells inside. *)
  Lemma exact_step : Forall2 (fun q q' =>
      (deep P rows 1 (q_x q) -> q_s q' = t_stress E q (strain_of F (e_dt E))) /\
      (deep P rows 2 (q_x q) -> forall a,
         comp a (q_v q') = comp a (q_v q) + e_dt E * (e_damp E * (comp a b1 + divergence mat F (e_dt E) a / rho)) /\
         comp a (q_x q') = comp a (q_x q) + e_dt E * comp a (q_v q'))) B (t_step E B).
  Proof.
    unfold t_step. rewrite map_map. set (G := fun x => t_moved E B (map (t_strained E B) B) (t_strained E B x)).
    assert (A : forall l, Forall2 (fun q q' => (deep P rows 1 (q_x q) -> q_s q' = t_stress E q (strain_of F (e_dt E))) /\
      (deep P rows 2 (q_x q) -> forall a,
         comp a (q_v q') = comp a (q_v q) + e_dt E * (e_damp E * (comp a b1 + divergence mat F (e_dt E) a / rho)) /\
         comp a (q_x q') = comp a (q_x q) + e_dt E * comp a (q_v q'))) (map (drawn mat rho V F b first) l) (map G (map (drawn mat rho V F b first) l))).
    { induction l as [|xy l IH]; [constructor|]. cbn [map]. constructor; [|exact IH]. clear IH. split.
      - intros HD. unfold G. cbn [t_moved t_strained q_s]. rewrite (ex_strain xy HD). reflexivity.
      - intros HD a. set (q := drawn mat rho V F b first xy) in *. set (x := q_x q) in *.
        assert (DD : deep P rows 1 x). { destruct HD as [X Y]. simpl INR in X, Y. pose proof (proj1 (cw P HP)). pose proof (proj1 (ch P HP)). unfold deep. simpl INR. lra. }
        destruct (deep_cell P HP c rows Hc Hr 2 x HD) as (i & j & t & s & A1 & A2 & A3 & A4 & EX & EY & Ht & Hs).
        set (acc := e_damp E * (comp a b1 + divergence mat F (e_dt E) a / rho)).
        assert (S1 : fsum (e_nodes E) (fun k => hat (e_P E) x k * t_acc E B (map (t_strained E B) B) a k) = acc).
        { rewrite (fsum_ext _ _ (fun k => t_acc E B (map (t_strained E B) B) a k * hat P x k)) by (intros; rewrite EP; ring).
          unfold e_nodes. rewrite EP, (cell_hat P HP c rows Hc Hr x i j t s) by (assumption || lia). rewrite !ex_acc by lia. fold acc. ring. }
        assert (S2 : fsum (e_nodes E) (fun k => hat (e_P E) x k * t_vel E B a k) = comp a (q_v q)).
        { rewrite (fsum_ext _ _ (fun k => t_vel E B a k * hat P x k)) by (intros; rewrite EP; ring).
          unfold e_nodes. rewrite EP, (cell_hat P HP c rows Hc Hr x i j t s) by (assumption || lia). rewrite !ex_vel by lia.
          replace (comp a (q_v q)) with (lin (f_v F a) (f_vx F a) (f_vy F a) (vx x) (vy x)) by (unfold q, x, speed; destruct a; reflexivity).
          rewrite EX, EY. unfold lin. rewrite !plus_INR. simpl INR. ring. }
        assert (SV : comp a (q_v (G q)) = comp a (q_v q) + e_dt E * acc).
        { rewrite <- S1. unfold G, t_moved. destruct a; reflexivity. }
        split; [exact SV|]. rewrite SV.
        transitivity (comp a (q_x q) + e_dt E * fsum (e_nodes E) (fun k => hat (e_P E) x k * (t_vel E B a k + e_dt E * t_acc E B (map (t_strained E B) B) a k))).
        { unfold G, t_moved. destruct a; reflexivity. }
        rewrite (fsum_ext _ _ (fun k => hat (e_P E) x k * t_vel E B a k + e_dt E * (hat (e_P E) x k * t_acc E B (map (t_strained E B) B) a k))) by (intros; ring).
        rewrite fsum_plus, fsum_scal, S1, S2. reflexivity. }
    exact (A lay).
  Qed.
End Exact.

(** No wall inside the domain. *)
Lemma inner_open (P : gridp R) B (G : grid R) a i j : proper P -> grid_init P B = Ok G -> ThmWalls.plain B ->
  (0 < i < nx P - 1)%nat -> (0 < j < ny P - 1)%nat -> passes (roughness B) G a (j * nx P + i) = 1.
Proof.
  intros HP EG PL Hi Hj. assert (Hk : (j * nx P + i < nx P * ny P)%nat) by nia.
  destruct (p_C10_wall_masks R _ _ _ _ EG PL (j * nx P + i) Hk) as (MH & MV & _).
  assert (RC : row P (j * nx P + i) = j /\ col P (j * nx P + i) = i).
  { unfold row, col. replace (j * nx P + i)%nat with (i + j * nx P)%nat by lia. rewrite Nat.mod_add, Nat.div_add by lia. rewrite Nat.mod_small, Nat.div_small by lia. split; lia. }
  destruct RC as [-> ->] in MH, MV. unfold passes.
  destruct (nth (j * nx P + i) (bh G) false) eqn:EH. { exfalso. destruct (proj1 MH eq_refl) as [[? _]|[? _]]; lia. }
  destruct (nth (j * nx P + i) (bv G) false) eqn:EV. { exfalso. destruct (proj1 MV eq_refl) as [[? _]|[[? _]|[? _]]]; lia. }
  destruct a, (roughness B); reflexivity.
Qed.

(** A grid filled with points, any number per cell, whose velocity, stress and pressure are affine functions of the
    place.  After a step, the stress of every point one cell or more inside is what the law of the material gives for
    the exact strain of the velocity field; the velocity of every point two cells or more inside has changed by
    [dt (b + div s / rho)] with [s] the new stress, and the point has moved by [dt] times its new velocity.  No error
    of the grid, of the number of points or of the weights remains. *)
Lemma p_C101_step : forall uf fill (s s' : state R) c rows mat rho V F b first,
  proper (pG (sP s)) -> grid_init (pG (sP s)) (pB (sP s)) = Ok (sG s) -> ThmWalls.plain (pB (sP s)) -> shut (sP s) -> no_rub (pB (sP s)) ->
  simple_laws (sL s) -> own_velocities (sL s) -> no_surface (sP s) (uf (sP s)) ->
  (1 <= c)%nat -> (1 <= rows <= ny (pG (sP s)) - 1)%nat -> 0 < rho -> 0 < V -> p_Mtol (sP s) < rho * V * (INR c * INR c) ->
  bodies (sL s) = map (drawn mat rho V F b first) (layer (pG (sP s)) c rows (INR (ny (pG (sP s)) - 1 - rows) * cell_h (pG (sP s)))) ->
  time_march uf fill s = Ok s' ->
  let g := uf (sP s) in
  let force := if first then mkV3 (ld_g g * sin (ld_theta g)) (ld_g g * cos (ld_theta g)) 0 else b in
  Forall2 (fun q q' =>
    (deep (pG (sP s)) rows 1 (q_x q) -> q_s q' = t_stress (scheme_of (sP s) g (sG s)) q (strain_of F (p_dt (sP s)))) /\
    (deep (pG (sP s)) rows 2 (q_x q) -> forall a,
       comp a (q_v q') = comp a (q_v q) + p_dt (sP s) * ((if p_damping (sP s) then 7/10 else 1) *
         (comp a force + divergence mat F (p_dt (sP s)) a / rho)) /\
       comp a (q_x q') = comp a (q_x q) + p_dt (sP s) * comp a (q_v q'))) (bodies (sL s)) (bodies (sL s')).
Proof.
  intros uf fill s s' c rows mat rho V F b first HP EG PL HS NR HL HO NS Hc Hr Hrho HV HM HB E g force.
  destruct (grid_init_ok _ (pB (sP s)) HP) as (G0 & E0 & OK). assert (G0 = sG s) by congruence. subst G0.
  assert (HD : all_live (sL s) (fun _ p => in_dom (pG (sP s)) (px p))).
  { apply (bodies_live (sL s) (fun x => in_dom (pG (sP s)) x) 0). fold (bodies (sL s)). rewrite HB. apply Forall_forall. intros q Hq.
    apply in_map_iff in Hq as (xy & <- & Hxy). fold (head (pG (sP s)) rows) in Hxy. destruct (layer_inside _ HP c rows Hc Hr xy Hxy) as [X Y].
    assert (0 <= head (pG (sP s)) rows). { unfold head. apply Rmult_le_pos; [apply pos_INR|]. pose proof (proj1 (ch _ HP)). lra. }
    unfold in_dom. cbn [drawn q_x vx vy]. lra. }
  rewrite (p_C84_step uf fill s s' HP OK HD HS NR HL HO NS E). fold g. set (SC := scheme_of (sP s) g (sG s)).
  rewrite HB. fold (head (pG (sP s)) rows).
  apply (exact_step (pG (sP s)) HP c rows Hc Hr mat rho V F b first Hrho HV SC eq_refl HM).
  intros a i j Hi Hj. apply inner_open; try assumption. lia.
Qed.

(** The patch test: with a uniform stress and pressure, whatever the strain of the flow, the points inside feel gravity
    and nothing else. *)
Lemma p_C101_patch : forall uf fill (s s' : state R) c rows mat rho V F b first,
  proper (pG (sP s)) -> grid_init (pG (sP s)) (pB (sP s)) = Ok (sG s) -> ThmWalls.plain (pB (sP s)) -> shut (sP s) -> no_rub (pB (sP s)) ->
  simple_laws (sL s) -> own_velocities (sL s) -> no_surface (sP s) (uf (sP s)) ->
  (1 <= c)%nat -> (1 <= rows <= ny (pG (sP s)) - 1)%nat -> 0 < rho -> 0 < V -> p_Mtol (sP s) < rho * V * (INR c * INR c) ->
  bodies (sL s) = map (drawn mat rho V F b first) (layer (pG (sP s)) c rows (INR (ny (pG (sP s)) - 1 - rows) * cell_h (pG (sP s)))) ->
  (forall a d, f_sx F a d = 0 /\ f_sy F a d = 0) -> f_px F = 0 -> f_py F = 0 ->
  time_march uf fill s = Ok s' ->
  let g := uf (sP s) in
  let force := if first then mkV3 (ld_g g * sin (ld_theta g)) (ld_g g * cos (ld_theta g)) 0 else b in
  Forall2 (fun q q' => deep (pG (sP s)) rows 2 (q_x q) -> forall a,
    comp a (q_v q') = comp a (q_v q) + p_dt (sP s) * ((if p_damping (sP s) then 7/10 else 1) * comp a force)) (bodies (sL s)) (bodies (sL s')).
Proof.
  intros uf fill s s' c rows mat rho V F b first HP EG PL HS NR HL HO NS Hc Hr Hrho HV HM HB HU HX HY E g force.
  assert (Z : forall a, divergence mat F (p_dt (sP s)) a = 0).
  { intros a. unfold divergence, new_slope, over. destruct mat; rewrite ?HX, ?HY, !(proj1 (HU _ _)), !(proj2 (HU _ _)); ring. }
  pose proof (p_C101_step uf fill s s' c rows mat rho V F b first HP EG PL HS NR HL HO NS Hc Hr Hrho HV HM HB E) as K. cbv zeta in K. fold g force in K.
  eapply Forall2_imp; [|exact K]. intros q q' [_ KK] HD a. destruct (KK HD a) as [K1 _]. rewrite K1, Z. unfold Rdiv. ring.
Qed.

(** A shear flow under a stress that grows to the right, on 6 by 6 cells. *)
Definition patch_gridp : gridp R := ex_gridp <| x_M := 6 |> <| y_M := 6 |> <| nx := 7%nat |> <| ny := 7%nat |>.
Definition patch_params : params R := ex_params ex_box <| pG := patch_gridp |>.
Definition patch_field : field :=
  mkField (fun _ => 0) (fun _ => 0) (fun a => match a with AX => 1 | _ => 0 end) (fun a d => delta a d) (fun a d => delta a d) (fun _ _ => 0) 0 0 0.
Definition patch_points : list (particle R) :=
  map (fun xy => ex_particle (fst xy) (snd xy) (speed patch_field (fst xy) (snd xy)) (tension patch_field (fst xy) (snd xy)))
    (layer patch_gridp 1 6 (INR (ny patch_gridp - 1 - 6) * cell_h patch_gridp)).
Definition patch_state (G : grid R) : state R := mkState patch_params G [mkPhase (ex_solid Elastic) (length patch_points) v0 patch_points].
Lemma patch_proper : proper patch_gridp.
Proof. unfold proper. cbn. split; [lia|]. split; [lia|]. split; lra. Qed.
Lemma spread_conv (xp yp : list R) x y : In x xp -> In y yp -> In (x, y) (spread xp yp).
Proof.
  intros HX. induction yp as [|y0 yp IH]; [intros []|]. intros [<-|HY]; rewrite spread_cons; apply in_app_iff.
  - left. apply in_map_iff. exists x. split; [reflexivity|exact HX].
  - right. apply IH. exact HY.
Qed.
Example x_C101_step : forall fill, exists (s s' : state R) c rows mat rho V F b first,
  proper (pG (sP s)) /\ grid_init (pG (sP s)) (pB (sP s)) = Ok (sG s) /\ ThmWalls.plain (pB (sP s)) /\ shut (sP s) /\ no_rub (pB (sP s)) /\
  simple_laws (sL s) /\ own_velocities (sL s) /\ no_surface (sP s) (fall_loads (sP s)) /\
  (1 <= c)%nat /\ (1 <= rows <= ny (pG (sP s)) - 1)%nat /\ 0 < rho /\ 0 < V /\ p_Mtol (sP s) < rho * V * (INR c * INR c) /\
  bodies (sL s) = map (drawn mat rho V F b first) (layer (pG (sP s)) c rows (INR (ny (pG (sP s)) - 1 - rows) * cell_h (pG (sP s)))) /\
  time_march fall_loads fill s = Ok s' /\ (exists q, In q (bodies (sL s)) /\ deep (pG (sP s)) rows 2 (q_x q)) /\
  divergence mat F (p_dt (sP s)) AX = 1 /\ divergence mat F (p_dt (sP s)) AY = - p_dt (sP s) * 2.
Proof.
  intros fill. destruct (grid_init_ok patch_gridp ex_box patch_proper) as (G & EG & OK). set (s := patch_state G).
  assert (HH : INR (ny patch_gridp - 1 - 6) * cell_h patch_gridp = head patch_gridp 6) by reflexivity.
  assert (OV : own_velocities (sL s)).
  { intros ph p [<-|[]] Hp. unfold live in Hp. cbn [ph_n ph_pts] in Hp. rewrite firstn_all in Hp. apply in_map_iff in Hp as (xy & <- & _). eexists. reflexivity. }
  assert (Hr : (1 <= 6 <= ny patch_gridp - 1)%nat) by (cbn; lia).
  assert (RD : ready s).
  { constructor; cbn [s patch_state sP sG sL].
    - exact patch_proper.
    - exact OK.
    - intros ph [<-|[]]. reflexivity.
    - intros ph p [<-|[]] Hp. unfold live in Hp. cbn [ph_n ph_pts] in Hp. rewrite firstn_all in Hp. apply in_map_iff in Hp as (xy & <- & Hxy). split; [|discriminate].
      rewrite HH in Hxy. destruct (layer_inside _ patch_proper 1 6 ltac:(lia) Hr xy Hxy) as [X Y].
      assert (0 <= head patch_gridp 6). { unfold head. apply Rmult_le_pos; [apply pos_INR|]. pose proof (proj1 (ch _ patch_proper)). lra. }
      unfold in_dom. change (pG patch_params) with patch_gridp. cbn [ex_particle State.px vx vy]. lra.
    - exists (ex_solid Elastic). split; [reflexivity|]. intros ph [<-|[]]. split; discriminate.
    - intros ph [<-|[]]. discriminate.
    - discriminate.
    - left. reflexivity.
    - reflexivity.
    - split; reflexivity.
    - discriminate. }
  destruct (march_total fall_loads fill s RD) as [s' E].
  exists s, s', 1%nat, 6%nat, (matter_of (ex_solid Elastic)), 2, 1, patch_field, v0, true.
  assert (HB : bodies (sL s) = map (drawn (matter_of (ex_solid Elastic)) 2 1 patch_field v0 true) (layer patch_gridp 1 6 (INR (ny patch_gridp - 1 - 6) * cell_h patch_gridp))).
  { unfold bodies, s, patch_state. cbn [sL bodies_from]. rewrite app_nil_r. unfold live. cbn [ph_n ph_pts]. rewrite firstn_all. unfold patch_points. rewrite map_map. apply map_ext. intros xy.
    unfold mp_of, drawn. cbn [ph_sol ex_particle pm pV State.px pstress ppressure pb velocity pv Nat.eqb patch_field f_p f_px f_py]. unfold velocity. cbn [pv ex_particle].
    f_equal; try reflexivity; unfold lin, n2; unR; lra. }
  split; [exact patch_proper|]. split; [exact EG|]. split; [repeat split; reflexivity|]. split; [repeat split; reflexivity|]. split; [left; reflexivity|].
  split; [intros ph [<-|[]]; left; reflexivity|]. split; [exact OV|]. split; [split; reflexivity|]. split; [lia|]. split; [exact Hr|].
  split; [lra|]. split; [lra|]. split; [cbn; unR; lra|]. split; [exact HB|]. split; [exact E|].
  split.
  - exists (drawn (matter_of (ex_solid Elastic)) 2 1 patch_field v0 true (5/2, 5/2)). split.
    + rewrite HB. apply in_map. rewrite HH, layer_eq.
      assert (X : nth 2 (xs patch_gridp 1) 0 = 5/2). { rewrite (xs_nth _ patch_proper 1 6 ltac:(lia) Hr) by (cbn; lia). unfold pt, cell_w. cbn. lra. }
      assert (Y : nth 2 (ys patch_gridp 1 6) 0 = 5/2). { rewrite (ys_nth _ patch_proper 1 6 ltac:(lia) Hr) by (cbn; lia). unfold pt, cell_h. cbn. lra. }
      apply spread_conv; [rewrite <- X|rewrite <- Y]; apply nth_In; [rewrite xs_len|rewrite ys_len]; cbn; lia.
    + unfold deep. change (pG (sP s)) with patch_gridp. unfold cell_w, cell_h. cbn. lra.
  - unfold divergence, new_slope, over, strain_of, m3, patch_field. cbn. split; lra.
Qed.
