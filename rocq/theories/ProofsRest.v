(** * The scheme on layers of points under their own weight *)
From Coq Require Import ZArith Reals List Bool Arith Lra Lia.
From Verif Require Import State NumR Spec SpecLaws SpecStep SpecScheme SpecRing LibList LibR ModelGrid ModelInputs ModelConstit ModelParticle ModelMPList
  ModelIntegr ModelMain ProofsGrid ProofsMap ProofsP2G ProofsWalls ProofsLaws ProofsInOut ProofsHist Concrete
  ThmMapping ThmWalls ThmLaws ThmInOut ThmHist ProofsStep ProofsPoints ThmStep ThmBalance ThmEnergy ThmFall ThmGeo ProofsScheme ThmScheme
  ThmDensity ProofsRing ThmRing ProofsFill ThmFill.
Import ListNotations.
Local Open Scope R_scope.

Section Rest.
  Context (P : gridp R) (HP : proper P) (c rows : nat) (Hc : (1 <= c)%nat) (Hr : (1 <= rows <= ny P - 1)%nat).
  Context (mat : matter) (rho V gx gy : R).
  (** Depth below the surface of the layer. *)
  Definition surface : R := y_m P + INR rows * cell_h P.
  Definition litho (y : R) : M3 R :=
    let d := surface - y in
    mkM3 (rho * gy * d) (rho * gx * d) 0 (rho * gx * d) (rho * gy * d) 0 0 0 (rho * gy * d).
  Definition rest_mp (b : V3 R) (xy : R * R) : mp :=
    mkMp mat (rho * V) V (mkV3 (fst xy) (snd xy) 0) v0 (litho (snd xy)) (rho * gy * (surface - snd xy)) b true.
  Definition rest (b : V3 R) : list mp := map (rest_mp b) (layer P c rows (head P rows)).

  Let bx (i : nat) := INR c * beside (nx P - 1) i (1/2) (1/2).
  Let sx (i : nat) := beside (nx P - 1) i (- INR c) (INR c).
  Let by_ (j : nat) := INR c * beside rows j (1/2) (1/2).
  Let dy (j : nat) := fsum (rows * c) (fun q => (surface - pt (y_m P) (cell_h P) c q) * tent ((pt (y_m P) (cell_h P) c q - (y_m P + INR j * cell_h P)) / cell_h P)).

  Lemma sum_hat k : Rsum (map (fun xy => hat P (mkV3 (fst xy) (snd xy) 0) k) (layer P c rows (head P rows))) = bx (k mod nx P) * by_ (k / nx P).
  Proof.
    unfold hat. cbn [vx vy]. rewrite (layer_sum P HP c rows Hc Hr (fun x => tent ((x - node_x P k) / cell_w P)) (fun y => tent ((y - node_y P k) / cell_h P))).
    unfold node_x, node_y, col, row. destruct (cw P HP) as [W _], (ch P HP) as [W' _].
    rewrite (tents (x_m P) (cell_w P) c W Hc), (tents (y_m P) (cell_h P) c W' Hc). unfold bx, by_. rewrite <- !beside_scal.
    replace (INR c * (1/2)) with (INR c / 2) by lra. reflexivity.
  Qed.
  Lemma sum_gx k : Rsum (map (fun xy => (surface - snd xy) * ghat P (mkV3 (fst xy) (snd xy) 0) AX k) (layer P c rows (head P rows))) = sx (k mod nx P) / cell_w P * dy (k / nx P).
  Proof.
    unfold ghat. cbn [vx vy].
    rewrite (map_ext _ (fun xy => slope ((fst xy - node_x P k) / cell_w P) / cell_w P * ((surface - snd xy) * tent ((snd xy - node_y P k) / cell_h P)))) by (intros; ring).
    rewrite (layer_sum P HP c rows Hc Hr (fun x => slope ((x - node_x P k) / cell_w P) / cell_w P) (fun y => (surface - y) * tent ((y - node_y P k) / cell_h P))).
    unfold node_x, node_y, col, row. destruct (cw P HP) as [W _]. f_equal.
    rewrite (fsum_ext _ _ (fun q => slope ((pt (x_m P) (cell_w P) c q - (x_m P + INR (k mod nx P) * cell_w P)) / cell_w P) * / cell_w P)) by reflexivity.
    rewrite fsum_scal_r, (slopes (x_m P) (cell_w P) c W Hc). reflexivity.
  Qed.
  Lemma sum_gy k : (0 < k / nx P)%nat ->
    Rsum (map (fun xy => (surface - snd xy) * ghat P (mkV3 (fst xy) (snd xy) 0) AY k) (layer P c rows (head P rows))) = bx (k mod nx P) * by_ (k / nx P).
  Proof.
    intros Hk. unfold ghat. cbn [vx vy].
    rewrite (map_ext _ (fun xy => tent ((fst xy - node_x P k) / cell_w P) * ((surface - snd xy) * slope ((snd xy - node_y P k) / cell_h P) / cell_h P))) by (intros; unfold Rdiv; ring).
    rewrite (layer_sum P HP c rows Hc Hr (fun x => tent ((x - node_x P k) / cell_w P)) (fun y => (surface - y) * slope ((y - node_y P k) / cell_h P) / cell_h P)).
    unfold node_x, node_y, col, row. destruct (cw P HP) as [W _], (ch P HP) as [W' _]. 
    rewrite (tents (x_m P) (cell_w P) c W Hc). unfold bx. rewrite <- beside_scal. replace (INR c * (1/2)) with (INR c / 2) by lra. f_equal.
    rewrite (fsum_ext _ _ (fun q => (y_m P + INR rows * cell_h P - pt (y_m P) (cell_h P) c q) *
        slope ((pt (y_m P) (cell_h P) c q - (y_m P + INR (k / nx P) * cell_h P)) / cell_h P) * / cell_h P)) by reflexivity.
    rewrite fsum_scal_r, (depth_slopes (y_m P) (cell_h P) c W' Hc). unfold by_, beside.
    destruct (Nat.ltb_spec (k / nx P) rows) as [A|A], (Nat.ltb_spec 0 (k / nx P)) as [B|B], (Nat.leb_spec (k / nx P) rows) as [C|C]; cbn [andb]; try lia.
    - field. lra.
    - replace (k / nx P)%nat with rows by lia. field. lra.
    - lra.
  Qed.

  (** Nodal masses and forces of the layer. *)
  Definition gvec (a : axis) : R := match a with AX => gx | AY => gy | AZ => 0 end.
  Definition cross (a : axis) : R := match a with AX => gy | AY => gx | AZ => 0 end.
  Context (E : scheme) (EP : e_P E = P).
  Lemma rest_mass b k : t_mass E (rest b) k = rho * V * (bx (k mod nx P) * by_ (k / nx P)).
  Proof.
    unfold t_mass, rest. rewrite EP, map_map. cbn [rest_mp q_m q_x]. rewrite <- sum_hat. rewrite <- Rsum_scal. reflexivity.
  Qed.
  Lemma rest_force b a k : vz b = 0 -> (0 < k / nx P)%nat \/ gvec a = 0 ->
    t_force E (rest b) a k = t_mass E (rest b) k * (comp a b - gvec a) - V * rho * cross a * (sx (k mod nx P) / cell_w P * dy (k / nx P)).
  Proof.
    intros Hz Hk. rewrite rest_mass. unfold t_force, rest. rewrite EP, map_map. unfold rest_mp. cbn [q_m q_x q_b q_V q_s].
    set (l := layer P c rows (head P rows)).
    assert (X : forall xy, rho * V * comp a b * hat P (mkV3 (fst xy) (snd xy) 0) k -
        V * over (fun b0 => el a b0 (litho (snd xy)) * ghat P (mkV3 (fst xy) (snd xy) 0) b0 k) =
      rho * V * comp a b * hat P (mkV3 (fst xy) (snd xy) 0) k +
      (- (V * rho * gvec a) * ((surface - snd xy) * ghat P (mkV3 (fst xy) (snd xy) 0) AY k) +
       - (V * rho * cross a) * ((surface - snd xy) * ghat P (mkV3 (fst xy) (snd xy) 0) AX k))).
    { intros z. unfold over, litho. destruct a; cbn [el xx xy yx yy xz yz zx zy zz gvec cross comp]; unfold ghat; rewrite ?Hz; ring. }
    rewrite (map_ext _ _ X), !Rsum_plus, !Rsum_scal. unfold l. rewrite sum_hat, sum_gx.
    destruct Hk as [Hk|Hk]; [rewrite sum_gy by exact Hk|rewrite Hk]; ring.
  Qed.
  Lemma sx_in i : (0 < i < nx P - 1)%nat -> sx i = 0.
  Proof. intros Hi. unfold sx, beside. destruct (Nat.ltb_spec i (nx P - 1)), (Nat.ltb_spec 0 i), (Nat.leb_spec i (nx P - 1)); cbn [andb]; try lia; lra. Qed.

  Lemma zero_sum b a (h : V3 R -> R) : Rsum (map (fun q => q_m q * comp a (q_v q) * h (q_x q)) (rest b)) = 0.
  Proof.
    unfold rest. rewrite map_map. unfold rest_mp. cbn [q_m q_v q_x].
    rewrite (map_ext _ (fun xy => 0 * h (mkV3 (fst xy) (snd xy) 0))). - rewrite Rsum_scal. lra.
    - intros z. destruct a; cbn; unR; ring.
  Qed.
  Lemma rest_vel b a k : t_vel E (rest b) a k = 0.
  Proof. unfold t_vel. rewrite (zero_sum b a (fun x => hat (e_P E) x k)). destruct (Rlt_dec _ _); [unfold Rdiv; ring|reflexivity]. Qed.
  Definition quiet : M3 R := m3 (fun _ _ => 0).
  (** Nothing happens to the stress: an elastic solid keeps any, a fluid keeps its pressure. *)
  Context (Hmat : match mat with Solid _ _ => True | Fluid _ _ _ => gx = 0 end).
  Lemma still b z : t_stress E (rest_mp b z) quiet = litho (snd z) /\ t_pressure (rest_mp b z) quiet = rho * gy * (surface - snd z).
  Proof.
    assert (T0 : tr3 quiet / 3 = 0) by (unfold tr3, quiet, m3; cbn; lra).
    unfold t_stress, t_pressure, t_material. cbv zeta. rewrite T0. unfold rest_mp. cbn [q_mat q_s q_p]. destruct mat as [K g|K eta zeta].
    - split; [|unfold tr3, litho; cbn; lra]. unfold quiet, m3, over, litho. cbn [el xx xy xz yx yy yz zx zy zz delta]. f_equal; ring.
    - split; [|lra]. unfold quiet, m3, over, litho. rewrite Hmat. cbn [el xx xy xz yx yy yz zx zy zz delta]. unfold Rdiv. f_equal; ring.
  Qed.
  Lemma rest_strained b : map (t_strained E (rest b)) (rest b) = rest (e_g E).
  Proof.
    unfold rest at 2 3. rewrite map_map. apply map_ext. intros z.
    assert (Q : t_strain E (rest b) (rest_mp b z) = quiet).
    { unfold t_strain, quiet, m3. f_equal; (rewrite (fsum_ext _ _ (fun _ => 0)); [rewrite fsum_const; ring|]; intros; rewrite !rest_vel; lra). }
    unfold t_strained. rewrite Q. destruct (still b z) as [-> ->]. reflexivity.
  Qed.
  (** How much of the difference between gravity and what the stress carries reaches a point. *)
  Definition felt (a : axis) (x : V3 R) : R :=
    fsum (e_nodes E) (fun k => hat P x k * (if Rlt_dec (e_tol E) (t_mass E (rest v0) k) then e_open E a k else 0)).
  Definition kick (a : axis) (x : V3 R) : R := e_dt E * (e_damp E * (comp a (e_g E) - gvec a)) * felt a x.
  Definition kicked (z : R * R) : mp :=
    let x := mkV3 (fst z) (snd z) 0 in
    mkMp mat (rho * V) V (v3 (fun a => comp a x + e_dt E * kick a x)) (v3 (fun a => kick a x)) (litho (snd z)) (rho * gy * (surface - snd z)) (e_g E) true.
  Lemma rest_acc b a k : vz (e_g E) = 0 -> (0 <= e_tol E \/ forall a, comp a (e_g E) = gvec a) ->
    e_open E a k = 0 \/ (((0 < k / nx P)%nat \/ gvec a = 0) /\ ((0 < k mod nx P < nx P - 1)%nat \/ cross a = 0)) ->
    t_acc E (rest b) (rest (e_g E)) a k = e_damp E * (comp a (e_g E) - gvec a) * (if Rlt_dec (e_tol E) (t_mass E (rest v0) k) then e_open E a k else 0).
  Proof.
    intros Hz Ht HW. unfold t_acc. rewrite !(rest_mass _ k). destruct (Rlt_dec _ _) as [M|M]; [|lra]. destruct HW as [-> | (Hk & HX)]; [unfold Rdiv; ring|].
    rewrite rest_force by assumption. rewrite rest_mass.
    assert (Z : cross a * (sx (k mod nx P) / cell_w P * dy (k / nx P)) = 0).
    { destruct HX as [HX| ->]; [rewrite sx_in by exact HX; unfold Rdiv; ring|ring]. }
    replace (V * rho * cross a * (sx (k mod nx P) / cell_w P * dy (k / nx P))) with 0 by (rewrite Rmult_assoc, Z; ring).
    set (M0 := rho * V * (bx (k mod nx P) * by_ (k / nx P))) in *. clearbody M0. destruct Ht as [Ht|Ht]; [field; lra|rewrite Ht; unfold Rdiv; ring].
  Qed.
  Lemma rest_step b : vz (e_g E) = 0 -> (0 <= e_tol E \/ forall a, comp a (e_g E) = gvec a) ->
    (forall a k, (k < nodes P)%nat -> e_open E a k = 0 \/ (((0 < k / nx P)%nat \/ gvec a = 0) /\ ((0 < k mod nx P < nx P - 1)%nat \/ cross a = 0)) \/ a = AZ) ->
    t_step E (rest b) = map kicked (layer P c rows (head P rows)).
  Proof.
    intros Hz Ht HW. unfold t_step. cbv zeta. rewrite rest_strained. unfold rest at 3. rewrite map_map. apply map_ext. intros z. unfold t_moved, kicked, rest_mp.
    cbn [q_mat q_m q_V q_x q_v q_s q_p q_b q_first]. set (x := mkV3 (fst z) (snd z) 0).
    assert (A : forall a, fsum (e_nodes E) (fun k => hat (e_P E) x k * t_acc E (rest b) (rest (e_g E)) a k) = e_damp E * (comp a (e_g E) - gvec a) * felt a x).
    { intros a. unfold felt. rewrite <- fsum_scal. apply fsum_ext. intros k Hk. rewrite EP. unfold e_nodes in Hk. rewrite EP in Hk.
      destruct (HW a k Hk) as [H|[H| ->]]; [rewrite rest_acc; auto; ring..|].
      assert (C : comp AZ (e_g E) - gvec AZ = 0) by (cbn; rewrite Hz; lra). rewrite C.
      replace (t_acc E (rest b) (rest (e_g E)) AZ k) with 0; [ring|]. unfold t_acc. destruct (Rlt_dec _ _); [|reflexivity].
      replace (t_force E (rest (e_g E)) AZ k) with 0; [unfold Rdiv; ring|]. unfold t_force, rest. rewrite map_map. unfold rest_mp. cbn [q_m q_b q_x q_V q_s].
      rewrite (map_ext _ (fun xy => 0 * hat P (mkV3 (fst xy) (snd xy) 0) k)); [rewrite Rsum_scal; lra|].
      intros w. unfold over, litho. cbn [el zx zy zz comp ghat]. rewrite Hz. ring. }
    assert (C : forall a, fsum (e_nodes E) (fun k => hat (e_P E) x k * (t_vel E (rest b) a k + e_dt E * t_acc E (rest b) (rest (e_g E)) a k)) = kick a x).
    { intros a. unfold kick. rewrite Rmult_assoc, <- A, <- fsum_scal. apply fsum_ext. intros k _. rewrite rest_vel. ring. }
    unfold v3. rewrite !A, !C. f_equal; unfold kick; cbn [comp vx vy vz]; unfold v0; cbn [vx vy vz]; unR; f_equal; ring.
  Qed.
  Lemma kicked_rest z : (forall a, comp a (e_g E) = gvec a) -> kicked z = rest_mp (e_g E) z.
  Proof.
    intros H. unfold kicked, rest_mp. cbv zeta. unfold v3, kick. rewrite !H. cbn [comp vx vy vz]. unfold v0. f_equal; unR; f_equal; ring.
  Qed.

  (** ** Joined ends *)
  Lemma tie_at g i j : (i < nx P - 1)%nat -> tie P g (j * nx P + i) = g (j * nx P + i)%nat + (if Nat.eqb i 0 then g (j * nx P + (nx P - 1))%nat else 0).
  Proof.
    intros Hi. unfold tie. destruct (ProofsRing.node_at P HP j i ltac:(lia)) as [-> _].
    destruct (Nat.eqb_spec i 0) as [->|C]; [rewrite Nat.add_0_r; reflexivity|]. destruct (Nat.eqb_spec i (nx P - 1)); [lia|reflexivity].
  Qed.
  Lemma rest_dom b q : In q (rest b) -> in_dom P (q_x q).
  Proof.
    unfold rest. rewrite in_map_iff. intros (z & <- & A). destruct (layer_inside P HP c rows Hc Hr z A) as [X Y]. unfold in_dom, rest_mp. cbn [q_x vx vy].
    assert (0 <= head P rows). { unfold head. apply Rmult_le_pos; [apply pos_INR|]. destruct (ch P HP). lra. } lra.
  Qed.
  Lemma tie_sum b (w : mp -> R) i j : (i < nx P - 1)%nat ->
    Rsum (map (fun q => w q * rhat P (q_x q) i j) (rest b)) = tie P (fun k => Rsum (map (fun q => w q * hat P (q_x q) k) (rest b))) (j * nx P + i).
  Proof.
    intros Hi. rewrite (tie_Rsum P). apply Rsum_ext. intros q A. rewrite <- (tie_hat P HP _ _ _ (rest_dom b q A) Hi). unfold tie.
    destruct (Nat.eqb _ _); [ring|]. destruct (Nat.eqb _ _); ring.
  Qed.
  Lemma r_rest_mass b i j : (i < nx P - 1)%nat -> r_mass E (rest b) i j = rho * V * (INR c * by_ j).
  Proof.
    intros Hi. unfold r_mass. rewrite EP, (tie_sum b q_m i j Hi).
    assert (X : forall k, Rsum (map (fun q => q_m q * hat P (q_x q) k) (rest b)) = rho * V * (bx (k mod nx P) * by_ (k / nx P))).
    { intros k. pose proof (rest_mass b k) as M. unfold t_mass in M. rewrite EP in M. exact M. }
    rewrite tie_at by exact Hi. rewrite !X. pose proof HP as (Nx & _).
    destruct (ProofsRing.node_at P HP j i ltac:(lia)) as [-> ->]. destruct (ProofsRing.node_at P HP j (nx P - 1) ltac:(lia)) as [-> ->].
    unfold bx. rewrite !beside_edge by lia. unfold edge_weight. rewrite Nat.eqb_refl, orb_true_r.
    destruct (Nat.eqb_spec i 0), (Nat.eqb_spec i (nx P - 1)); cbn [orb]; try lia; field.
  Qed.
  Lemma r_rest_force b a i j : vz b = 0 -> (i < nx P - 1)%nat -> (0 < j)%nat \/ gvec a = 0 -> r_force E (rest b) a i j = r_mass E (rest b) i j * (comp a b - gvec a).
  Proof.
    intros Hz Hi Hj. rewrite r_rest_mass by exact Hi.
    assert (X : r_force E (rest b) a i j = tie P (fun k => t_force E (rest b) a k) (j * nx P + i)).
    { unfold t_force, r_force. rewrite EP, (tie_Rsum P). apply Rsum_ext. intros q A. pose proof (rest_dom b q A) as D.
      rewrite <- (tie_hat P HP _ _ _ D Hi). unfold over. rewrite <- !(tie_ghat P HP _ _ _ _ D Hi). unfold tie.
      destruct (Nat.eqb _ _); [ring|]. destruct (Nat.eqb _ _); ring. }
    rewrite X, tie_at by exact Hi. pose proof HP as (Nx & _).
    destruct (ProofsRing.node_at P HP j i ltac:(lia)) as [M1 D1]. destruct (ProofsRing.node_at P HP j (nx P - 1) ltac:(lia)) as [M2 D2].
    rewrite !rest_force by (try exact Hz; rewrite ?D1, ?D2; exact Hj). rewrite !rest_mass, M1, D1, M2, D2.
    unfold bx, sx. rewrite !beside_edge by lia. unfold edge_weight. rewrite Nat.eqb_refl, orb_true_r. destruct (cw P HP) as [W _].
    destruct (Nat.eqb_spec i 0) as [C|C], (Nat.eqb_spec i (nx P - 1)); cbn [orb]; try lia.
    - subst i. unfold beside. destruct (Nat.ltb_spec 0 (nx P - 1)), (Nat.ltb_spec (nx P - 1) (nx P - 1)), (Nat.leb_spec (nx P - 1) (nx P - 1)); cbn [Nat.ltb Nat.leb andb]; try lia. field. lra.
    - pose proof (sx_in i ltac:(lia)) as S0. unfold sx in S0. rewrite S0. field. lra.
  Qed.
  Lemma r_rest_vel b a i j : r_vel E (rest b) a i j = 0.
  Proof. unfold r_vel. rewrite (zero_sum b a (fun x => rhat (e_P E) x i j)). destruct (Rlt_dec _ _); [unfold Rdiv; ring|reflexivity]. Qed.
  Lemma rsum_zero f : (forall i j, f i j = 0) -> rsum E f = 0.
  Proof. intros H. unfold rsum. rewrite (fsum_ext _ _ (fun _ => 0)); [rewrite fsum_const; ring|]. intros j _. rewrite (fsum_ext _ _ (fun _ => 0)); [rewrite fsum_const; ring|]. intros; apply H. Qed.
  Lemma r_rest_strained b : map (r_strained E (rest b)) (rest b) = rest (e_g E).
  Proof.
    unfold rest at 2 3. rewrite map_map. apply map_ext. intros z.
    assert (Q : r_strain E (rest b) (rest_mp b z) = quiet).
    { unfold r_strain, quiet, m3. f_equal; (rewrite rsum_zero; [ring|]; intros; rewrite !r_rest_vel; lra). }
    unfold r_strained. rewrite Q. destruct (still b z) as [-> ->]. reflexivity.
  Qed.
  Lemma r_rest_step b : vz (e_g E) = 0 -> (forall a, comp a (e_g E) = gvec a) ->
    (forall a i j, (i < nx P - 1)%nat -> (j < ny P)%nat -> r_open E a i j = 0 \/ ((0 < j)%nat \/ gvec a = 0) \/ a = AZ) ->
    r_step E (rest b) = rest (e_g E).
  Proof.
    intros Hz Ht HW. unfold r_step. cbv zeta. rewrite r_rest_strained. unfold rest at 3 4. rewrite map_map. apply map_ext_in. intros z HZ. unfold r_moved, rest_mp.
    cbn [q_mat q_m q_V q_x q_v q_s q_p q_b q_first]. set (x := mkV3 (fst z) (snd z) 0).
    assert (A : forall a i j, (i < nx P - 1)%nat -> (j < ny P)%nat -> r_acc E (rest b) (rest (e_g E)) a i j = 0).
    { intros a i j Hi Hj. unfold r_acc. destruct (Rlt_dec _ _) as [M|M]; [|reflexivity]. destruct (HW a i j Hi Hj) as [-> |[H| ->]].
      - unfold Rdiv; ring.
      - rewrite r_rest_force by assumption. rewrite Ht. unfold Rdiv. ring.
      - replace (r_force E (rest (e_g E)) AZ i j) with 0; [unfold Rdiv; ring|]. unfold r_force, rest. rewrite map_map. unfold rest_mp. cbn [q_m q_b q_x q_V q_s].
        rewrite (map_ext _ (fun xy => 0 * rhat P (mkV3 (fst xy) (snd xy) 0) i j)); [rewrite Rsum_scal; lra|].
        intros w. unfold over, litho. cbn [el zx zy zz comp rghat]. rewrite Hz. ring. }
    assert (C : forall f, rsum E (fun i j => f i j * r_acc E (rest b) (rest (e_g E)) AX i j) = 0 /\ rsum E (fun i j => f i j * r_acc E (rest b) (rest (e_g E)) AY i j) = 0 /\ rsum E (fun i j => f i j * r_acc E (rest b) (rest (e_g E)) AZ i j) = 0).
    { intros f. unfold rsum. rewrite EP. repeat split; (rewrite (fsum_ext _ _ (fun _ => 0)); [rewrite fsum_const; ring|]; intros j Hj;
        rewrite (fsum_ext _ _ (fun _ => 0)); [rewrite fsum_const; ring|]; intros i Hi; rewrite A by assumption; ring). }
    assert (C' : forall a, rsum E (fun i j => rhat (e_P E) x i j * (r_vel E (rest b) a i j + e_dt E * r_acc E (rest b) (rest (e_g E)) a i j)) = 0).
    { intros a. unfold rsum. rewrite EP. rewrite (fsum_ext _ _ (fun _ => 0)); [rewrite fsum_const; ring|]; intros j Hj;
        rewrite (fsum_ext _ _ (fun _ => 0)); [rewrite fsum_const; ring|]; intros i Hi. rewrite A, r_rest_vel by assumption. ring. }
    destruct (C (fun i j => rhat (e_P E) x i j)) as (C1 & C2 & C3). unfold v3. rewrite C1, C2, C3, !C'. f_equal.
    - replace (mkV3 (comp AX x + e_dt E * 0) (comp AY x + e_dt E * 0) (comp AZ x + e_dt E * 0)) with x by (unfold x; cbn; f_equal; ring).
      unfold back. rewrite EP. pose proof (rest_dom b (rest_mp b z) (in_map _ _ _ HZ)) as D. unfold rest_mp, in_dom in D. cbn [q_x] in D. fold x in D.
      destruct (Rlt_dec _ _); [lra|]. destruct (Rlt_dec _ _); [lra|reflexivity].
    - unfold v0; cbn [comp vx vy vz]; unR. f_equal; ring.
  Qed.
End Rest.
