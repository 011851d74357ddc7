(** * A step of the model against the scheme of SpecScheme.v. *)
From Coq Require Import ZArith Reals List Bool Arith Lra Lia.
From Verif Require Import State NumR Spec SpecLaws SpecStep SpecScheme LibList LibR ModelGrid ModelConstit ModelParticle ModelMPList
  ModelIntegr ModelMain ProofsGrid ProofsMap ProofsP2G ProofsWalls ProofsLaws ProofsInOut ProofsHist Concrete
  ThmMapping ThmWalls ThmLaws ThmInOut ThmHist ProofsStep ProofsPoints ThmStep ThmBalance ThmEnergy ThmFall.
Import ListNotations.
Local Open Scope R_scope.

(** ** Gradients of the hat functions *)
Lemma slope_mid t : 0 <= t < 1 -> slope t = -1.
Proof. intros. unfold slope. destruct (Rlt_dec t (-1)); [lra|]. destruct (Rlt_dec t 0); [lra|]. destruct (Rlt_dec t 1); lra. Qed.
Lemma slope_low t : -1 <= t < 0 -> slope t = 1.
Proof. intros. unfold slope. destruct (Rlt_dec t (-1)); [lra|]. destruct (Rlt_dec t 0); lra. Qed.
Lemma slope_far t : t < -1 \/ 1 <= t -> slope t = 0.
Proof. intros. unfold slope. destruct (Rlt_dec t (-1)); [lra|]. destruct (Rlt_dec t 0); [lra|]. destruct (Rlt_dec t 1); lra. Qed.
Lemma div_range a d : 0 < d -> 0 <= a < d -> 0 <= a / d < 1.
Proof.
  intros D A. split; [apply Rmult_le_pos; [lra|left; apply Rinv_0_lt_compat; auto]|].
  apply Rmult_lt_reg_r with d; auto. unfold Rdiv. rewrite Rmult_assoc, Rinv_l; lra.
Qed.
Lemma slope_corner d a : 0 < d -> 0 <= a < d -> slope ((a - 0) / d) = -1 /\ slope ((a - d) / d) = 1.
Proof.
  intros D A. pose proof (div_range a d D A). rewrite Rminus_0_r. split; [apply slope_mid; lra|].
  replace ((a - d) / d) with (a / d - 1) by (field; lra). apply slope_low. lra.
Qed.
Lemma tent_corner d a : 0 < d -> 0 <= a < d -> tent ((a - 0) / d) = 1 - a / d /\ tent ((a - d) / d) = a / d.
Proof.
  intros D A. pose proof (div_range a d D A). rewrite Rminus_0_r. replace ((a - d) / d) with (a / d - 1) by (field; lra).
  unfold tent. unfold Rabs. split.
  - destruct (Rcase_abs (a / d)); [lra|]. apply Rmax_right. lra.
  - destruct (Rcase_abs (a / d - 1)); [|lra]. rewrite Rmax_right; lra.
Qed.

Section G.
  Context (P : gridp R) (HP : proper P).
  Lemma ghat_corner x r a : in_dom P x -> (r < 4)%nat ->
    ghat P x a (corner_node P (cell_node P x) r) = comp a (wG (cell_w P) (cell_h P) (loc P x) r).
  Proof.
    intros H Hr. destruct (loc_bounds P HP x H) as [Lx Ly].
    pose proof (cell_w_pos P HP) as W. pose proof (cell_h_pos P HP) as Hh.
    destruct (corner_xy P HP x r H Hr) as [EX EY].
    assert (X : forall k, k = corner_node P (cell_node P x) r ->
      vx x - node_x P k = vx (loc P x) - fst (corner (cell_w P) (cell_h P) r) /\
      vy x - node_y P k = vy (loc P x) - snd (corner (cell_w P) (cell_h P) r)).
    { intros k ->. rewrite EX, EY. unfold loc. cbn [vx vy]. split; lra. }
    destruct (X _ eq_refl) as [X1 X2]. unfold ghat. rewrite X1, X2. clear X X1 X2 EX EY H.
    generalize dependent (loc P x). intros z Lx Ly. generalize dependent (cell_w P). generalize dependent (cell_h P). intros h Hh Ly w W Lx.
    destruct (slope_corner w (vx z) W Lx) as [S1 S2]. destruct (slope_corner h (vy z) Hh Ly) as [S3 S4].
    destruct (tent_corner w (vx z) W Lx) as [T1 T2]. destruct (tent_corner h (vy z) Hh Ly) as [T3 T4].
    unfold wG. do 4 (destruct r as [|r]; [destruct a; cbn [corner fst snd]; rewrite ?S1, ?S2, ?S3, ?S4, ?T1, ?T2, ?T3, ?T4; cbn; unR; try reflexivity; field; lra|]). lia.
  Qed.
  Lemma slope_col_far x n : x_m P <= x < x_M P -> (n <> cell_i P x)%nat -> (n <> cell_i P x + 1)%nat ->
    slope ((x - (x_m P + INR n * cell_w P)) / cell_w P) = 0.
  Proof.
    intros H N1 N2. destruct (cell_i_spec P HP _ H) as (_ & B & _).
    pose proof (cell_w_pos P HP) as W. rewrite plus_INR in B. simpl (INR 1) in B. apply slope_far.
    assert (D : (n < cell_i P x \/ cell_i P x + 2 <= n)%nat) by lia. destruct D as [D|D].
    - right. apply Rmult_le_reg_r with (cell_w P); auto. unfold Rdiv. rewrite Rmult_assoc, Rinv_l by lra.
      assert (INR n + 1 <= INR (cell_i P x)) by (rewrite <- S_INR; apply le_INR; lia).
      assert ((INR n + 1) * cell_w P <= INR (cell_i P x) * cell_w P) by (apply Rmult_le_compat_r; lra). lra.
    - left. apply Rmult_lt_reg_r with (cell_w P); auto. unfold Rdiv. rewrite Rmult_assoc, Rinv_l by lra.
      assert (INR (cell_i P x) + 2 <= INR n).
      { replace 2 with (INR 2) by reflexivity. rewrite <- plus_INR. apply le_INR; lia. }
      assert ((INR (cell_i P x) + 2) * cell_w P <= INR n * cell_w P) by (apply Rmult_le_compat_r; lra). lra.
  Qed.
  Lemma slope_row_far y n : y_m P <= y < y_M P -> (n <> cell_j P y)%nat -> (n <> cell_j P y + 1)%nat ->
    slope ((y - (y_m P + INR n * cell_h P)) / cell_h P) = 0.
  Proof.
    intros H N1 N2. destruct (cell_j_spec P HP _ H) as (_ & B & _).
    pose proof (cell_h_pos P HP) as W. rewrite plus_INR in B. simpl (INR 1) in B. apply slope_far.
    assert (D : (n < cell_j P y \/ cell_j P y + 2 <= n)%nat) by lia. destruct D as [D|D].
    - right. apply Rmult_le_reg_r with (cell_h P); auto. unfold Rdiv. rewrite Rmult_assoc, Rinv_l by lra.
      assert (INR n + 1 <= INR (cell_j P y)) by (rewrite <- S_INR; apply le_INR; lia).
      assert ((INR n + 1) * cell_h P <= INR (cell_j P y) * cell_h P) by (apply Rmult_le_compat_r; lra). lra.
    - left. apply Rmult_lt_reg_r with (cell_h P); auto. unfold Rdiv. rewrite Rmult_assoc, Rinv_l by lra.
      assert (INR (cell_j P y) + 2 <= INR n).
      { replace 2 with (INR 2) by reflexivity. rewrite <- plus_INR. apply le_INR; lia. }
      assert ((INR (cell_j P y) + 2) * cell_h P <= INR n * cell_h P) by (apply Rmult_le_compat_r; lra). lra.
  Qed.
  Lemma ghat_far x a k : in_dom P x -> (forall r, (r < 4)%nat -> k <> corner_node P (cell_node P x) r) -> ghat P x a k = 0.
  Proof.
    intros [Hx Hy] N. unfold ghat, node_x, node_y.
    destruct (Nat.eq_dec (col P k) (cell_i P (vx x))) as [C|C];
    [|destruct (Nat.eq_dec (col P k) (cell_i P (vx x) + 1)) as [C'|C']].
    3: { rewrite (tent_col_far _ HP _ _ Hx C C'), (slope_col_far _ _ Hx C C'). destruct a; unfold Rdiv; ring. }
    all: destruct (Nat.eq_dec (row P k) (cell_j P (vy x))) as [D|D];
      [|destruct (Nat.eq_dec (row P k) (cell_j P (vy x) + 1)) as [D'|D'];
        [|rewrite (tent_row_far _ HP _ _ Hy D D'), (slope_row_far _ _ Hy D D'); destruct a; unfold Rdiv; ring]].
    all: exfalso; assert (E : k = (row P k * nx P + col P k)%nat)
      by (unfold row, col; pose proof (Nat.div_mod k (nx P)); destruct HP; nia).
    - apply (N 0%nat); [lia|]. simpl. unfold cell_node. rewrite E, C, D. lia.
    - apply (N 3%nat); [lia|]. simpl. unfold cell_node. rewrite E, C, D'. nia.
    - apply (N 1%nat); [lia|]. simpl. unfold cell_node. rewrite E, C', D. nia.
    - apply (N 2%nat); [lia|]. simpl. unfold cell_node. rewrite E, C', D'. nia.
  Qed.
End G.

(** The weight with which the gradient of a located point acts on a node. *)
Lemma wt_ghat P p a k : proper (pG P) -> located (pG P) p ->
  fsum 4 (fun r => hit (nodes (pG P)) (nearby (pnstar p) r (nx (pG P))) k * comp a (Gr p r)) = ghat (pG P) (px p) a k.
Proof.
  intros HP HL. pose proof HL as (HD & EN & _).
  rewrite (fsum_ext _ _ (fun r => (if Nat.eqb k (corner_node (pG P) (cell_node (pG P) (px p)) r) then 1 else 0)
                                  * comp a (wG (cell_w (pG P)) (cell_h (pG P)) (loc (pG P) (px p)) r))).
  2: { intros r Hr. rewrite EN, hit_corner by auto. rewrite (located_G _ _ _ HL). reflexivity. }
  destruct (List.in_dec Nat.eq_dec k (map (corner_node (pG P) (cell_node (pG P) (px p))) (seq 0 4))) as [Hin|Hn].
  - apply in_map_iff in Hin. destruct Hin as (r & <- & Hr). apply in_seq in Hr.
    rewrite (fsum_single 4 r).
    + rewrite Nat.eqb_refl, Rmult_1_l. rewrite ghat_corner; auto; lia.
    + lia.
    + intros s Hs Hne. destruct (Nat.eqb_spec (corner_node (pG P) (cell_node (pG P) (px p)) r)
                                            (corner_node (pG P) (cell_node (pG P) (px p)) s)) as [E|E]; [|lra].
      exfalso. apply Hne. symmetry. eapply corner_inj; eauto; lia.
  - rewrite ghat_far; auto.
    + apply fsum_zero. intros r Hr.
      destruct (Nat.eqb_spec k (corner_node (pG P) (cell_node (pG P) (px p)) r)) as [E|E]; [|lra].
      exfalso. apply Hn. apply in_map_iff. exists r. split; auto. apply in_seq. lia.
    + intros r Hr E. apply Hn. apply in_map_iff. exists r. split; auto. apply in_seq. lia.
Qed.
Lemma corner_gsum P p a X : proper (pG P) -> located (pG P) p ->
  fsum 4 (fun r => X (corner_node (pG P) (cell_node (pG P) (px p)) r) * comp a (Gr p r)) =
  fsum (nodes (pG P)) (fun k => X k * ghat (pG P) (px p) a k).
Proof.
  intros HP HL. rewrite <- (moment_sum P X p (fun r => comp a (Gr p r)) HP HL). apply fsum_ext. intros k Hk.
  rewrite <- (wt_ghat P p a k HP HL). reflexivity.
Qed.
Lemma fint_ghat P p a k : proper (pG P) -> located (pG P) p ->
  fint_at P p a k = pV p * over (fun b => el a b (pstress p) * ghat (pG P) (px p) b k).
Proof.
  intros HP HL. unfold fint_at, over. rewrite <- !(wt_ghat P p _ k HP HL). rewrite <- !fsum_scal, <- !fsum_plus, <- fsum_scal.
  apply fsum_ext. intros r Hr. destruct a; cbn; ring.
Qed.

(** ** Strain and stress of one point *)
Lemma m3_ext (A B : M3 R) : (forall a b, el a b A = el a b B) -> A = B.
Proof.
  intros H. destruct A, B. pose proof (H AX AX). pose proof (H AX AY). pose proof (H AX AZ). pose proof (H AY AX). pose proof (H AY AY).
  pose proof (H AY AZ). pose proof (H AZ AX). pose proof (H AZ AY). pose proof (H AZ AZ). cbn in *. congruence.
Qed.
Lemma el_m3 f a b : el a b (m3 f) = f a b.
Proof. destruct a, b; reflexivity. Qed.

Lemma strain_scheme P G p p' : proper (pG P) -> located (pG P) p ->
  length (gm G) = nodes (pG P) -> length (gq G) = nodes (pG P) -> update_strain P G p = Ok p' ->
  p' = p <| pdstrain := pdstrain p' |> <| pL := pL p' |> <| pstrain := pstrain p' |> /\
  (forall a b, el a b (pdstrain p') = p_dt P * fsum (nodes (pG P)) (fun k =>
     (node_v P G a k * ghat (pG P) (px p) b k + node_v P G b k * ghat (pG P) (px p) a k) / 2)) /\
  (forall a b, p_dt P * el a b (pL p') = 2 * el a b (pdstrain p')).
Proof.
  intros HP HL Lm Lq E. pose proof HL as (HD & EN & _).
  set (c := fun r => corner_node (pG P) (cell_node (pG P) (px p)) r).
  assert (NV : forall r, (r < 4)%nat -> nodal_velocity P G (nearby (pnstar p) r (nx (pG P))) =
    Ok (mkV3 (node_v P G AX (c r)) (node_v P G AY (c r)) (node_v P G AZ (c r)))).
  { intros r Hr. unfold node_v, c. unfold nodal_velocity. rewrite EN.
    rewrite (py_get_some (gm G) _ (corner_node (pG P) (cell_node (pG P) (px p)) r) 0)
      by (rewrite Lm; apply corner_in_range; auto).
    cbn [bind]. cbn [nltb Num_R]. destruct (Rltb (p_Mtol P) _).
    - rewrite (py_get_some (gq G) _ (corner_node (pG P) (cell_node (pG P) (px p)) r) v0)
        by (rewrite Lq; apply corner_in_range; auto).
      cbn [bind]. f_equal.
    - f_equal. }
  assert (S4 : forall a b, fsum (nodes (pG P)) (fun k => node_v P G a k * ghat (pG P) (px p) b k) =
     fsum 4 (fun r => node_v P G a (c r) * comp b (Gr p r))).
  { intros a b. symmetry. apply (corner_gsum P p b (node_v P G a) HP HL). }
  assert (S5 : forall a b, fsum (nodes (pG P)) (fun k => (node_v P G a k * ghat (pG P) (px p) b k + node_v P G b k * ghat (pG P) (px p) a k) / 2) =
     (fsum 4 (fun r => node_v P G a (c r) * comp b (Gr p r)) + fsum 4 (fun r => node_v P G b (c r) * comp a (Gr p r))) / 2).
  { intros a b. rewrite <- !S4, <- fsum_plus. unfold Rdiv. rewrite (Rmult_comm (fsum _ _)), <- fsum_scal. apply fsum_ext. intros. ring. }
  assert (S6 : forall a b, p_dt P * fsum (nodes (pG P)) (fun k =>
     (node_v P G a k * ghat (pG P) (px p) b k + node_v P G b k * ghat (pG P) (px p) a k) / 2) = p_dt P * ((fsum 4 (fun r => node_v P G a (c r) * comp b (Gr p r)) + fsum 4 (fun r => node_v P G b (c r) * comp a (Gr p r))) / 2))
    by (intros; rewrite S5; reflexivity).
  clear S4 S5. clearbody c. unfold update_strain, four in E. cbn [foldM] in E.
  rewrite (NV 0%nat) in E by lia. rewrite (NV 1%nat) in E by lia.
  rewrite (NV 2%nat) in E by lia. rewrite (NV 3%nat) in E by lia.
  cbn [bind fst snd] in E. injection E as <-. split; [destruct p; reflexivity|].
  cbn [pdstrain pL set].
  split; intros a b; [rewrite S6|]; clear; cbn [fsum].
  all: destruct a, b; cbn; unR; field.
Qed.

Lemma rate_scheme (l s d : M3 R) dt : (forall a b, dt * el a b l = 2 * el a b d) -> forall a b,
  el a b (mmuls (madd (mm l s) (mm s l)) dt) = 2 * over (fun c => el a c d * el c b s + el a c s * el c b d).
Proof.
  intros H a b.
  transitivity (over (fun c => (dt * el a c l) * el c b s + el a c s * (dt * el c b l))).
  - destruct a, b; cbn; unfold over; cbn; ring.
  - unfold over. rewrite !H. ring.
Qed.

Lemma law_scheme P S0 So ip (p p' : particle R) G G' q E : s_law So = Elastic \/ s_law So = Viscous ->
  apply_law P S0 So ip p G = Ok (p', G') -> q_mat q = matter_of So -> q_s q = pstress p -> q_p q = ppressure p -> e_dt E = p_dt P ->
  pL p' = pL p /\ pstress p' = pstress p /\ madd (pstress p) (pdstress p') = t_material E q (pdstrain p) /\
  ppressure p' = t_pressure q (pdstrain p).
Proof.
  intros HL X QM QS QP QE. unfold t_material, t_pressure. rewrite QM, QS, QP, QE. unfold matter_of.
  destruct HL as [HL|HL]; unfold apply_law in X; rewrite HL in X |- *.
  - unfold elastic in X. pbinds X. injection X as <- _.
    apply attr_ok in E0. apply attr_ok in E1. rewrite E0, E1. cbn [pL pstress pdstress ppressure set orz].
    split; [reflexivity|]. split; [reflexivity|]. split; [|unfold trace, tr3; unR; reflexivity].
    apply m3_ext. intros a' b'. rewrite el_m3. destruct a', b'; cbn; unfold tr3; unR; field.
  - unfold viscous in X. pbinds X. injection X as <- _.
    repeat match goal with H : attr _ = Ok _ |- _ => apply attr_ok in H end.
    rewrite E0, E1, E2. cbn [pL pstress pdstress ppressure set orz].
    split; [reflexivity|]. split; [reflexivity|]. split; [|unfold trace, tr3; unR; cbn; unR; reflexivity].
    apply m3_ext. intros a' b'. rewrite el_m3. destruct a', b'; cbn; unfold tr3; unR; unfold Rdiv; ring.
Qed.

Lemma stress_scheme P S0 k ph (p p' : particle R) G G' q E : proper (pG P) -> located (pG P) p ->
  length (gm G) = nodes (pG P) -> length (gq G) = nodes (pG P) ->
  s_law (ph_sol ph) = Elastic \/ s_law (ph_sol ph) = Viscous -> stress_one P S0 k ph p G = Ok (p', G') ->
  q_mat q = matter_of (ph_sol ph) -> q_s q = pstress p -> q_p q = ppressure p -> e_dt E = p_dt P ->
  let d := m3 (fun a b => p_dt P * fsum (nodes (pG P)) (fun j =>
     (node_v P G a j * ghat (pG P) (px p) b j + node_v P G b j * ghat (pG P) (px p) a j) / 2)) in
  pstress p' = t_stress E q d /\ ppressure p' = t_pressure q d.
Proof.
  intros HP HL Lm Lq HW X QM QS QP QE d. unfold stress_one in X. pbinds X.
  destruct (strain_scheme P G p a HP HL Lm Lq E0) as (F & D & LL).
  assert (DD : pdstrain a = d) by (apply m3_ext; intros; rewrite D; unfold d; rewrite el_m3; reflexivity).
  unfold update_stress in X. pbinds X. injection X as <- _.
  match goal with H : apply_law _ _ _ _ _ _ = Ok (?b, _) |- _ => destruct (law_scheme P S0 (ph_sol ph) k a b G _ q E HW H) as (A1 & A2 & A3 & A4); auto end.
  { rewrite F. exact QS. } { rewrite F. exact QP. }
  cbn [pstress ppressure set]. rewrite DD in *. split; [|exact A4].
  apply m3_ext. intros x y. unfold t_stress. rewrite el_m3, <- A3.
  rewrite A1, A2. assert (ES : pstress a = q_s q) by (rewrite QS, F; reflexivity). rewrite ES.
  rewrite <- (rate_scheme (pL a) (q_s q) d (p_dt P) LL). destruct x, y; cbn; unR; ring.
Qed.

(** ** Lists of points *)
Lemma psum_bodies (c0 : phase R -> particle R -> R) (c : mp -> R) L : (forall k ph p, c0 ph p = c (mp_of k ph p)) ->
  forall k, psum L c0 = Rsum (map c (bodies_from k L)).
Proof.
  intros H. unfold psum. induction L as [|ph L IH]; intros k; [reflexivity|].
  cbn [bodies_from map Rsum fold_right]. rewrite map_app, map_map. change (fold_right Rplus 0) with Rsum.
  rewrite (IH (Datatypes.S k)). unfold Rsum at 3. rewrite fold_right_app. fold (Rsum (map c (bodies_from (Datatypes.S k) L))).
  generalize (Rsum (map c (bodies_from (Datatypes.S k) L))). intros z. generalize (live ph). intros l.
  induction l as [|p l IHl]; cbn [map Rsum fold_right]; [lra|]. unfold Rsum in IHl. rewrite <- IHl, (H k). lra.
Qed.

Lemma Lrel_bodies (R1 : phase R -> particle R -> particle R -> Prop) (F : mp -> mp) L L' : Lrel R1 L L' ->
  (forall k ph ph' p p', In ph L -> In p (live ph) -> ph_sol ph' = ph_sol ph -> ph_sv ph' = ph_sv ph -> R1 ph p p' ->
     mp_of k ph' p' = F (mp_of k ph p)) -> forall k, bodies_from k L' = map F (bodies_from k L).
Proof.
  intros HR HF. induction HR as [|ph ph' L L' (A1 & A2 & A3 & A4 & _) HR IH]; intros k; [reflexivity|].
  cbn [bodies_from]. rewrite map_app. f_equal.
  - assert (X : forall p p', In p (live ph) -> R1 ph p p' -> mp_of k ph' p' = F (mp_of k ph p)) by (intros; apply HF; auto; left; auto).
    rewrite map_map. clear - A4 X. induction A4 as [|p p' l l' H A4 IH]; [reflexivity|]. cbn [map]. f_equal.
    + apply X; auto. left; reflexivity.
    + apply IH. intros q q' Hq. apply X. right. exact Hq.
  - apply IH. intros j q q' p p' Q. apply HF. right. exact Q.
Qed.

Definition grav (g : V3 R) (q : mp) : mp :=
  mkMp (q_mat q) (q_m q) (q_V q) (q_x q) (q_v q) (q_s q) (q_p q) (if q_first q then g else q_b q) (q_first q).

Lemma gravity_each P k (f : particle R -> mp) n : forall l (u : unit) l' u', (forall p, f (increment_gravity P k p) = grav (body (p_loads P)) (f p)) ->
  each n (fun p (_ : unit) => p <- Ok (increment_gravity P k p) ;; Ok (p, tt)) l u = Ok (l', u') ->
  map f (firstn n l') = map (fun p => grav (body (p_loads P)) (f p)) (firstn n l).
Proof.
  induction n as [|n IH]; intros l u l' u' H E; cbn [each] in E.
  - injection E as <- _. reflexivity.
  - destruct l as [|p l]; [discriminate|]. cbn [bind] in E. pbinds E. injection E as <- _. cbn [firstn map]. f_equal; [apply H|].
    eapply IH; eassumption.
Qed.
Lemma gravity_bodies P L L1 : update_forces P L = Ok L1 -> bodies L1 = map (grav (body (p_loads P))) (bodies L).
Proof.
  unfold update_forces, points_, points, bodies. intros E. pbinds E. injection E as ->.
  match goal with H : forM _ _ _ _ = Ok _ |- _ => revert H end. generalize 0%nat as k.
  match goal with |- context [Ok (_, ?b)] => revert b end. revert L1.
  induction L as [|ph L IH]; intros L1 b k E; cbn [forM] in E.
  - injection E as <- _. reflexivity.
  - pbinds E. injection E as <- _.
    pbinds E0. injection E0 as <- _.
    cbn [bodies_from]. rewrite map_app. f_equal; [|destruct b1; eapply IH; eassumption].
    unfold live. cbn [ph_n ph_pts set]. rewrite map_map.
    eapply (gravity_each P k (mp_of k ph)); [|eassumption].
    intros p. unfold increment_gravity, mp_of, grav, velocity. destruct (Nat.eqb k 0); reflexivity.
Qed.
