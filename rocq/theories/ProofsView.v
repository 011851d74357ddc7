(** * The scheme is the same in every view. *)
From Coq Require Import ZArith Reals List Bool Arith Lra Lia.
From Verif Require Import State NumR LibR LibList Spec SpecLaws SpecScheme SpecView ProofsGrid ProofsScheme.
Import ListNotations.
Local Open Scope R_scope.

Lemma scale_div o m c x d : m <> 0 -> o * (m * c * x) / (m * d) = c * (o * x / d).
Proof. intros H. unfold Rdiv. rewrite Rinv_mult. transitivity (m * / m * (c * (o * (x * / d)))); [ring|]. rewrite Rinv_r by exact H. ring. Qed.

Section Sym.
  Context (y : view) (FY : fair y).
  Notation pi := (y_axis y). Notation sg := (y_sign y).
  Notation mu := (y_mass y). Notation el_ := (y_len y). Notation tau := (y_time y).

  Lemma sg2 a : sg a * sg a = 1.
  Proof. destruct (fr_sign y FY a) as [->| ->]; lra. Qed.
  Lemma see_vec_comp u w a : comp (pi a) (see_vec y u w) = sg a * u * comp a w.
  Proof.
    unfold see_vec. transitivity (sg (pi (pi a)) * u * comp (pi (pi a)) w); [destruct (pi a); reflexivity|].
    rewrite (fr_inv y FY). reflexivity.
  Qed.
  Lemma see_point_comp x a : comp (pi a) (see_point y x) = comp (pi a) (y_orig y) + sg a * el_ * comp a x.
  Proof.
    unfold see_point. transitivity (comp (pi a) (y_orig y) + sg (pi (pi a)) * el_ * comp (pi (pi a)) x); [destruct (pi a); reflexivity|].
    rewrite (fr_inv y FY). reflexivity.
  Qed.
  Lemma see_mat_el u m a b : el (pi a) (pi b) (see_mat y u m) = sg a * sg b * u * el a b m.
  Proof. unfold see_mat. rewrite el_m3, !(fr_inv y FY). reflexivity. Qed.
  Lemma vec_ext (u v : V3 R) : (forall a, comp (pi a) u = comp (pi a) v) -> u = v.
  Proof. intros H. apply v3_ext. intros a. rewrite <- (fr_inv y FY a). apply H. Qed.
  Lemma mat_ext (u v : M3 R) : (forall a b, el (pi a) (pi b) u = el (pi a) (pi b) v) -> u = v.
  Proof.
    intros H. assert (K : forall a b, el a b u = el a b v) by (intros a b; rewrite <- (fr_inv y FY a), <- (fr_inv y FY b); apply H).
    destruct u, v. pose proof (K AX AX). pose proof (K AX AY). pose proof (K AX AZ). pose proof (K AY AX). pose proof (K AY AY).
    pose proof (K AY AZ). pose proof (K AZ AX). pose proof (K AZ AY). pose proof (K AZ AZ). cbn in *. congruence.
  Qed.
  Lemma comp_v3 f a : comp a (v3 f) = f a.
  Proof. destruct a; reflexivity. Qed.
  Lemma over_pi f : over (fun a => f (pi a)) = over f.
  Proof.
    unfold over. pose proof (fr_inv y FY AX) as HX. pose proof (fr_inv y FY AY) as HY. pose proof (fr_inv y FY AZ) as HZ.
    destruct (pi AX) eqn:E1, (pi AY) eqn:E2, (pi AZ) eqn:E3; try congruence; ring.
  Qed.
  Lemma delta_pi a b : delta (pi a) (pi b) = delta a b.
  Proof.
    assert (I : pi a = pi b -> a = b) by (intros H; rewrite <- (fr_inv y FY a), H; apply (fr_inv y FY)).
    assert (D : forall a b, delta a b = if (match a, b with AX, AX | AY, AY | AZ, AZ => true | _, _ => false end) then 1 else 0)
      by (intros [] []; reflexivity).
    destruct (pi a) eqn:E1, (pi b) eqn:E2, a, b; try reflexivity; try (specialize (I eq_refl); discriminate); congruence.
  Qed.
  Lemma tr_over (m : M3 R) : tr3 m = over (fun a => el a a m).
  Proof. reflexivity. Qed.
  Lemma sgd a b x : sg a * sg b * (x * delta a b) = x * delta a b.
  Proof. destruct a, b; cbn; rewrite ?Rmult_0_r, ?Rmult_1_r; try ring; rewrite sg2; ring. Qed.

  Context (E E' : scheme) (SS : same_scheme y E E').
  Definition fits (B : list mp) : Prop := Forall (fun q => same_slopes y (e_P E) (e_P E') (q_x q)) B.

  Lemma see_mass B k : (k < e_nodes E)%nat -> t_mass E' (map (see y) B) (y_node y k) = mu * t_mass E B k.
  Proof.
    intros Hk. unfold t_mass. rewrite map_map. rewrite <- Rsum_scal. f_equal. apply map_ext. intros q.
    cbn [see q_m q_x]. rewrite (ss_hat _ _ _ SS) by exact Hk. ring.
  Qed.
  Lemma tol_iff B k {A} (u v : A) : (k < e_nodes E)%nat ->
    (if Rlt_dec (e_tol E') (t_mass E' (map (see y) B) (y_node y k)) then u else v) = (if Rlt_dec (e_tol E) (t_mass E B k) then u else v).
  Proof.
    intros Hk. rewrite see_mass by exact Hk. rewrite (ss_tol _ _ _ SS). pose proof (fr_mass y FY).
    destruct (Rlt_dec _ _) as [D|D], (Rlt_dec (e_tol E) _) as [D'|D']; auto; exfalso.
    - apply D'. apply Rmult_lt_reg_l in D; assumption.
    - apply D. apply Rmult_lt_compat_l; assumption.
  Qed.
  Lemma see_vel B a k : (k < e_nodes E)%nat -> t_vel E' (map (see y) B) (pi a) (y_node y k) = sg a * u_vel y * t_vel E B a k.
  Proof.
    intros Hk. unfold t_vel. rewrite tol_iff by exact Hk. destruct (Rlt_dec _ _) as [D|D]; [|ring].
    rewrite (ss_open _ _ _ SS) by exact Hk. rewrite see_mass by exact Hk. rewrite map_map.
    rewrite (map_ext _ (fun q => (mu * (sg a * u_vel y)) * (q_m q * comp a (q_v q) * hat (e_P E) (q_x q) k))).
    - rewrite (Rsum_scal (mu * (sg a * u_vel y)) (fun q => q_m q * comp a (q_v q) * hat (e_P E) (q_x q) k)).
      pose proof (fr_mass y FY). rewrite scale_div by lra. ring.
    - intros q. cbn [see q_m q_x q_v]. rewrite see_vec_comp, (ss_hat _ _ _ SS) by exact Hk. ring.
  Qed.

  Lemma u_vel_len : u_vel y * tau = el_.
  Proof. unfold u_vel. pose proof (fr_time y FY). field. lra. Qed.
  Lemma see_strain B q : same_slopes y (e_P E) (e_P E') (q_x q) ->
    t_strain E' (map (see y) B) (see y q) = see_mat y 1 (t_strain E B q).
  Proof.
    intros HS. apply mat_ext. intros a b. rewrite see_mat_el. unfold t_strain. rewrite !el_m3.
    rewrite (ss_sum _ _ _ SS), (ss_dt _ _ _ SS).
    rewrite (fsum_ext _ _ (fun k => (sg a * sg b * (u_vel y / el_)) *
      ((t_vel E B a k * ghat (e_P E) (q_x q) b k + t_vel E B b k * ghat (e_P E) (q_x q) a k) / 2))).
    - rewrite fsum_scal. pose proof u_vel_len. pose proof (fr_len y FY). pose proof (fr_time y FY).
      unfold u_vel. field. lra.
    - intros k Hk. rewrite !see_vel by exact Hk. cbn [see q_x]. rewrite !(HS _ k Hk). unfold Rdiv. ring.
  Qed.
  Lemma see_trace u m : tr3 (see_mat y u m) = u * tr3 m.
  Proof.
    rewrite !tr_over. rewrite <- (over_pi (fun a => el a a (see_mat y u m))). unfold over. rewrite !see_mat_el.
    rewrite !sg2. ring.
  Qed.
  Lemma u_stress_pos : 0 < u_stress y.
  Proof. unfold u_stress. pose proof (fr_len y FY). pose proof (fr_time y FY). pose proof (fr_mass y FY). apply Rdiv_lt_0_compat; [lra|]. repeat apply Rmult_lt_0_compat; lra. Qed.
  Lemma see_material q d : t_material E' (see y q) (see_mat y 1 d) = see_mat y (u_stress y) (t_material E q d).
  Proof.
    apply mat_ext. intros a b. rewrite see_mat_el. unfold t_material. cbn [see q_mat q_s q_p]. rewrite see_trace, Rmult_1_l.
    assert (D : delta a b = 0 \/ (delta a b = 1 /\ sg a * sg b = 1)) by (destruct a, b; cbn; auto; right; split; auto; apply sg2).
    pose proof (fr_time y FY) as HT.
    destruct (q_mat q) as [K g|K eta zeta]; cbn [see_matter]; rewrite !el_m3, ?see_mat_el, !delta_pi.
    - destruct D as [->|[-> ->]]; ring.
    - rewrite (ss_dt _ _ _ SS). unfold Rdiv. rewrite !Rinv_mult.
      assert (C : tau * / tau = 1) by (apply Rinv_r; lra).
      destruct D as [->|[-> ->]].
      + transitivity (tau * / tau * (2 * (u_stress y * eta) * (sg a * sg b * el a b d) * / e_dt E)); [ring|]. rewrite C. ring.
      + transitivity ((u_stress y * q_p q + u_stress y * K * (tr3 d * / 3)) +
          tau * / tau * (2 * (u_stress y * eta) * (el a b d - tr3 d * / 3) * / e_dt E - u_stress y * zeta * (tr3 d * / 3) * / e_dt E)); [ring|].
        rewrite C. ring.
  Qed.
  Lemma see_stress q d : t_stress E' (see y q) (see_mat y 1 d) = see_mat y (u_stress y) (t_stress E q d).
  Proof.
    apply mat_ext. intros a b. rewrite see_mat_el. unfold t_stress. rewrite !el_m3, see_material, see_mat_el.
    rewrite <- (over_pi (fun c => _)). cbn [see q_s]. unfold over. rewrite !see_mat_el.
    transitivity (sg a * sg b * u_stress y * el a b (t_material E q d) - 2 * sg a * sg b * u_stress y * (
      (sg AX * sg AX) * (el a AX d * el AX b (q_s q) + el a AX (q_s q) * el AX b d) +
      (sg AY * sg AY) * (el a AY d * el AY b (q_s q) + el a AY (q_s q) * el AY b d) +
      (sg AZ * sg AZ) * (el a AZ d * el AZ b (q_s q) + el a AZ (q_s q) * el AZ b d))); [ring|]. rewrite !sg2. ring.
  Qed.
  Lemma see_pressure q d : t_pressure (see y q) (see_mat y 1 d) = u_stress y * t_pressure q d.
  Proof.
    unfold t_pressure. cbn [see q_mat q_s q_p]. destruct (q_mat q); cbn [see_matter]; rewrite !see_trace; unfold Rdiv; ring.
  Qed.
  Lemma see_strained B q : same_slopes y (e_P E) (e_P E') (q_x q) ->
    t_strained E' (map (see y) B) (see y q) = see y (t_strained E B q).
  Proof.
    intros HS. unfold t_strained. rewrite see_strain by exact HS. rewrite see_stress, see_pressure.
    unfold see. cbn [q_mat q_m q_V q_x q_v q_s q_p q_b q_first]. rewrite (ss_g _ _ _ SS). destruct (q_first q); reflexivity.
  Qed.
  Lemma strained_fits B C : fits C -> fits (map (t_strained E B) C).
  Proof. unfold fits. intros H. apply Forall_map. exact H. Qed.
  Lemma see_all_strained B C : fits C -> map (t_strained E' (map (see y) B)) (map (see y) C) = map (see y) (map (t_strained E B) C).
  Proof.
    intros H. rewrite !map_map. apply map_ext_in. intros q Hq. apply see_strained. unfold fits in H. rewrite Forall_forall in H. auto.
  Qed.
  Lemma see_force C a k : fits C -> (k < e_nodes E)%nat ->
    t_force E' (map (see y) C) (pi a) (y_node y k) = sg a * (mu * u_acc y) * t_force E C a k.
  Proof.
    intros HF Hk. unfold t_force. rewrite map_map. rewrite <- Rsum_scal. f_equal. apply map_ext_in. intros q Hq.
    unfold fits in HF. rewrite Forall_forall in HF. specialize (HF q Hq).
    cbn [see q_m q_V q_x q_s q_b]. rewrite (ss_hat _ _ _ SS) by exact Hk. rewrite see_vec_comp.
    rewrite <- (over_pi (fun b => _)). unfold over. rewrite !see_mat_el, !(HF _ k Hk).
    assert (U : u_stress y * (el_ * el_ * el_) / el_ = mu * u_acc y).
    { unfold u_stress, u_acc. pose proof (fr_len y FY). pose proof (fr_time y FY). field. lra. }
    rewrite <- U.
    transitivity (sg a * (u_stress y * (el_ * el_ * el_) / el_) * (q_m q * comp a (q_b q) * hat (e_P E) (q_x q) k) -
      sg a * (u_stress y * (el_ * el_ * el_) / el_) * q_V q * (
        (sg AX * sg AX) * (el a AX (q_s q) * ghat (e_P E) (q_x q) AX k) + (sg AY * sg AY) * (el a AY (q_s q) * ghat (e_P E) (q_x q) AY k) +
        (sg AZ * sg AZ) * (el a AZ (q_s q) * ghat (e_P E) (q_x q) AZ k))).
    - rewrite U. unfold Rdiv. ring_simplify. 
      transitivity (sg a * (mu * u_acc y) * (q_m q * comp a (q_b q) * hat (e_P E) (q_x q) k) -
        sg a * (u_stress y * (el_ * el_ * el_) / el_) * q_V q * (
        (sg AX * sg AX) * (el a AX (q_s q) * ghat (e_P E) (q_x q) AX k) + (sg AY * sg AY) * (el a AY (q_s q) * ghat (e_P E) (q_x q) AY k) +
        (sg AZ * sg AZ) * (el a AZ (q_s q) * ghat (e_P E) (q_x q) AZ k))); [unfold Rdiv; ring|]. rewrite U. ring.
    - rewrite !sg2. ring.
  Qed.
  Lemma see_acc B C a k : fits C -> (k < e_nodes E)%nat ->
    t_acc E' (map (see y) B) (map (see y) C) (pi a) (y_node y k) = sg a * u_acc y * t_acc E B C a k.
  Proof.
    intros HF Hk. unfold t_acc. rewrite tol_iff by exact Hk. destruct (Rlt_dec _ _) as [D|D]; [|ring].
    rewrite (ss_open _ _ _ SS), see_mass, see_force, (ss_damp _ _ _ SS) by assumption. pose proof (fr_mass y FY).
    replace (e_damp E * (sg a * (mu * u_acc y) * t_force E C a k)) with (mu * (sg a * u_acc y) * (e_damp E * t_force E C a k)) by ring.
    rewrite scale_div by lra. ring.
  Qed.
  Lemma u_vel_acc : tau * u_acc y = u_vel y.
  Proof. unfold u_vel, u_acc. pose proof (fr_time y FY). field. lra. Qed.
  Lemma see_moved B C q : fits C ->
    t_moved E' (map (see y) B) (map (see y) C) (see y q) = see y (t_moved E B C q).
  Proof.
    intros HF. unfold t_moved. unfold see at 10. cbn [q_mat q_m q_V q_x q_v q_s q_p q_b q_first see].
    assert (A1 : v3 (fun a => comp a (see_point y (q_x q)) + e_dt E' * fsum (e_nodes E') (fun k => hat (e_P E') (see_point y (q_x q)) k *
        (t_vel E' (map (see y) B) a k + e_dt E' * t_acc E' (map (see y) B) (map (see y) C) a k))) =
      see_point y (v3 (fun a => comp a (q_x q) + e_dt E * fsum (e_nodes E) (fun k => hat (e_P E) (q_x q) k * (t_vel E B a k + e_dt E * t_acc E B C a k))))).
    { apply vec_ext. intros a. rewrite see_point_comp, !comp_v3, see_point_comp. rewrite (ss_sum _ _ _ SS), (ss_dt _ _ _ SS).
      rewrite (fsum_ext _ _ (fun k => (sg a * u_vel y) * (hat (e_P E) (q_x q) k * (t_vel E B a k + e_dt E * t_acc E B C a k)))).
      - rewrite fsum_scal. rewrite <- u_vel_len. ring.
      - intros k Hk. rewrite (ss_hat _ _ _ SS), see_vel, see_acc by assumption. rewrite <- u_vel_acc. ring. }
    assert (A2 : v3 (fun a => comp a (see_vec y (u_vel y) (q_v q)) + e_dt E' * fsum (e_nodes E') (fun k => hat (e_P E') (see_point y (q_x q)) k *
        t_acc E' (map (see y) B) (map (see y) C) a k)) =
      see_vec y (u_vel y) (v3 (fun a => comp a (q_v q) + e_dt E * fsum (e_nodes E) (fun k => hat (e_P E) (q_x q) k * t_acc E B C a k)))).
    { apply vec_ext. intros a. rewrite see_vec_comp, !comp_v3, see_vec_comp. rewrite (ss_sum _ _ _ SS), (ss_dt _ _ _ SS).
      rewrite (fsum_ext _ _ (fun k => (sg a * u_acc y) * (hat (e_P E) (q_x q) k * t_acc E B C a k))).
      - rewrite fsum_scal. rewrite <- u_vel_acc. ring.
      - intros k Hk. rewrite (ss_hat _ _ _ SS), see_acc by assumption. ring. }
    unfold see. cbn [q_mat q_m q_V q_x q_v q_s q_p q_b q_first]. f_equal; [exact A1|exact A2].
  Qed.
  (** One step of the scheme in the new view. *)
  Lemma see_step B : fits B -> t_step E' (map (see y) B) = map (see y) (t_step E B).
  Proof.
    intros HF. unfold t_step. cbv zeta. rewrite see_all_strained by exact HF.
    assert (HC := strained_fits B B HF). revert HC. generalize (map (t_strained E B) B). intros C HC.
    rewrite (map_map (see y) _ C), (map_map _ (see y) C). apply map_ext. intros q. apply see_moved. exact HC.
  Qed.
End Sym.
