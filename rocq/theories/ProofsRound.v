(** * Relative errors of rounded computations. *)
From Coq Require Import ZArith Reals List Bool Arith Lra Lia.
From Verif Require Import State NumR NumRd Spec SpecRound LibList LibR ModelGrid ModelConstit ModelParticle ModelMPList ModelMain ProofsGrid ProofsMap.
Import ListNotations.
Local Open Scope R_scope.

Lemma Rabs_le_inv x y : Rabs x <= y -> - y <= x <= y.
Proof. unfold Rabs. destruct (Rcase_abs x); lra. Qed.

(** [x] is [y] up to a factor in [g]. *)
Definition within (g x y : R) : Prop := Rabs (x - y) <= (g - 1) * Rabs y.

Lemma within_refl y : within 1 y y.
Proof. unfold within. replace (y - y) with 0 by ring. rewrite Rabs_R0. lra. Qed.
Lemma within_abs g x y : within g x y -> Rabs x <= g * Rabs y.
Proof. unfold within. intros H. pose proof (Rabs_triang (x - y) y) as T. replace (x - y + y) with x in T by ring. lra. Qed.
Lemma within_le g h x y : g <= h -> within g x y -> within h x y.
Proof. unfold within. intros L H. pose proof (Rabs_pos y). nra. Qed.
Lemma within_trans g h x y z : 1 <= h -> within h x y -> within g y z -> within (h * g) x z.
Proof.
  unfold within. intros L H1 H2. pose proof (within_abs _ _ _ H2) as A. pose proof (Rabs_triang (x - y) (y - z)) as T.
  replace (x - y + (y - z)) with (x - z) in T by ring. pose proof (Rabs_pos z). nra.
Qed.
Lemma within_mult g h x y z w : 1 <= g -> within g x z -> within h y w -> within (g * h) (x * y) (z * w).
Proof.
  unfold within. intros L H1 H2. replace (x * y - z * w) with ((x - z) * y + z * (y - w)) by ring.
  eapply Rle_trans; [apply Rabs_triang|]. rewrite !Rabs_mult.
  pose proof (within_abs _ _ _ H2) as A. pose proof (Rabs_pos (x - z)). pose proof (Rabs_pos z). pose proof (Rabs_pos w). pose proof (Rabs_pos y).
  pose proof (Rabs_pos (y - w)).
  apply Rle_trans with ((g - 1) * Rabs z * (h * Rabs w) + Rabs z * ((h - 1) * Rabs w)); [|nra].
  apply Rplus_le_compat; [apply Rmult_le_compat; lra|apply Rmult_le_compat_l; lra].
Qed.
Lemma within_inv g x y : g < 2 -> y <> 0 -> within g x y -> within (1 / (2 - g)) (/ x) (/ y).
Proof.
  unfold within. intros L Hy H. pose proof (Rabs_pos_lt y Hy) as Y.
  assert (X : (2 - g) * Rabs y <= Rabs x).
  { pose proof (Rabs_triang (y - x) x) as T. replace (y - x + x) with y in T by ring. rewrite Rabs_minus_sym in T. lra. }
  assert (Xp : 0 < Rabs x) by nra. assert (Hx : x <> 0) by (intros ->; rewrite Rabs_R0 in Xp; lra).
  replace (/ x - / y) with ((y - x) * (/ x * / y)) by (field; auto). rewrite Rabs_mult, Rabs_mult, !Rabs_inv.
  rewrite (Rabs_minus_sym y x). replace (1 / (2 - g) - 1) with ((g - 1) * / (2 - g)) by (field; lra).
  assert (I : / Rabs x <= / (2 - g) * / Rabs y).
  { rewrite <- Rinv_mult. apply Rinv_le_contravar; [nra|exact X]. }
  pose proof (Rinv_0_lt_compat _ Y) as IY. pose proof (Rinv_0_lt_compat _ Xp) as IX.
  apply Rle_trans with ((g - 1) * Rabs y * (/ Rabs x * / Rabs y)).
  - apply Rmult_le_compat_r; [apply Rmult_le_pos; lra|exact H].
  - replace ((g - 1) * Rabs y * (/ Rabs x * / Rabs y)) with ((g - 1) * / Rabs x) by (field; lra).
    replace ((g - 1) * / (2 - g) * / Rabs y) with ((g - 1) * (/ (2 - g) * / Rabs y)) by ring.
    apply Rmult_le_compat_l; [|exact I]. pose proof (Rabs_pos (x - y)). nra.
Qed.

Section Rd.
  Context (rd : R -> R) (u : R) (HR : rounding rd u).
  Let Hu : 0 <= u <= 1 / 100. Proof. apply HR. Qed.

  Lemma rd_within x : within (1 + u) (rd x) x.
  Proof. unfold within. replace (1 + u - 1) with u by ring. apply HR. Qed.
  Lemma rd_step g x y : within g x y -> within ((1 + u) * g) (rd x) y.
  Proof. intros H. apply (within_trans _ _ _ x); [lra|apply rd_within|exact H]. Qed.
  Lemma rd_0 : rd 0 = 0.
  Proof. destruct HR as [_ H]. specialize (H 0). rewrite Rabs_R0, Rmult_0_r, Rminus_0_r in H. pose proof (Rabs_pos (rd 0)). destruct (Req_dec (rd 0) 0); auto. pose proof (Rabs_pos_lt _ H1). lra. Qed.


  (** ** A row of nodes *)
  Section Line.
    Context (a b : R) (n : nat) (Hn : (2 <= n)%nat) (Hab : a < b) (HC : counts rd n).
    Let h0 := (b - a) / (INR n - 1).
    Let B := Rmax (Rabs a) (Rabs b).
    Let eps := slip u a b n.
    Context (HE : eps <= 1 / 32).
    Let Xs := @linspace R (Num_rd rd) a b n.
    Let dx := rd (nth 1 Xs 0 - nth 0 Xs 0).

    Lemma n_2 : 2 <= INR n.
    Proof. apply (le_INR 2). exact Hn. Qed.
    Lemma h0_pos : 0 < h0.
    Proof. pose proof n_2. unfold h0. apply Rdiv_lt_0_compat; lra. Qed.
    Lemma W_h0 : b - a = (INR n - 1) * h0.
    Proof. pose proof n_2. unfold h0. field. lra. Qed.
    Lemma B_bounds : Rabs a <= B /\ Rabs b <= B /\ b - a <= 2 * B.
    Proof.
      pose proof (Rmax_l (Rabs a) (Rabs b)) as L. pose proof (Rmax_r (Rabs a) (Rabs b)) as M. fold B in L, M. split; [exact L|split; [exact M|]].
      pose proof (Rle_abs b). pose proof (Rle_abs (- a)). rewrite Rabs_Ropp in H0. lra.
    Qed.
    Lemma eps_eq : 32 * (u * B) * INR n = eps * h0.
    Proof. pose proof h0_pos as Hh. unfold eps, slip. fold B. fold h0. field. lra. Qed.
    Lemma eps_pos : 0 <= eps.
    Proof.
      pose proof eps_eq as K. pose proof h0_pos. pose proof n_2. destruct B_bounds as (_ & _ & HB).
      apply Rmult_le_reg_r with h0; [assumption|]. rewrite Rmult_0_l, <- K. pose proof (W_h0). repeat apply Rmult_le_pos; try lra; apply Hu.
    Qed.
    Lemma uB_small : u * B <= eps * h0 / 64.
    Proof.
      pose proof eps_eq as K. pose proof n_2. assert (0 <= u * B) by (apply Rmult_le_pos; [apply Hu|destruct B_bounds; lra]). nra.
    Qed.
    Lemma uB_pos : 0 <= u * B.
    Proof. apply Rmult_le_pos; [apply Hu|destruct B_bounds as (_ & _ & ?); lra]. Qed.
    Lemma uW : u * (b - a) <= 2 * (u * B).
    Proof. destruct B_bounds as (_ & _ & ?). pose proof Hu. nra. Qed.

    Lemma pow3 : (1 + u) ^ 3 - 1 <= 4 * u.
    Proof. pose proof Hu. nra. Qed.
    Lemma pow2 : (1 + u) ^ 2 - 1 <= 3 * u.
    Proof. pose proof Hu. nra. Qed.

    Lemma Xs_len : length Xs = n.
    Proof. unfold Xs, linspace. rewrite map_length, seq_length. reflexivity. Qed.
    Lemma Xs_nth i : (i < n)%nat -> nth i Xs 0 = rd (a + rd (INR i * rd (rd (b - a) / (INR n - 1)))).
    Proof.
      intros Hi. unfold Xs, linspace. rewrite nth_map_lt with (d := 0%nat) by (rewrite seq_length; auto).
      rewrite nth_seq0 by auto. cbn [nadd nmul ndiv nsub nofZ Num_rd].
      rewrite !HC by lia. rewrite minus_IZR, <- !INR_IZR_INZ. reflexivity.
    Qed.
    Lemma Xs_near i : (i < n)%nat -> Rabs (nth i Xs 0 - (a + INR i * h0)) <= 10 * (u * B).
    Proof.
      intros Hi. rewrite Xs_nth by exact Hi. pose proof n_2 as N2. pose proof h0_pos as Hh. pose proof Hu as U.
      assert (I0 : 0 <= INR i) by apply pos_INR.
      assert (I1 : INR i <= INR n - 1) by (pose proof (le_INR (S i) n Hi) as K; rewrite S_INR in K; lra).
      assert (WI : INR i * h0 <= b - a) by (rewrite W_h0; apply Rmult_le_compat_r; lra).
      assert (WI0 : 0 <= INR i * h0) by (apply Rmult_le_pos; lra).
      set (t := rd (INR i * rd (rd (b - a) / (INR n - 1)))).
      assert (A : within ((1 + u) ^ 3) t (INR i * h0)).
      { unfold t. replace ((1 + u) ^ 3) with ((1 + u) * (1 * ((1 + u) * (1 + u)))) by ring. apply rd_step.
        apply within_mult; [lra|apply within_refl|]. apply rd_step. unfold h0, Rdiv.
        replace (1 + u) with ((1 + u) * 1) by ring. apply within_mult; [lra|apply rd_within|apply within_refl]. }
      unfold within in A. rewrite (Rabs_pos_eq (INR i * h0)) in A by exact WI0.
      assert (A8 : Rabs (t - INR i * h0) <= 8 * (u * B)).
      { eapply Rle_trans; [exact A|]. pose proof pow3. pose proof uW. apply Rle_trans with (4 * u * (b - a)); [|lra]. apply Rmult_le_compat; try lra. assert (1 <= (1 + u) ^ 3) by (apply pow_R1_Rle; lra). lra. }
      assert (C : Rabs (a + INR i * h0) <= B).
      { destruct B_bounds as (Ba & Bb & _). assert (a <= a + INR i * h0 <= b) by lra.
        unfold Rabs at 1. destruct (Rcase_abs (a + INR i * h0)); [pose proof (Rle_abs (- a)) as Q; rewrite Rabs_Ropp in Q; lra|pose proof (Rle_abs b); lra]. }
      destruct HR as [_ Hrd]. specialize (Hrd (a + t)).
      assert (D : Rabs (a + t) <= B + 8 * (u * B)).
      { replace (a + t) with (a + INR i * h0 + (t - INR i * h0)) by ring. eapply Rle_trans; [apply Rabs_triang|]. lra. }
      replace (rd (a + t) - (a + INR i * h0)) with (rd (a + t) - (a + t) + (t - INR i * h0)) by ring.
      eapply Rle_trans; [apply Rabs_triang|]. pose proof uB_pos. assert (u * Rabs (a + t) <= u * (B + 8 * (u * B))) by (apply Rmult_le_compat_l; lra). nra.
    Qed.

    Lemma dx_near : Rabs (dx - h0) <= 23 * (u * B).
    Proof.
      unfold dx. pose proof Hu as U. pose proof (Xs_near 1 ltac:(lia)) as A1. pose proof (Xs_near 0 ltac:(lia)) as A0. cbn [INR] in A1, A0.
      set (x1 := nth 1 Xs 0) in *. set (x0 := nth 0 Xs 0) in *.
      assert (D : Rabs (x1 - x0 - h0) <= 20 * (u * B)).
      { replace (x1 - x0 - h0) with ((x1 - (a + 1 * h0)) + - (x0 - (a + 0 * h0))) by ring. eapply Rle_trans; [apply Rabs_triang|]. rewrite Rabs_Ropp. lra. }
      destruct HR as [_ Hrd]. specialize (Hrd (x1 - x0)).
      pose proof n_2. pose proof h0_pos. pose proof W_h0. pose proof uB_pos. pose proof uW.
      assert (K1 : Rabs (x1 - x0) <= h0 + 20 * (u * B)).
      { replace (x1 - x0) with (h0 + (x1 - x0 - h0)) by ring. eapply Rle_trans; [apply Rabs_triang|]. rewrite (Rabs_pos_eq h0) by lra. lra. }
      assert (K2 : u * h0 <= 2 * (u * B)) by (apply Rle_trans with (u * (b - a)); [apply Rmult_le_compat_l; nra|lra]).
      replace (rd (x1 - x0) - h0) with (rd (x1 - x0) - (x1 - x0) + (x1 - x0 - h0)) by ring. eapply Rle_trans; [apply Rabs_triang|].
      assert (u * Rabs (x1 - x0) <= u * (h0 + 20 * (u * B))) by (apply Rmult_le_compat_l; lra). nra.
    Qed.
    Lemma dx_bounds : 98 / 100 * h0 <= dx <= 102 / 100 * h0.
    Proof.
      pose proof dx_near as D. apply Rabs_le_inv in D. pose proof uB_small. pose proof h0_pos. pose proof eps_pos. assert (eps * h0 <= 1 / 32 * h0) by (apply Rmult_le_compat_r; lra). lra.
    Qed.

    (** The cell in which a coordinate is found. *)
    Section Cell.
      Context (x : R) (Hx : a <= x <= b).
      Let t := rd (rd (x - a) / dx).
      Let i := Rtrunc t.
      Lemma t_near : Rabs (t * dx - (x - a)) <= 6 * (u * B).
      Proof.
        pose proof dx_bounds. pose proof h0_pos. pose proof Hu.
        assert (A : within ((1 + u) ^ 2) t ((x - a) / dx)).
        { unfold t. replace ((1 + u) ^ 2) with ((1 + u) * ((1 + u) * 1)) by ring. apply rd_step. unfold Rdiv. apply within_mult; [lra|apply rd_within|apply within_refl]. }
        unfold within in A. replace (t * dx - (x - a)) with ((t - (x - a) / dx) * dx) by (field; lra). rewrite Rabs_mult.
        rewrite (Rabs_pos_eq dx) by lra. assert (Q : 0 <= (x - a) / dx) by (apply Rmult_le_pos; [lra|apply Rlt_le, Rinv_0_lt_compat; lra]). rewrite (Rabs_pos_eq _ Q) in A.
        apply Rle_trans with (((1 + u) ^ 2 - 1) * ((x - a) / dx) * dx); [apply Rmult_le_compat_r; lra|].
        replace (((1 + u) ^ 2 - 1) * ((x - a) / dx) * dx) with (((1 + u) ^ 2 - 1) * (x - a)) by (field; lra). pose proof pow2. pose proof uW.
        assert (1 <= (1 + u) ^ 2) by nra. apply Rle_trans with (3 * u * (b - a)); [apply Rmult_le_compat; lra|lra].
      Qed.
      Lemma t_pos : 0 <= t.
      Proof.
        pose proof dx_bounds. pose proof h0_pos. pose proof Hu.
        assert (A : within ((1 + u) ^ 2) t ((x - a) / dx)).
        { unfold t. replace ((1 + u) ^ 2) with ((1 + u) * ((1 + u) * 1)) by ring. apply rd_step. unfold Rdiv. apply within_mult; [lra|apply rd_within|apply within_refl]. }
        unfold within in A. assert (Q : 0 <= (x - a) / dx) by (apply Rmult_le_pos; [lra|apply Rlt_le, Rinv_0_lt_compat; lra]). rewrite (Rabs_pos_eq _ Q) in A.
        apply Rabs_le_inv in A. pose proof pow2. nra.
      Qed.
      Lemma i_range : (0 <= i <= Z.of_nat n - 1)%Z.
      Proof.
        pose proof t_pos as T0. pose proof t_near as T. unfold i. rewrite Rtrunc_nonneg by exact T0. pose proof (Rfloor_bounds t) as [F1 F2].
        split; [apply le_IZR; assert (IZR (-1) < IZR (Rfloor t)) by lra; apply lt_IZR in H; apply IZR_le; lia|].
        enough (t < INR n). { assert (K : IZR (Rfloor t) < IZR (Z.of_nat n)) by (rewrite <- INR_IZR_INZ; lra). apply lt_IZR in K. lia. }
        apply Rabs_le_inv in T. pose proof dx_near as D. apply Rabs_le_inv in D. pose proof dx_bounds as DB. pose proof h0_pos. pose proof n_2. pose proof W_h0. pose proof eps_eq as EE.
        pose proof uB_pos. pose proof uB_small.
        apply Rmult_lt_reg_r with dx; [lra|]. assert (t * dx <= (INR n - 1) * h0 + 6 * (u * B)) by lra.
        assert (INR n * dx >= INR n * h0 - 23 * (u * B * INR n)) by nra.
        assert (eps * h0 <= 1 / 32 * h0) by (apply Rmult_le_compat_r; lra). nra.
      Qed.
      Lemma i_cell : - eps * dx <= x - nth (Z.to_nat i) Xs 0 <= (1 + eps) * dx.
      Proof.
        pose proof i_range as IR. pose proof (Xs_near (Z.to_nat i) ltac:(lia)) as XN. pose proof t_near as T. pose proof t_pos as T0.
        assert (F : IZR i <= t < IZR i + 1) by (unfold i; rewrite Rtrunc_nonneg by exact T0; apply Rfloor_bounds).
        assert (Ii : INR (Z.to_nat i) = IZR i) by (rewrite INR_IZR_INZ, Z2Nat.id by lia; reflexivity).
        assert (I0 : 0 <= IZR i) by (apply IZR_le; lia).
        assert (I1 : IZR i <= INR n) by (rewrite INR_IZR_INZ; apply IZR_le; lia).
        rewrite Ii in XN. apply Rabs_le_inv in XN. apply Rabs_le_inv in T. pose proof dx_near as D. apply Rabs_le_inv in D. pose proof dx_bounds as DB. pose proof h0_pos. pose proof n_2. pose proof eps_eq as EE. pose proof uB_pos as UB. pose proof eps_pos.
        assert (S1 : Rabs (IZR i * dx - IZR i * h0) <= 23 * (u * B) * INR n).
        { replace (IZR i * dx - IZR i * h0) with (IZR i * (dx - h0)) by ring. rewrite Rabs_mult, (Rabs_pos_eq (IZR i)) by exact I0. pose proof dx_near as D'. rewrite Rmult_comm. apply Rmult_le_compat; try lra; apply Rabs_pos. }
        apply Rabs_le_inv in S1.
        assert (S2 : IZR i * dx <= t * dx) by (apply Rmult_le_compat_r; lra).
        assert (S3 : t * dx <= (IZR i + 1) * dx) by (apply Rmult_le_compat_r; lra).
        assert (S4 : 16 * (u * B) + 23 * (u * B) * INR n <= 31 * (u * B) * INR n) by nra.
        assert (S5 : 31 * (u * B) * INR n <= eps * dx).
        { replace (31 * (u * B) * INR n) with (31 / 32 * (eps * h0)) by (rewrite <- EE; field). assert (eps * (98 / 100 * h0) <= eps * dx) by (apply Rmult_le_compat_l; lra). assert (0 <= eps * h0) by (apply Rmult_le_pos; lra). lra. }
        split; lra.
      Qed.
      (** The weight computed with rounded nodes and that of exact nodes. *)
      Lemma i_weight : Rabs ((x - nth (Z.to_nat i) Xs 0) / dx - ((x - a) / h0 - IZR i)) <= eps.
      Proof.
        pose proof i_range as IR. pose proof (Xs_near (Z.to_nat i) ltac:(lia)) as XN. pose proof i_cell as IC.
        assert (Ii : INR (Z.to_nat i) = IZR i) by (rewrite INR_IZR_INZ, Z2Nat.id by lia; reflexivity).
        rewrite Ii in XN. apply Rabs_le_inv in XN. pose proof dx_near as D. apply Rabs_le_inv in D. pose proof dx_bounds as DB. pose proof h0_pos as Hh. pose proof eps_pos as EP. pose proof uB_small as US. pose proof uB_pos as UB.
        set (Xi := nth (Z.to_nat i) Xs 0) in *. set (al := (x - Xi) / dx).
        assert (AL : al * dx = x - Xi) by (unfold al; field; lra).
        assert (A1 : - eps <= al <= 1 + eps).
        { split; apply Rmult_le_reg_r with dx; try lra; rewrite AL; lra. }
        assert (S : ((x - a) / h0 - IZR i) * h0 = x - (a + IZR i * h0)) by (field; lra).
        set (s := (x - a) / h0 - IZR i) in *.
        apply Rabs_le. split; apply Rmult_le_reg_r with h0; try exact Hh.
        - assert (Q : (al - s) * h0 = al * dx - al * (dx - h0) - s * h0) by ring. rewrite Q, AL, S.
          assert (al * (dx - h0) <= (1 + eps) * (23 * (u * B))) by (destruct (Rle_dec 0 al); nra). nra.
        - assert (Q : (al - s) * h0 = al * dx - al * (dx - h0) - s * h0) by ring. rewrite Q, AL, S.
          assert (- ((1 + eps) * (23 * (u * B))) <= al * (dx - h0)) by (destruct (Rle_dec 0 al); nra). nra.
      Qed.
    End Cell.
  End Line.
End Rd.
