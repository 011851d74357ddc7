(** * Grain size segregation: limiters and fluxes *)
From Coq Require Import ZArith List Bool Arith Lia Reals Lra.
From Verif Require Import State NumR LibR LibList Spec ModelGrid ModelIntegr ProofsGrid Concrete.
Import ListNotations.
Local Open Scope R_scope.
Local Existing Instance Num_R.

(** ** C37 *)
Ltac unlim := unfold minmod, maxmod, nhalf, lit; cbn [nmul ndiv nadd nsign nmin nmax nabs nofZ Num_R].
Lemma Rsign_pos x : 0 < x -> Rsign x = 1.
Proof. intros. unfold Rsign. destruct (Rlt_dec 0 x); [reflexivity|lra]. Qed.
Lemma Rsign_neg x : x < 0 -> Rsign x = -1.
Proof. intros. unfold Rsign. destruct (Rlt_dec 0 x); [lra|]. destruct (Rlt_dec x 0); [reflexivity|lra]. Qed.
Lemma Rsign_0 : Rsign 0 = 0.
Proof. unfold Rsign. destruct (Rlt_dec 0 0); [lra|reflexivity]. Qed.
Lemma Rsign_opp x : Rsign (- x) = - Rsign x.
Proof.
  destruct (Rtotal_order x 0) as [H|[->|H]]; [rewrite (Rsign_neg x), (Rsign_pos (-x)) by lra; lra| |rewrite (Rsign_pos x), (Rsign_neg (-x)) by lra; lra].
  rewrite Ropp_0, Rsign_0. lra.
Qed.
Lemma minmod_pp (a b : R) : 0 <= a -> 0 <= b -> minmod a b = Rmin a b.
Proof.
  intros Ha Hb. unlim. rewrite !Rabs_pos_eq by assumption.
  destruct (Req_EM_T a 0) as [->|Na]; [rewrite Rmin_left by lra; ring|].
  destruct (Req_EM_T b 0) as [->|Nb]; [rewrite Rmin_right by lra; ring|].
  rewrite !Rsign_pos by lra. field.
Qed.
Lemma maxmod_pp (a b : R) : 0 < a -> 0 < b -> maxmod a b = Rmax a b.
Proof. intros Ha Hb. unlim. rewrite !Rabs_pos_eq by lra. rewrite !Rsign_pos by lra. field. Qed.
Lemma maxmod_00 : maxmod 0 0 = 0.
Proof. unlim. rewrite Rsign_0. ring. Qed.
Lemma minmod_opp (a b : R) : minmod (- a) (- b) = - minmod a b.
Proof. unlim. rewrite !Rabs_Ropp, !Rsign_opp. field. Qed.
Lemma maxmod_opp (a b : R) : maxmod (- a) (- b) = - maxmod a b.
Proof. unlim. rewrite !Rabs_Ropp, !Rsign_opp. field. Qed.
Lemma minmod_sym (a b : R) : minmod a b = minmod b a.
Proof. unlim. rewrite (Rmin_comm (Rabs a)). field. Qed.
Lemma maxmod_sym (a b : R) : maxmod a b = maxmod b a.
Proof. unlim. rewrite (Rmax_comm (Rabs a)). field. Qed.
Lemma minmod_pn (a b : R) : 0 <= a -> b <= 0 -> minmod a b = 0.
Proof.
  intros Ha Hb. unlim. rewrite (Rabs_pos_eq a Ha), (Rabs_left1 b Hb).
  destruct (Req_EM_T a 0) as [->|Na]; [rewrite Rmin_left by lra; ring|].
  destruct (Req_EM_T b 0) as [->|Nb]; [rewrite Rmin_right by lra; ring|].
  rewrite (Rsign_pos a), (Rsign_neg b) by lra. field.
Qed.
Lemma superbee_pp (a b : R) : 0 <= a -> 0 <= b -> superbee a b = Rmax (Rmin a (2 * b)) (Rmin (2 * a) b).
Proof.
  intros Ha Hb. unfold superbee, n2. cbn [nmul nofZ Num_R]. rewrite !minmod_pp by lra.
  destruct (Req_EM_T a 0) as [->|Na].
  - rewrite Rmult_0_r, !Rmin_left by lra. rewrite maxmod_00, Rmax_left by lra. reflexivity.
  - destruct (Req_EM_T b 0) as [->|Nb].
    + rewrite Rmult_0_r, !Rmin_right by lra. rewrite maxmod_00, Rmax_left by lra. reflexivity.
    + apply maxmod_pp; apply Rmin_pos; lra.
Qed.
Lemma superbee_opp (a b : R) : superbee (- a) (- b) = - superbee a b.
Proof.
  unfold superbee, n2. cbn [nmul nofZ Num_R]. replace (2 * - b) with (- (2 * b)) by ring. replace (2 * - a) with (- (2 * a)) by ring.
  rewrite !minmod_opp. apply maxmod_opp.
Qed.
Lemma superbee_pn (a b : R) : 0 <= a -> b <= 0 -> superbee a b = 0.
Proof. intros Ha Hb. unfold superbee, n2. cbn [nmul nofZ Num_R]. rewrite !minmod_pn by lra. apply maxmod_00. Qed.
Lemma superbee_sym (a b : R) : superbee a b = superbee b a.
Proof.
  unfold superbee. rewrite maxmod_sym. rewrite (minmod_sym (n2 * a)%num), (minmod_sym a). reflexivity.
Qed.
(** Cases by sign: a function odd in both arguments together. *)
Lemma by_sign (Q : R -> R -> Prop) :
  (forall a b, 0 <= a -> 0 <= b -> Q a b) -> (forall a b, 0 < a -> b < 0 -> Q a b) -> (forall a b, Q (- a) (- b) -> Q a b) -> forall a b, Q a b.
Proof.
  intros H1 H2 H3 a b. destruct (Rle_lt_dec 0 a) as [A|A], (Rle_lt_dec 0 b) as [B|B].
  - auto.
  - destruct (Req_EM_T a 0) as [->|N]; [apply H3, H1; lra|apply H2; lra].
  - destruct (Req_EM_T b 0) as [->|N]; [apply H3, H1; lra|apply H3, H2; lra].
  - apply H3, H1; lra.
Qed.
Lemma sign_zero a b : 0 <= a -> 0 <= b -> a * b <= 0 -> a = 0 \/ b = 0.
Proof. intros Ha Hb H. destruct (Req_EM_T a 0), (Req_EM_T b 0); auto. exfalso. assert (0 < a * b) by (apply Rmult_lt_0_compat; lra). lra. Qed.
Definition homogeneous (f : R -> R -> R) : Prop := forall k a b, f (k * a) (k * b) = k * f a b.
Lemma homogeneous_of (f : R -> R -> R) : (forall a b, f (- a) (- b) = - f a b) ->
  (forall k a b, 0 <= k -> 0 <= a -> 0 <= b -> f (k * a) (k * b) = k * f a b) ->
  (forall a b, 0 <= a -> b <= 0 -> f a b = 0) -> homogeneous f.
Proof.
  intros HO HP HZ.
  assert (K : forall k, 0 <= k -> forall a b, f (k * a) (k * b) = k * f a b).
  { intros k Hk. apply (by_sign (fun a b => f (k * a) (k * b) = k * f a b)).
    - auto.
    - intros a b Ha Hb. rewrite (HZ a b) by lra. rewrite HZ; [ring|apply Rmult_le_pos; lra|].
      rewrite <- (Ropp_involutive (k * b)), Ropp_mult_distr_r. assert (0 <= k * - b) by (apply Rmult_le_pos; lra). lra.
    - intros a b E. rewrite HO in E. rewrite <- !Ropp_mult_distr_r, HO in E. lra. }
  intros k a b. destruct (Rle_lt_dec 0 k) as [Hk|Hk]; [auto|].
  replace (k * a) with (- (- k * a)) by ring. replace (k * b) with (- (- k * b)) by ring. rewrite HO, K by lra. ring.
Qed.
Lemma Rmin_scal k a b : 0 <= k -> Rmin (k * a) (k * b) = k * Rmin a b.
Proof. intros Hk. unfold Rmin. destruct (Rle_dec a b), (Rle_dec (k * a) (k * b)); try reflexivity; nra. Qed.
Lemma Rmax_scal k a b : 0 <= k -> Rmax (k * a) (k * b) = k * Rmax a b.
Proof. intros Hk. unfold Rmax. destruct (Rle_dec a b), (Rle_dec (k * a) (k * b)); try reflexivity; nra. Qed.

Lemma p_C37_minmod : forall a b : R,
  (a * b <= 0 -> minmod a b = 0) /\
  (0 < a * b -> Rabs (minmod a b) = Rmin (Rabs a) (Rabs b) /\ 0 < minmod a b * a) /\
  minmod a b = minmod b a /\ homogeneous minmod.
Proof.
  intros a b. split; [|split; [|split; [apply minmod_sym|]]].
  - revert a b. apply (by_sign (fun a b => a * b <= 0 -> minmod a b = 0)).
    + intros a b Ha Hb H. rewrite minmod_pp by assumption. destruct (sign_zero a b Ha Hb H) as [->| ->]; [apply Rmin_left|apply Rmin_right]; assumption.
    + intros a b Ha Hb _. apply minmod_pn; lra.
    + intros a b H Q. rewrite minmod_opp in H. assert (minmod a b = - 0); [|lra]. rewrite <- H; [ring|]. lra.
  - revert a b. apply (by_sign (fun a b => 0 < a * b -> Rabs (minmod a b) = Rmin (Rabs a) (Rabs b) /\ 0 < minmod a b * a)).
    + intros a b Ha Hb H. rewrite minmod_pp by assumption. rewrite (Rabs_pos_eq a), (Rabs_pos_eq b) by assumption.
      assert (Na : a <> 0) by (intros ->; lra). assert (Nb : b <> 0) by (intros ->; lra).
      pose proof (Rmin_pos a b ltac:(lra) ltac:(lra)). split; [apply Rabs_pos_eq; lra|apply Rmult_lt_0_compat; lra].
    + intros a b Ha Hb H. nra.
    + intros a b H Q. rewrite minmod_opp, !Rabs_Ropp in H. destruct H as [A B]; [lra|]. split; [exact A|lra].
  - apply homogeneous_of; [exact minmod_opp| |exact minmod_pn].
    intros k x y Hk Hx Hy. rewrite !minmod_pp by (try apply Rmult_le_pos; assumption). apply Rmin_scal; assumption.
Qed.
Lemma p_C37_superbee : forall a b : R,
  (a * b <= 0 -> superbee a b = 0) /\
  (0 < a * b -> Rmin (Rabs a) (Rabs b) <= Rabs (superbee a b) <= Rmin (2 * Rmin (Rabs a) (Rabs b)) (Rmax (Rabs a) (Rabs b)) /\
                0 < superbee a b * a) /\
  superbee a b = superbee b a /\ homogeneous superbee.
Proof.
  intros a b. split; [|split; [|split; [apply superbee_sym|]]].
  - revert a b. apply (by_sign (fun a b => a * b <= 0 -> superbee a b = 0)).
    + intros a b Ha Hb H. rewrite superbee_pp by assumption. destruct (sign_zero a b Ha Hb H) as [->| ->]; rewrite Rmult_0_r.
      * rewrite !Rmin_left by lra. apply Rmax_left; lra.
      * rewrite !Rmin_right by lra. apply Rmax_left; lra.
    + intros a b Ha Hb _. apply superbee_pn; lra.
    + intros a b H Q. rewrite superbee_opp in H. assert (superbee a b = - 0); [|lra]. rewrite <- H; [ring|]. lra.
  - revert a b. apply (by_sign (fun a b => 0 < a * b -> Rmin (Rabs a) (Rabs b) <= Rabs (superbee a b) <= Rmin (2 * Rmin (Rabs a) (Rabs b)) (Rmax (Rabs a) (Rabs b)) /\
                0 < superbee a b * a)).
    + intros a b Ha Hb H. rewrite superbee_pp by assumption. rewrite (Rabs_pos_eq a), (Rabs_pos_eq b) by assumption.
      assert (Na : a <> 0) by (intros ->; lra). assert (Nb : b <> 0) by (intros ->; lra).
      assert (Q : 0 < Rmax (Rmin a (2 * b)) (Rmin (2 * a) b)).
      { apply Rlt_le_trans with (Rmin a (2 * b)); [apply Rmin_pos; lra|apply Rmax_l]. }
      rewrite (Rabs_pos_eq (Rmax _ _)) by lra. split; [|apply Rmult_lt_0_compat; lra].
      unfold Rmax, Rmin. repeat destruct (Rle_dec _ _); lra.
    + intros a b Ha Hb H. nra.
    + intros a b H Q. rewrite superbee_opp, !Rabs_Ropp in H. destruct H as [A B]; [lra|]. split; [exact A|lra].
  - apply homogeneous_of; [exact superbee_opp| |exact superbee_pn].
    intros k x y Hk Hx Hy. rewrite !superbee_pp by (try apply Rmult_le_pos; assumption).
    replace (2 * (k * y)) with (k * (2 * y)) by ring. replace (2 * (k * x)) with (k * (2 * x)) by ring.
    rewrite !Rmin_scal, Rmax_scal by assumption. reflexivity.
Qed.
Example x_C37_superbee : minmod (-2) (-3) = -2 /\ superbee (-2) (-3) = -3 /\ superbee 1 3 = 2 /\ superbee 1 (-3) = 0.
Proof.
  repeat split.
  - transitivity (minmod (- (2)) (- (3))); [f_equal; lra|]. rewrite minmod_opp, minmod_pp, Rmin_left by lra. lra.
  - transitivity (superbee (- (2)) (- (3))); [f_equal; lra|]. rewrite superbee_opp, superbee_pp by lra. rewrite Rmin_left, Rmin_right, Rmax_right by lra. lra.
  - rewrite superbee_pp by lra. rewrite !Rmin_left, Rmax_right by lra. lra.
  - apply superbee_pn; lra.
Qed.

(** ** C38 *)
Lemma limiter_0l b : limiter 0 b = 0.
Proof. apply (proj1 (p_C37_superbee 0 b)). lra. Qed.
Lemma limiter_0r a : limiter a 0 = 0.
Proof. apply (proj1 (p_C37_superbee a 0)). lra. Qed.
Lemma rollp_in N (f : nat -> R) i : (0 < i)%nat -> (i < N)%nat -> rollp N f i = f (i - 1)%nat.
Proof. intros H0 H1. unfold rollp. f_equal. replace (i + N - 1)%nat with (i - 1 + 1 * N)%nat by lia. rewrite Nat.mod_add by lia. apply Nat.mod_small. lia. Qed.
Lemma rollm_in N (f : nat -> R) i : (i + 1 < N)%nat -> rollm N f i = f (i + 1)%nat.
Proof. intros H1. unfold rollm. f_equal. apply Nat.mod_small. exact H1. Qed.
(** The flux between positions [i-1] and [i], and the slopes. *)
Definition slope (dx : R) (C : nat -> R) (i : nat) : R := limiter ((C i - C (i - 1)%nat) / dx) ((C (i + 1)%nat - C i) / dx).
Definition kt_flux (dx : R) (C V : nat -> R) (i : nat) : R :=
  let l := C (i - 1)%nat - slope dx C (i - 1) * dx / 2 in
  let r := C i + slope dx C i * dx / 2 in
  (V i + V (i - 1)%nat) / 2 * (l + r) + Rmax (Rabs (V i)) (Rabs (V (i - 1)%nat)) * (l - r).
Lemma kt_update_flux dt dx N C V i : (2 <= i)%nat -> (i + 2 < N)%nat ->
  kt_update dt dx N C V i = dt * (kt_flux dx C V i - kt_flux dx C V (i + 1)) / (2 * dx).
Proof.
  intros H0 H1. unfold kt_update. cbv zeta.
  set (cx := fun j => limiter ((C j - rollp N C j) / dx)%num ((rollm N C j - C j) / dx)%num).
  assert (CX : forall j, (0 < j)%nat -> (j + 1 < N)%nat -> cx j = slope dx C j).
  { intros j A B. unfold cx. rewrite rollp_in, rollm_in by lia. reflexivity. }
  rewrite !rollp_in, !rollm_in by lia. rewrite !CX by lia. unfold kt_flux. cbv zeta.
  replace (i + 1 - 1)%nat with i by lia. unfold n2. cbn [nmul nadd nsub ndiv nmax nabs nofZ Num_R].
  rewrite (Rmax_comm (Rabs (V (i + 1)%nat))). rewrite (Rplus_comm (V (i + 1)%nat)). f_equal. f_equal.
  change (limiter ((C i - C (i - 1)%nat) / dx) ((C (i + 1)%nat - C i) / dx)) with (slope dx C i). ring.
Qed.
Lemma fsum_drop n (f : nat -> R) : fsum n (fun i => f i - f (i + 1)%nat) = f 0%nat - f n.
Proof. induction n as [|n IH]; cbn [fsum]; [ring|]. rewrite IH, Nat.add_1_r. ring. Qed.
Lemma end_flux dx C V i : (1 <= i)%nat -> C (i - 1)%nat = C i -> (C i = 0 \/ V i = - V (i - 1)%nat) -> kt_flux dx C V i = 0.
Proof.
  intros Hi E HV. assert (Z : 0 / dx = 0) by (unfold Rdiv; ring).
  assert (S1 : slope dx C i = 0). { unfold slope. replace (C i - C (i - 1)%nat) with 0 by lra. rewrite Z. apply limiter_0l. }
  assert (S0 : slope dx C (i - 1) = 0).
  { unfold slope. replace (i - 1 + 1)%nat with i by lia. replace (C i - C (i - 1)%nat) with 0 by lra. rewrite Z. apply limiter_0r. }
  unfold kt_flux. cbv zeta. rewrite S0, S1, E. destruct HV as [-> | ->]; field.
Qed.
Lemma div0_R (a b : R) : div0 a b = a / b.
Proof. reflexivity. Qed.
Lemma bc_in n (C V : nat -> R) i : (2 <= i)%nat -> (i < n + 2)%nat -> bc n C V i = V i.
Proof.
  intros A B. unfold bc. destruct (Nat.eqb_spec i 0); [lia|]. destruct (Nat.eqb_spec i 1); [lia|].
  destruct (Nat.eqb_spec i (n + 2)); [lia|]. destruct (Nat.eqb_spec i (n + 3)); [lia|]. reflexivity.
Qed.
(** Along every line the increments of a class sum to zero. *)
Lemma p_C38_line : forall cyclic (dt dx c : R) ss n phi g b k, (1 <= n)%nat ->
  fsum n (kt_line cyclic dt dx c ss n phi g b k) = 0.
Proof.
  intros cyclic dt dx c ss n phi g b k Hn. unfold kt_line. cbv zeta.
  set (C := fun i => nth k (pad2 n phi i) n0). set (V0 := fun i => seg_speed _ _ _ _ _ _). set (V := bc n C V0).
  rewrite (fsum_ext _ _ (fun i => dt / (2 * dx) * (kt_flux dx C V (i + 2) - kt_flux dx C V (i + 1 + 2)))).
  2:{ intros i Hi. rewrite kt_update_flux by lia. replace (i + 1 + 2)%nat with (i + 2 + 1)%nat by lia. unfold Rdiv. ring. }
  rewrite (fsum_scal _ _ (fun i => kt_flux dx C V (i + 2) - kt_flux dx C V (i + 1 + 2))).
  rewrite (fsum_drop n (fun i => kt_flux dx C V (i + 2))). cbn [Nat.add].
  assert (PC : forall i j, Nat.min (i - 2) (n - 1) = Nat.min (j - 2) (n - 1) -> C i = C j).
  { intros i j Hij. unfold C, pad2. rewrite Hij. reflexivity. }
  assert (A : kt_flux dx C V 2 = 0).
  { apply end_flux; [lia|apply PC; lia|]. cbn [Nat.sub].
    destruct (Req_EM_T (C 2%nat) 0) as [Z|Z]; [left; exact Z|right].
    assert (V1 : V 1%nat = - (C 2%nat * V0 2%nat / C 1%nat)) by reflexivity.
    assert (V2 : V 2%nat = V0 2%nat).
    { apply bc_in; lia. }
    rewrite V1, V2, (PC 1%nat 2%nat) by lia. field. exact Z. }
  assert (B : kt_flux dx C V (n + 2) = 0).
  { replace (n + 2)%nat with (n + 1 + 1)%nat by lia.
    apply end_flux; replace (n + 1 + 1 - 1)%nat with (n + 1)%nat by lia;
      [lia|apply PC; lia|].
    destruct (Req_EM_T (C (n + 1 + 1)%nat) 0) as [Z|Z]; [left; exact Z|right].
    assert (V1 : V (n + 1)%nat = V0 (n + 1)%nat).
    { apply bc_in; lia. }
    assert (V2 : V (n + 1 + 1)%nat = - (C (n + 1)%nat * V0 (n + 1)%nat / C (n + 1 + 1)%nat)).
    { unfold V, bc. destruct (Nat.eqb_spec (n + 1 + 1) 0); [lia|]. destruct (Nat.eqb_spec (n + 1 + 1) 1); [lia|].
      destruct (Nat.eqb_spec (n + 1 + 1) (n + 2)) as [_|Q]; [|exfalso; lia].
      replace (n + 2)%nat with (n + 1 + 1)%nat by lia. reflexivity. }
    rewrite V1, V2, (PC (n + 1)%nat (n + 1 + 1)%nat) by lia. field. exact Z. }
  rewrite A, B. ring.
Qed.
Lemma nth_map_seq' {B} (f : nat -> B) d n m k : (k < n)%nat -> nth k (map f (seq m n)) d = f (m + k)%nat.
Proof. intros Hk. rewrite (nth_indep _ d (f 0%nat)) by (rewrite map_length, seq_length; exact Hk). rewrite map_nth, seq_nth by exact Hk. reflexivity. Qed.
(** On the grid: along every row for the advection in x, along every column for
    the advection in y.  [A] is the table of increments, by node and class. *)
Lemma p_C38_rows : forall (P : params R) G A, KT0 P G = Ok A -> (1 <= nx (pG P))%nat ->
  forall j k, (j < ny (pG P))%nat -> (k < ns (pG P))%nat ->
  fsum (nx (pG P)) (fun i => nth k (nth (j * nx (pG P) + i) A []) 0) = 0.
Proof.
  intros P G A E Hx j k Hj Hk. unfold KT0 in E. pbinds E. injection E as <-.
  match goal with |- fsum ?n ?f = 0 => rewrite (fsum_ext n f (kt_line (cyclic_lr (pB P)) (p_dt P) a a1 a0 (nx (pG P))
    (fun i => at0 [] (g_phi G) (j * nx (pG P) + i)) (fun i => vx (at0 v0 (g_gradpk G) (j * nx (pG P) + i)))
    (fun i => blocked P G (j * nx (pG P) + i)) k)) end.
  - apply p_C38_line. exact Hx.
  - intros i Hi. rewrite nth_map_seq' by (unfold nodes; nia). rewrite nth_map_seq' by exact Hk. cbn [Nat.add].
    replace ((j * nx (pG P) + i) / nx (pG P))%nat with j.
    + replace ((j * nx (pG P) + i) mod nx (pG P))%nat with i; [reflexivity|].
      rewrite Nat.add_comm, Nat.mod_add by lia. symmetry. apply Nat.mod_small. exact Hi.
    + rewrite Nat.add_comm, Nat.div_add by lia. rewrite Nat.div_small by exact Hi. reflexivity.
Qed.
Lemma p_C38_columns : forall (P : params R) G A, KT1 P G = Ok A -> (1 <= ny (pG P))%nat ->
  forall i k, (i < nx (pG P))%nat -> (k < ns (pG P))%nat ->
  fsum (ny (pG P)) (fun j => nth k (nth (j * nx (pG P) + i) A []) 0) = 0.
Proof.
  intros P G A E Hx i k Hi Hk. unfold KT1 in E. pbinds E. injection E as <-.
  match goal with |- fsum ?n ?f = 0 => rewrite (fsum_ext n f (kt_line false (p_dt P) a a1 a0 (ny (pG P))
    (fun j => at0 [] (g_phi G) (j * nx (pG P) + i)) (fun j => vy (at0 v0 (g_gradpk G) (j * nx (pG P) + i)))
    (fun j => blocked P G (j * nx (pG P) + i)) k)) end.
  - apply p_C38_line. exact Hx.
  - intros j Hj. rewrite nth_map_seq' by (unfold nodes; nia). rewrite nth_map_seq' by exact Hk. cbn [Nat.add].
    replace ((j * nx (pG P) + i) / nx (pG P))%nat with j.
    + replace ((j * nx (pG P) + i) mod nx (pG P))%nat with i; [reflexivity|].
      rewrite Nat.add_comm, Nat.mod_add by lia. symmetry. apply Nat.mod_small. exact Hi.
    + rewrite Nat.add_comm, Nat.div_add by lia. rewrite Nat.div_small by exact Hi. reflexivity.
Qed.

(** ** C39, where the composition does not vary along the line *)
Lemma speeds_cancel (c : R) ss f gi bi : length f = length ss -> Forall (fun s => s <> 0) ss -> Rsum f = 1 -> inv_size ss f <> 0 ->
  fsum (length ss) (fun k => nth k f 0 * seg_speed c ss f (nth k ss 0) gi bi) = 0.
Proof.
  intros HL HS H1 HI. unfold seg_speed. destruct bi; [rewrite (fsum_ext _ _ (fun _ => 0)); [rewrite fsum_const; ring|intros; cbn; ring]|].
  set (w := inv_size ss f) in *.
  rewrite (fsum_ext _ _ (fun k => c * gi * / w * (nth k f 0 * (1 / nth k ss 0)) - c * gi * nth k f 0)).
  2:{ intros k Hk. cbn. assert (nth k ss 0 <> 0) by (exact (proj1 (Forall_forall _ _) HS _ (nth_In _ _ Hk))). field. auto. }
  rewrite fsum_minus. rewrite (fsum_scal _ _ (fun k => nth k f 0 * (1 / nth k ss 0))), (fsum_scal _ _ (fun k => nth k f 0)).
  assert (W : fsum (length ss) (fun k => nth k f 0 * (1 / nth k ss 0)) = w).
  { unfold w, inv_size. rewrite lsum_Rsum, Rsum_fsum, zipw_length, HL, Nat.min_id. apply fsum_ext. intros k Hk.
    rewrite (zipw_nth _ _ _ _ 0 0) by lia. reflexivity. }
  rewrite W, <- HL, <- Rsum_fsum, H1. field. exact HI.
Qed.
Lemma p_C39_uniform : forall cyclic (dt dx c : R) ss n phi g b f, (1 <= n)%nat ->
  (forall i, (i < n)%nat -> phi i = f) -> length f = length ss -> Forall (fun s => 0 < s) ss ->
  Forall (Rle 0) f -> Rsum f = 1 ->
  forall i, (i < n)%nat -> fsum (length ss) (fun k => kt_line cyclic dt dx c ss n phi g b k i) = 0.
Proof.
  intros cyclic dt dx c ss n phi g b f Hn HU HL HS HF H1 i Hi.
  assert (HS' : Forall (fun s => s <> 0) ss) by (eapply Forall_impl; [|exact HS]; cbv beta; intros; lra).
  assert (HI : inv_size ss f <> 0).
  { apply Rgt_not_eq. unfold inv_size. rewrite lsum_Rsum. clear - HL HS HF H1. revert f ss HL HS HF H1.
    assert (A : forall f ss, length f = length ss -> Forall (fun s => 0 < s) ss -> Forall (Rle 0) f ->
      0 <= Rsum (zipw (fun f s => (f * (n1 / s))%num) f ss) /\ (0 < Rsum f -> 0 < Rsum (zipw (fun f s => (f * (n1 / s))%num) f ss))).
    { intros f0. induction f0 as [|a f0 IH]; intros [|s ss] HL HS HF; try discriminate; [cbn; lra|].
      inversion_clear HS as [|? ? S1 S2]. inversion_clear HF as [|? ? F1 F2]. injection HL as HL.
      destruct (IH ss HL S2 F2) as [A B]. cbn [zipw Rsum fold_right]. cbn [nmul ndiv Num.n1 Num_R].
      assert (0 < 1 / s) by (apply Rdiv_lt_0_compat; lra). change (fold_right Rplus 0 f0) with (Rsum f0).
      change (fold_right Rplus 0 (zipw (fun f s => f * (1 / s)) f0 ss)) with (Rsum (zipw (fun f s => (f * (n1 / s))%num) f0 ss)).
      set (z := Rsum (zipw _ f0 ss)) in *. split; [assert (0 <= a * (1 / s)) by (apply Rmult_le_pos; lra); lra|].
      intros Hs. destruct (Req_EM_T a 0) as [->|Na]; [rewrite Rmult_0_l; assert (0 < z) by (apply B; lra); lra|].
      assert (0 < a * (1 / s)) by (apply Rmult_lt_0_compat; lra). lra. }
    intros f ss HL HS HF H1. apply A; auto. lra. }
  set (PH := fun k j => nth k (pad2 n phi j) (0 : R)).
  set (V0 := fun k j => seg_speed c ss (pad2 n phi j) (nth k ss 0) (if cyclic then pad2_cyc n g j else pad2 n g j) (pad2 n b j)).
  assert (PU : forall j, pad2 n phi j = f) by (intros j; apply HU; lia).
  assert (C0 : forall k j, PH k j = nth k f 0) by (intros; unfold PH; rewrite PU; reflexivity).
  rewrite (fsum_ext _ _ (fun k => dt / (2 * dx) * (kt_flux dx (PH k) (bc n (PH k) (V0 k)) (i + 2) - kt_flux dx (PH k) (bc n (PH k) (V0 k)) (i + 2 + 1)))).
  2:{ intros k Hk. transitivity (kt_update dt dx (n + 4) (PH k) (bc n (PH k) (V0 k)) (i + 2)); [reflexivity|].
      rewrite kt_update_flux by lia. unfold Rdiv. ring. }
  rewrite (fsum_scal _ _ (fun k => kt_flux dx (PH k) (bc n (PH k) (V0 k)) (i + 2) - kt_flux dx (PH k) (bc n (PH k) (V0 k)) (i + 2 + 1))), fsum_minus.
  assert (Z : forall m, (2 <= m)%nat -> (m <= n + 2)%nat -> fsum (length ss) (fun k => kt_flux dx (PH k) (bc n (PH k) (V0 k)) m) = 0).
  { intros m H2 H3.
    assert (FX : forall k, kt_flux dx (PH k) (bc n (PH k) (V0 k)) m = nth k f 0 * (bc n (PH k) (V0 k) m + bc n (PH k) (V0 k) (m - 1)%nat)).
    { intros k. unfold kt_flux. cbv zeta. assert (SL : forall j, slope dx (PH k) j = 0).
      { intros j. unfold slope. rewrite !C0. replace ((nth k f 0 - nth k f 0) / dx) with 0 by (unfold Rdiv; ring). apply limiter_0l. }
      rewrite !SL, !C0. field. }
    rewrite (fsum_ext _ _ (fun k => nth k f 0 * (bc n (PH k) (V0 k) m + bc n (PH k) (V0 k) (m - 1)%nat))) by (intros; apply FX).
    destruct (Nat.eq_dec m 2) as [->|N2]; [|destruct (Nat.eq_dec m (n + 2)) as [->|N3]].
    - rewrite (fsum_ext _ _ (fun _ => 0)); [rewrite fsum_const; ring|]. intros k Hk. rewrite bc_in by lia. cbn [Nat.sub].
      change (bc n (PH k) (V0 k) 1) with (- (PH k 2%nat * V0 k 2%nat / PH k 1%nat)). rewrite !C0.
      destruct (Req_EM_T (nth k f 0) 0) as [->|NZ]; [ring|field; exact NZ].
    - rewrite (fsum_ext _ _ (fun _ => 0)); [rewrite fsum_const; ring|]. intros k Hk. rewrite (bc_in n _ _ (n + 2 - 1)) by lia.
      assert (V2 : bc n (PH k) (V0 k) (n + 2) = - (PH k (n + 1)%nat * V0 k (n + 1)%nat / PH k (n + 2)%nat)).
      { unfold bc. destruct (Nat.eqb_spec (n + 2) 0); [lia|]. destruct (Nat.eqb_spec (n + 2) 1); [lia|].
        destruct (Nat.eqb_spec (n + 2) (n + 2)) as [_|Q]; [reflexivity|congruence]. }
      rewrite V2, !C0. replace (n + 2 - 1)%nat with (n + 1)%nat by lia. destruct (Req_EM_T (nth k f 0) 0) as [->|NZ]; [ring|field; exact NZ].
    - rewrite (fsum_ext _ _ (fun k => nth k f 0 * V0 k m + nth k f 0 * V0 k (m - 1)%nat)) by (intros; rewrite !bc_in by lia; ring).
      rewrite fsum_plus. unfold V0. rewrite !PU. rewrite !speeds_cancel by assumption. ring. }
  rewrite !Z by lia. ring.
Qed.
