(** * Segregation advection: sign and accuracy (C68, C69). *)
From Coq Require Import ZArith List Bool Arith Lia Reals Lra.
From Verif Require Import State NumR LibR LibList Spec ModelGrid ModelIntegr ModelNT ProofsGrid Concrete ThmSeg ThmNT.
Import ListNotations.
Local Open Scope R_scope.
Local Existing Instance Num_R.

(** The speed of a class of size [s] in a mixture [f] of sizes [ss]: it vanishes
    for the size equal to the harmonic mean. *)
Definition hmean_inv (ss f : list R) : R := fsum (length ss) (fun k => nth k f 0 / nth k ss 0).
Definition speed (c : R) (ss f : list R) (s g : R) (b : bool) : R := if b then 0 else c * (1 / (hmean_inv ss f * s) - 1) * g.
Lemma hmean_inv_size ss f : length f = length ss -> inv_size ss f = hmean_inv ss f.
Proof.
  intros HL. unfold inv_size, hmean_inv. rewrite lsum_Rsum, Rsum_fsum, zipw_length, HL, Nat.min_id. apply fsum_ext. intros k Hk.
  rewrite (zipw_nth _ _ _ _ 0 0) by lia. cbn [nmul ndiv n1 Num_R]. unfold Rdiv. ring.
Qed.
Lemma seg_speed_eq c ss f s g b : length f = length ss -> seg_speed c ss f s g b = speed c ss f s g b.
Proof. intros HL. unfold seg_speed, speed. rewrite hmean_inv_size by exact HL. destruct b; reflexivity. Qed.

Lemma slope_scaled dx C i : dx <> 0 -> slope dx C i * dx = limiter (C i - C (i - 1)%nat) (C (i + 1)%nat - C i).
Proof.
  intros Hdx. unfold slope. change limiter with (superbee (T := R)). destruct (p_C37_superbee 0 0) as (_ & _ & _ & HH).
  replace ((C i - C (i - 1)%nat) / dx) with (/ dx * (C i - C (i - 1)%nat)) by (unfold Rdiv; ring).
  replace ((C (i + 1)%nat - C i) / dx) with (/ dx * (C (i + 1)%nat - C i)) by (unfold Rdiv; ring).
  rewrite HH. field. exact Hdx.
Qed.
Lemma recon_pos dx C i : dx <> 0 -> 0 <= C (i - 1)%nat -> 0 <= C i -> 0 <= C (i + 1)%nat ->
  0 <= C i + slope dx C i * dx / 2 /\ 0 <= C i - slope dx C i * dx / 2.
Proof.
  intros Hdx H0 H1 H2. rewrite slope_scaled by exact Hdx. set (x := C i - C (i - 1)%nat). set (y := C (i + 1)%nat - C i).
  change (limiter x y) with (superbee x y). destruct (p_C37_superbee x y) as (Z & Q & _).
  destruct (Rle_lt_dec (x * y) 0) as [X|X]; [rewrite (Z X); lra|]. destruct (Q X) as ((_ & U) & S).
  assert (U' : Rabs (superbee x y) <= 2 * Rmin (Rabs x) (Rabs y)) by (apply Rle_trans with (1 := U), Rmin_l).
  pose proof (Rmin_l (Rabs x) (Rabs y)). pose proof (Rmin_r (Rabs x) (Rabs y)). set (L := superbee x y) in *. clearbody L.
  destruct (Rlt_le_dec 0 x) as [PX|PX].
  - assert (PL : 0 < L) by nra. rewrite (Rabs_pos_eq L), (Rabs_pos_eq x) in * by lra. unfold x in *. lra.
  - assert (NX : x < 0) by (destruct PX as [PX|PX]; [exact PX|rewrite PX in X; lra]). assert (NY : y < 0) by nra.
    assert (NL : L < 0) by nra. rewrite (Rabs_left L), (Rabs_left x), (Rabs_left y) in * by lra. unfold x, y in *. lra.
Qed.
Lemma max_bounds p q a : Rabs p <= a -> Rabs q <= a ->
  Rabs ((p + q) / 2) <= Rmax (Rabs p) (Rabs q) <= a.
Proof.
  intros Hp Hq. split; [|apply Rmax_lub; assumption]. pose proof (Rmax_l (Rabs p) (Rabs q)). pose proof (Rmax_r (Rabs p) (Rabs q)).
  pose proof (Rabs_triang p q). unfold Rdiv. rewrite Rabs_mult, (Rabs_pos_eq (/ 2)) by lra. lra.
Qed.
Lemma Rabs_le_inv x y : Rabs x <= y -> - y <= x <= y.
Proof. unfold Rabs. destruct (Rcase_abs x); lra. Qed.
Lemma kt_update_pos dt dx a N C V i : 0 <= dt -> 0 < dx -> dt * a <= dx / 2 -> (2 <= i)%nat -> (i + 2 < N)%nat ->
  (forall j, (j < N)%nat -> 0 <= C j) -> (forall j, (j < N)%nat -> Rabs (V j) <= a) ->
  0 <= C i + kt_update dt dx N C V i.
Proof.
  intros Hdt Hdx HC H2 HN PC PV. rewrite kt_update_flux by assumption. unfold kt_flux. cbv zeta. replace (i + 1 - 1)%nat with i by lia.
  destruct (recon_pos dx C i) as [R1 R2]; [lra| | | |]; try (apply PC; lia).
  destruct (recon_pos dx C (i - 1)) as [_ L1]; [lra| | | |]; try (apply PC; lia).
  destruct (recon_pos dx C (i + 1)) as [R3 _]; [lra| | | |]; try (apply PC; lia).
  destruct (max_bounds (V i) (V (i - 1)%nat) a) as [A1 A2]; [apply PV; lia|apply PV; lia|].
  destruct (max_bounds (V (i + 1)%nat) (V i) a) as [B1 B2]; [apply PV; lia|apply PV; lia|].
  set (m := Rmax (Rabs (V i)) (Rabs (V (i - 1)%nat))) in *. set (m' := Rmax (Rabs (V (i + 1)%nat)) (Rabs (V i))) in *.
  set (v := (V i + V (i - 1)%nat) / 2) in *. set (v' := (V (i + 1)%nat + V i) / 2) in *.
  set (l := C (i - 1)%nat - slope dx C (i - 1) * dx / 2) in *. set (r' := C (i + 1)%nat + slope dx C (i + 1) * dx / 2) in *.
  set (h := slope dx C i * dx / 2) in *.
  apply Rabs_le_inv in A1. apply Rabs_le_inv in B1.
  assert (F1 : - (2 * a) * (C i + h) <= v * (l + (C i + h)) + m * (l - (C i + h))).
  { assert (0 <= (v + m) * l) by (apply Rmult_le_pos; lra).
    assert (0 <= (2 * a + v - m) * (C i + h)) by (apply Rmult_le_pos; lra). nra. }
  assert (F2 : v' * (C i - h + r') + m' * (C i - h - r') <= 2 * a * (C i - h)).
  { assert (0 <= (m' - v') * r') by (apply Rmult_le_pos; lra).
    assert (0 <= (2 * a - v' - m') * (C i - h)) by (apply Rmult_le_pos; lra). nra. }
  set (Fa := v * (l + (C i + h)) + m * (l - (C i + h))) in *. set (Fb := v' * (C i - h + r') + m' * (C i - h - r')) in *. clearbody Fa Fb.
  assert (D : - (4 * a) * C i <= Fa - Fb) by lra. assert (PI : 0 <= C i) by (apply PC; lia).
  assert (E : dt * (- (4 * a) * C i) <= dt * (Fa - Fb)) by (apply Rmult_le_compat_l; assumption).
  assert (K : dt * a * C i <= dx / 2 * C i) by (apply Rmult_le_compat_r; assumption).
  assert (Q : 0 <= 2 * dx * C i + dt * (Fa - Fb)) by nra.
  replace (C i + dt * (Fa - Fb) / (2 * dx)) with ((2 * dx * C i + dt * (Fa - Fb)) * / (2 * dx)) by (field; lra).
  apply Rmult_le_pos; [exact Q|]. left. apply Rinv_0_lt_compat. lra.
Qed.

(** The KT scheme does not make a fraction negative as long as no class moves
    further than half a cell in the step. *)
Lemma p_C68_line : forall cyclic (dt dx c a : R) ss n phi g b k i, 0 <= dt -> 0 < dx -> dt * a <= dx / 2 -> (i < n)%nat ->
  (forall j, (j < n)%nat -> length (phi j) = length ss /\ 0 <= nth k (phi j) 0 /\ Rabs (speed c ss (phi j) (nth k ss 0) (g j) (b j)) <= a) ->
  0 <= nth k (phi i) 0 + kt_line cyclic dt dx c ss n phi g b k i.
Proof.
  intros cyclic dt dx c a ss n phi g b k i Hdt Hdx HC Hi HP. unfold kt_line. cbv zeta.
  set (C := fun i => nth k (pad2 n phi i) n0). set (V0 := fun i => seg_speed _ _ _ _ _ _).
  replace (nth k (phi i) 0) with (C (i + 2)%nat).
  2:{ unfold C, pad2. replace (Nat.min (i + 2 - 2) (n - 1)) with i by lia. reflexivity. }
  assert (VI : forall j, (2 <= j)%nat -> (j < n + 2)%nat -> V0 j = speed c ss (phi (j - 2)%nat) (nth k ss 0) (g (j - 2)%nat) (b (j - 2)%nat)).
  { intros j J2 Jn. destruct (HP (j - 2)%nat ltac:(lia)) as (HL & _ & _). rewrite <- seg_speed_eq by exact HL. unfold V0.
    assert (PM : forall A (f : nat -> A), pad2 n f j = f (j - 2)%nat) by (intros A f; unfold pad2; f_equal; lia).
    rewrite !PM. destruct cyclic; [|reflexivity]. unfold pad2_cyc. destruct (Nat.eqb_spec j 0); [lia|]. destruct (Nat.eqb_spec j 1); [lia|].
    destruct (Nat.eqb_spec j (n + 2)); [lia|]. destruct (Nat.eqb_spec j (n + 3)); [lia|]. reflexivity. }
  assert (VB : forall j, (2 <= j)%nat -> (j < n + 2)%nat -> Rabs (V0 j) <= a) by (intros j J2 Jn; rewrite VI by assumption; apply HP; lia).
  assert (Ha : 0 <= a) by (apply Rle_trans with (2 := VB 2%nat ltac:(lia) ltac:(lia)); apply Rabs_pos).
  assert (CC : forall i j, Nat.min (i - 2) (n - 1) = Nat.min (j - 2) (n - 1) -> C i = C j).
  { intros i0 j0 Hij. unfold C, pad2. rewrite Hij. reflexivity. }
  assert (GH : forall x y v : R, x = y -> Rabs v <= a -> Rabs (- (x * v / y)) <= a).
  { intros x y v -> Hv. rewrite Rabs_Ropp. destruct (Req_EM_T y 0) as [->|N]; [unfold Rdiv; rewrite Rmult_0_l, Rmult_0_l, Rabs_R0; exact Ha|].
    replace (y * v / y) with v by (field; exact N). exact Hv. }
  apply (kt_update_pos dt dx a); try assumption; try lia.
  - intros j Hj. unfold C, pad2. apply HP. lia.
  - intros j Hj. unfold bc. cbv zeta. rewrite !div0_R. cbn [nmul nopp Num_R].
    assert (G1 : Rabs (- (C 2%nat * V0 2%nat / C 1%nat)) <= a) by (apply GH; [apply CC; lia|apply VB; lia]).
    assert (G2 : Rabs (- (C (n + 1)%nat * V0 (n + 1)%nat / C (n + 2)%nat)) <= a) by (apply GH; [apply CC; lia|apply VB; lia]).
    destruct (Nat.eqb_spec j 0); [apply GH; [apply CC; lia|exact G1]|]. destruct (Nat.eqb_spec j 1); [exact G1|].
    destruct (Nat.eqb_spec j (n + 2)); [exact G2|]. destruct (Nat.eqb_spec j (n + 3)); [apply GH; [apply CC; lia|exact G2]|]. apply VB; lia.
Qed.

Lemma kt_line_scale cyclic q dt dx c ss n phi g b k i : (i < n)%nat ->
  kt_line cyclic (q * dt) dx c ss n phi g b k i = q * kt_line (T := R) cyclic dt dx c ss n phi g b k i.
Proof. intros Hi. unfold kt_line. cbv zeta. rewrite !kt_update_flux by lia. unfold Rdiv. ring. Qed.
(** On the grid, for the sum of the two directions: a quarter of a cell. *)
Definition advect_ok (P : params R) (G : grid R) (c a : R) (comp : V3 R -> R) (k : nat) : Prop :=
  let ss := firstn (ns (pG P)) (gs (pG P)) in
  forall m, (m < nodes (pG P))%nat -> length (nth m (g_phi G) []) = ns (pG P) /\ 0 <= nth k (nth m (g_phi G) []) 0 /\
    (~ closed_node P G m -> Rabs (c * (1 / (hmean_inv ss (nth m (g_phi G) []) * nth k ss 0) - 1) * comp (nth m (g_gradpk G) v0)) <= a).
Lemma ok_inj {A} (x y : A) : Ok x = Ok y -> x = y.
Proof. intros E. injection E as E. exact E. Qed.
Lemma not_closed P G m : blocked P G m = false -> ~ closed_node P G m.
Proof. intros E Q. apply closed_blocked in Q. congruence. Qed.
Lemma p_C68_nonneg : forall (P : params R) G A B dx dy c a0 a1 k, KT0 P G = Ok A -> KT1 P G = Ok B ->
  pdx (pG P) = Some dx -> pdy (pG P) = Some dy -> p_c P = Some c -> 0 < dx -> 0 < dy -> 0 <= p_dt P -> 0 <= a0 -> 0 <= a1 ->
  p_dt P * a0 <= dx / 4 -> p_dt P * a1 <= dy / 4 -> (k < ns (pG P))%nat -> advect_ok P G c a0 vx k -> advect_ok P G c a1 vy k ->
  forall m, (m < nodes (pG P))%nat -> 0 <= nth k (nth m (g_phi G) []) 0 + nth k (nth m A []) 0 + nth k (nth m B []) 0.
Proof.
  intros P G A B dx dy c a0 a1 k EA EB Ex Ey Ec Hx Hy Hdt Ha0 Ha1 C0 C1 Hk S0 S1 m Hm.
  unfold KT0 in EA. rewrite Ex, Ec in EA. cbv beta iota zeta delta [attr bind] in EA. unfold KT1 in EB. rewrite Ey, Ec in EB. cbv beta iota zeta delta [attr bind] in EB.
  destruct (sizes P) as [ss|] eqn:ES; [|discriminate]. apply ok_inj in EA. apply ok_inj in EB. rewrite <- EA, <- EB. clear EA EB.
  assert (SS : ss = firstn (ns (pG P)) (gs (pG P)) /\ length ss = ns (pG P)).
  { unfold sizes in ES. destruct (Nat.leb_spec (ns (pG P)) (length (gs (pG P)))) as [Q|Q]; [|discriminate]. injection ES as <-.
    split; [reflexivity|apply firstn_length_le; exact Q]. }
  destruct SS as [SS LS]. unfold advect_ok in S0, S1. rewrite <- SS in S0, S1.
  set (nX := nx (pG P)) in *. assert (X0 : (nX <> 0)%nat) by (intros Z; unfold nodes in Hm; fold nX in Hm; rewrite Z in Hm; lia).
  assert (Hi : (m mod nX < nX)%nat) by (apply Nat.mod_upper_bound; exact X0).
  assert (Hj : (m / nX < ny (pG P))%nat) by (apply Nat.div_lt_upper_bound; [exact X0|unfold nodes in Hm; fold nX in Hm; lia]).
  assert (Em : (m / nX * nX + m mod nX)%nat = m) by (rewrite (Nat.div_mod m nX) at 3 by exact X0; lia).
  repeat (rewrite nth_map_seq' by (first [exact Hm|exact Hk])). cbv beta. cbn [Nat.add].
  match goal with |- 0 <= _ + ?x + ?y => set (L0 := x); set (L1 := y) end.
  assert (N0 : 0 <= nth k (nth m (g_phi G) []) 0 + 2 * L0).
  { replace L0 with (kt_line (cyclic_lr (pB P)) (p_dt P) dx c ss nX (fun i => at0 [] (g_phi G) (m / nX * nX + i))
      (fun i => vx (at0 v0 (g_gradpk G) (m / nX * nX + i))) (fun i => blocked P G (m / nX * nX + i)) k (m mod nX)) by (unfold L0; reflexivity).
    rewrite <- kt_line_scale by exact Hi.
    pose proof (p_C68_line (cyclic_lr (pB P)) (2 * p_dt P) dx c a0 ss nX (fun i => at0 [] (g_phi G) (m / nX * nX + i))
      (fun i => vx (at0 v0 (g_gradpk G) (m / nX * nX + i))) (fun i => blocked P G (m / nX * nX + i)) k (m mod nX)) as Q.
    cbv beta in Q. unfold at0 at 1 in Q. rewrite Em in Q. apply Q; try lra; [exact Hi|].
    intros j Hj0. assert (Hm' : (m / nX * nX + j < nodes (pG P))%nat) by (unfold nodes; fold nX; nia).
    destruct (S0 _ Hm') as (Z1 & Z2 & Z3). unfold at0. split; [congruence|]. split; [exact Z2|]. unfold speed.
    destruct (blocked P G (m / nX * nX + j)) eqn:EBl; [rewrite Rabs_R0; exact Ha0|]. apply Z3, not_closed, EBl. }
  assert (N1 : 0 <= nth k (nth m (g_phi G) []) 0 + 2 * L1).
  { replace L1 with (kt_line false (p_dt P) dy c ss (ny (pG P)) (fun j => at0 [] (g_phi G) (j * nX + m mod nX))
      (fun j => vy (at0 v0 (g_gradpk G) (j * nX + m mod nX))) (fun j => blocked P G (j * nX + m mod nX)) k (m / nX)) by (unfold L1; reflexivity).
    rewrite <- kt_line_scale by exact Hj.
    pose proof (p_C68_line false (2 * p_dt P) dy c a1 ss (ny (pG P)) (fun j => at0 [] (g_phi G) (j * nX + m mod nX))
      (fun j => vy (at0 v0 (g_gradpk G) (j * nX + m mod nX))) (fun j => blocked P G (j * nX + m mod nX)) k (m / nX)) as Q.
    cbv beta in Q. unfold at0 at 1 in Q. rewrite Em in Q. apply Q; try lra; [exact Hj|].
    intros j Hj0. assert (Hm' : (j * nX + m mod nX < nodes (pG P))%nat) by (unfold nodes; fold nX; nia).
    destruct (S1 _ Hm') as (Z1 & Z2 & Z3). unfold at0. split; [congruence|]. split; [exact Z2|]. unfold speed.
    destruct (blocked P G (j * nX + m mod nX)) eqn:EBl; [rewrite Rabs_R0; exact Ha1|]. apply Z3, not_closed, EBl. }
  lra.
Qed.

(** ** C69: what the scheme computes *)
(** The padded speeds and fractions at inner positions. *)
Lemma kt_line_inner cyclic dt dx c ss n phi g b k i : (1 <= i)%nat -> (i + 1 < n)%nat ->
  (forall j, (j < n)%nat -> length (phi j) = length ss) ->
  exists C V, kt_line (T := R) cyclic dt dx c ss n phi g b k i = dt * (kt_flux dx C V (i + 2) - kt_flux dx C V (i + 3)) / (2 * dx) /\
    (forall j, (j < n)%nat -> C (j + 2)%nat = nth k (phi j) 0) /\ (forall j, C j = nth k (pad2 n phi j) 0) /\
    forall j, (j < n)%nat -> V (j + 2)%nat = speed c ss (phi j) (nth k ss 0) (g j) (b j).
Proof.
  intros H1 Hn HL. unfold kt_line. cbv zeta.
  set (C := fun i => nth k (pad2 n phi i) n0). set (V0 := fun i => seg_speed _ _ _ _ _ _).
  exists C, (bc n C V0). split; [|split; [|split]].
  - rewrite kt_update_flux by lia. replace (i + 2 + 1)%nat with (i + 3)%nat by lia. reflexivity.
  - intros j Hj. unfold C, pad2. replace (Nat.min (j + 2 - 2) (n - 1)) with j by lia. reflexivity.
  - reflexivity.
  - intros j Hj. rewrite bc_in by lia. rewrite <- seg_speed_eq by (apply HL, Hj). unfold V0.
    assert (PM : forall A (f : nat -> A), pad2 n f (j + 2) = f j) by (intros A f; unfold pad2; f_equal; lia).
    rewrite !PM. destruct cyclic; [|reflexivity]. unfold pad2_cyc.
    destruct (Nat.eqb_spec (j + 2) 0); [lia|]. destruct (Nat.eqb_spec (j + 2) 1); [lia|].
    destruct (Nat.eqb_spec (j + 2) (n + 2)); [lia|]. destruct (Nat.eqb_spec (j + 2) (n + 3)); [lia|].
    replace (j + 2 - 2)%nat with j by lia. reflexivity.
Qed.
(** In a uniform mixture a class changes by minus [dt] times its fraction times
    the central difference of its speed: classes pile up where they slow down. *)
Lemma p_C69_uniform_mixture : forall cyclic (dt dx c : R) ss n f g b k i, dx <> 0 -> (1 <= i)%nat -> (i + 1 < n)%nat -> length f = length ss ->
  let v := fun j => speed c ss f (nth k ss 0) (g j) (b j) in
  kt_line cyclic dt dx c ss n (fun _ => f) g b k i = - dt * nth k f 0 * (v (i + 1)%nat - v (i - 1)%nat) / (2 * dx).
Proof.
  intros cyclic dt dx c ss n f g b k i Hdx H1 Hn HL v.
  destruct (kt_line_inner cyclic dt dx c ss n (fun _ => f) g b k i H1 Hn ltac:(auto)) as (C & V & -> & _ & EC & EV).
  assert (C0 : forall j, C j = nth k f 0) by (intros j; rewrite EC; reflexivity).
  assert (SL : forall j, slope dx C j = 0).
  { intros j. unfold slope. rewrite !C0. replace ((nth k f 0 - nth k f 0) / dx) with 0 by (unfold Rdiv; ring). apply limiter_0l. }
  unfold kt_flux. cbv zeta. rewrite !SL, !C0.
  replace (i + 2 - 1)%nat with (i - 1 + 2)%nat by lia. replace (i + 3 - 1)%nat with (i + 2)%nat by lia. replace (i + 3)%nat with (i + 1 + 2)%nat by lia.
  rewrite !EV by lia. fold (v i) (v (i - 1)%nat) (v (i + 1)%nat). field. exact Hdx.
Qed.
(** A linear profile of the fraction in a locally constant speed is carried
    along exactly. *)
Lemma p_C69_linear_profile : forall cyclic (dt dx c : R) ss n phi g b k i alpha beta v, dx <> 0 -> (2 <= i)%nat -> (i + 2 < n)%nat ->
  (forall j, (j < n)%nat -> length (phi j) = length ss) ->
  (forall j, (i - 2 <= j <= i + 2)%nat -> nth k (phi j) 0 = alpha + beta * (INR j * dx)) ->
  (forall j, (i - 1 <= j <= i + 1)%nat -> speed c ss (phi j) (nth k ss 0) (g j) (b j) = v) ->
  kt_line cyclic dt dx c ss n phi g b k i = - dt * v * beta.
Proof.
  intros cyclic dt dx c ss n phi g b k i alpha beta v Hdx H1 Hn HL HC HV.
  destruct (kt_line_inner cyclic dt dx c ss n phi g b k i ltac:(lia) ltac:(lia) HL) as (C & V & -> & EC & _ & EV).
  assert (CJ : forall j, (i - 2 <= j <= i + 2)%nat -> C (j + 2)%nat = alpha + beta * (INR j * dx)) by (intros j Hj; rewrite EC by lia; apply HC, Hj).
  assert (SL : forall j, (i - 1 <= j <= i + 1)%nat -> slope dx C (j + 2) * dx = beta * dx).
  { intros j Hj. rewrite slope_scaled by exact Hdx. replace (j + 2 - 1)%nat with (j - 1 + 2)%nat by lia. replace (j + 2 + 1)%nat with (j + 1 + 2)%nat by lia.
    rewrite !CJ by lia. rewrite minus_INR, plus_INR by lia. cbn [INR].
    replace (alpha + beta * (INR j * dx) - (alpha + beta * ((INR j - 1) * dx))) with (beta * dx) by ring.
    replace (alpha + beta * ((INR j + 1) * dx) - (alpha + beta * (INR j * dx))) with (beta * dx) by ring.
    change limiter with (superbee (T := R)). clear.
    assert (P : forall x : R, 0 <= x -> superbee x x = x) by (intros x Hx; rewrite superbee_pp by assumption; unfold Rmax, Rmin; repeat destruct (Rle_dec _ _); lra).
    destruct (Rle_lt_dec 0 (beta * dx)) as [Q|Q]; [apply P, Q|].
    rewrite <- (Ropp_involutive (beta * dx)), superbee_opp, P by lra. reflexivity. }
  unfold kt_flux. cbv zeta.
  replace (i + 2 - 1)%nat with (i - 1 + 2)%nat by lia. replace (i + 3 - 1)%nat with (i + 2)%nat by lia. replace (i + 3)%nat with (i + 1 + 2)%nat by lia.
  rewrite !SL by lia. rewrite !EV, !HV, !CJ by lia. rewrite minus_INR, plus_INR by lia. cbn [INR]. field. exact Hdx.
Qed.

(** A 4x3 grid of equal parts of sizes 1 and 2 in a kinetic pressure gradient
    along both axes, with a node at which the first class is absent. *)
Definition mix_grid (G : grid R) : grid R :=
  G <| gm := repeat 1 12 |> <| g_phi := [0; 1] :: repeat [1/2; 1/2] 11 |> <| g_gradpk := repeat (mkV3 1 1 0) 12 |>.
Definition mix_params : params R := ex_params ex_bounds <| p_c := Some 1 |>.
Lemma nth_rep {A} (d x : A) n m : (m < n)%nat -> nth m (repeat x n) d = x.
Proof. intros H. rewrite (nth_indep _ d x) by (rewrite repeat_length; exact H). apply nth_repeat. Qed.
Example x_C68_nonneg : exists (P : params R) G A B, KT0 P G = Ok A /\ KT1 P G = Ok B /\
  pdx (pG P) = Some 1 /\ pdy (pG P) = Some 1 /\ p_c P = Some 1 /\ 0 < p_dt P /\ p_dt P * 1 <= 1 / 4 /\
  advect_ok P G 1 1 vx 0 /\ advect_ok P G 1 1 vy 0 /\ ~ closed_node P G 5.
Proof.
  set (G := mix_grid (mkGrid 1 1 [] [] [] [] [] [] [] [] [] [] [] [] [] [] [] [] [] [] [] [] [] [] [] [] [] [] [] [] [] [] [] [])) .
  exists mix_params, G. do 2 eexists. split; [reflexivity|]. split; [reflexivity|].
  split; [reflexivity|]. split; [reflexivity|]. split; [reflexivity|]. split; [cbn; lra|]. split; [cbn; lra|].
  assert (S : forall comp, (comp (mkV3 1 1 0) = 1) -> advect_ok mix_params G 1 1 comp 0).
  { intros comp HC m Hm. change (nodes (pG mix_params)) with 12%nat in Hm. unfold G. cbn -[repeat].
    replace (nth m (repeat (mkV3 1 1 0) 12) v0) with (mkV3 1 1 0 : V3 R) by (symmetry; apply (nth_rep v0); exact Hm). rewrite HC.
    unfold hmean_inv. cbn [length fsum nth].
    destruct m as [|m].
    - cbn. split; [reflexivity|]. split; [lra|]. intros _. replace (1 * (1 / ((0 + 0 / 1 + 1 / 2) * 1) - 1) * 1) with 1 by field. rewrite Rabs_R1. lra.
    - rewrite nth_rep by lia. cbn. split; [reflexivity|]. split; [lra|]. intros _.
      replace (1 * (1 / ((0 + 1 / 2 / 1 + 1 / 2 / 2) * 1) - 1) * 1) with (1 / 3) by field. rewrite Rabs_pos_eq; lra. }
  split; [apply S; reflexivity|]. split; [apply S; reflexivity|].
  intros [Q|Q]; cbn in Q; [discriminate|lra].
Qed.
(** A profile that is linear and moves with one speed. *)
Example x_C69_linear_profile : exists (ss : list R) phi g i alpha beta v, (2 <= i)%nat /\ (forall j, (j < 6)%nat -> length (phi j) = length ss) /\
  (forall j, (i - 2 <= j <= i + 2)%nat -> nth 0 (phi j) 0 = alpha + beta * (INR j * 1)) /\
  (forall j, (i - 1 <= j <= i + 1)%nat -> speed 1 ss (phi j) (nth 0 ss 0) (g j) false = v) /\
  kt_line false (1/10) 1 1 ss 6 phi g (fun _ => false) 0 i = - (1/10) * v * beta /\ v * beta <> 0.
Proof.
  set (phi := fun j => [2 + INR j]). set (g := fun j => 1 / (1 / (2 + INR j) - 1)).
  assert (A : forall j, (2 - 2 <= j <= 2 + 2)%nat -> nth 0 (phi j) 0 = 2 + 1 * (INR j * 1)) by (intros j _; cbn; ring).
  assert (B : forall j, (2 - 1 <= j <= 2 + 1)%nat -> speed 1 [1] (phi j) (nth 0 [1] 0) (g j) false = 1).
  { intros j _. unfold speed, g, phi, hmean_inv, fsum. cbn [seq map fold_right nth length Rsum]. pose proof (pos_INR j) as Hj.
    assert (0 < 2 + INR j) by lra. assert (/ (2 + INR j) < 1) by (rewrite <- Rinv_1; apply Rinv_lt_contravar; lra).
    cbn. set (z := INR j) in *. clearbody z. field. lra. }
  exists [1], phi, g, 2%nat, 2, 1, 1. split; [lia|]. split; [reflexivity|]. split; [exact A|]. split; [exact B|]. split; [|lra].
  apply (p_C69_linear_profile false (1/10) 1 1 [1] 6 phi g (fun _ => false) 0 2 2 1 1); auto; try lra; try lia.
Qed.
