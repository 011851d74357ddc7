(** * Other limiters and the range of the stand-alone solver: C73, C74. *)
From Coq Require Import ZArith List Bool Arith Lia Reals Lra.
From Verif Require Import State NumR LibR LibList Spec ModelGrid ModelIntegr ModelNewInt ThmSeg ThmGrad ThmNewInt.
Import ListNotations.
Local Open Scope R_scope.
Local Existing Instance Num_R.

(** vanLeer and vanAlbada1 return the limiter function of the ratio: a number
    that does not depend on the scale of the slopes. *)
Lemma p_C73_ratio : forall a b k : R, b <> 0 -> k <> 0 ->
  vanLeer (k * a) (k * b) = vanLeer a b /\ vanAlbada1 (k * a) (k * b) = vanAlbada1 a b.
Proof.
  intros a b k Hb Hk. unfold vanLeer, vanAlbada1. rewrite !div0_R. replace (k * a / (k * b)) with (a / b) by (field; auto). auto.
Qed.
(** For slopes of one sign vanLeer is between 0 and 2, for opposite signs zero. *)
Lemma p_C73_vanLeer : forall a b : R, b <> 0 -> (0 < a * b -> 0 < vanLeer a b < 2) /\ (a * b <= 0 -> vanLeer a b = 0).
Proof.
  intros a b Hb. unfold vanLeer. rewrite div0_R. cbn [nadd ndiv nabs n1 Num_R].
  assert (E : a / b = a * b / (b * b)) by (field; exact Hb). assert (B : 0 < b * b) by nra.
  assert (Ib : 0 < / (b * b)) by (apply Rinv_0_lt_compat, B). split; intros H.
  - assert (P : 0 < a / b) by (rewrite E; unfold Rdiv; apply Rmult_lt_0_compat; lra). set (r := a / b) in *. rewrite Rabs_right by lra.
    split; [apply Rdiv_lt_0_compat; lra|]. apply Rmult_lt_reg_r with (1 + r); [lra|]. replace ((r + r) / (1 + r) * (1 + r)) with (r + r) by (field; lra). lra.
  - assert (P : a / b <= 0) by (rewrite E; unfold Rdiv; nra). set (r := a / b) in *. rewrite Rabs_left1 by lra. unfold Rdiv. replace (r + - r) with 0 by ring. ring.
Qed.
(** Both weigh the two slopes evenly: multiplied by the second slope, either is
    the same whichever slope is taken first. *)
Lemma p_C73_even : forall a b : R, a <> 0 -> b <> 0 ->
  b * vanLeer a b = a * vanLeer b a /\ b * vanAlbada1 a b = a * vanAlbada1 b a.
Proof.
  intros a b Ha Hb. assert (A : 0 < a * a) by nra. assert (B : 0 < b * b) by nra. unfold vanLeer, vanAlbada1. cbv zeta. rewrite (div0_R a b), (div0_R b a). cbn [nadd nmul ndiv nabs n1 Num_R]. split.
  - assert (Pa := Rabs_pos_lt a Ha). assert (Pb := Rabs_pos_lt b Hb). unfold Rdiv. rewrite !Rabs_mult, !Rabs_inv.
    destruct (Rcase_abs a) as [Sa|Sa]; [rewrite (Rabs_left a Sa) in *|rewrite (Rabs_right a Sa) in *]; (destruct (Rcase_abs b) as [Sb|Sb]; [rewrite (Rabs_left b Sb) in *|rewrite (Rabs_right b Sb) in *]); field; repeat split; lra.
  - field. repeat split; try assumption; nra.
Qed.
(** For slopes of one sign vanAlbada1 is positive and below 5/4; it is zero when
    the first slope is; and where the slopes have opposite signs it need not
    vanish: it is negative when the second is the steeper, positive when the first is. *)
Lemma p_C73_vanAlbada : forall a b : R, b <> 0 ->
  vanAlbada1 a b < 5 / 4 /\ (0 < a * b -> 0 < vanAlbada1 a b) /\ (a = 0 -> vanAlbada1 a b = 0) /\
  (a * b < 0 -> Rabs a < Rabs b -> -1 / 4 < vanAlbada1 a b < 0) /\ (a * b < 0 -> Rabs b < Rabs a -> 0 < vanAlbada1 a b).
Proof.
  intros a b Hb. assert (B : 0 < b * b) by nra. assert (P : 0 < a * a + b * b) by nra.
  assert (E : vanAlbada1 a b = (a * a + a * b) * / (a * a + b * b)).
  { unfold vanAlbada1. rewrite div0_R. cbn [nadd nmul ndiv n1 Num_R]. field. repeat split; nra. }
  rewrite E. assert (I : 0 < / (a * a + b * b)) by (apply Rinv_0_lt_compat, P). set (D := a * a + b * b) in *. assert (U : D * / D = 1) by (apply Rinv_r; lra).
  assert (Sq : forall x y, Rabs x < Rabs y -> x * x < y * y). { intros x y L. apply Rsqr_lt_abs_1 in L. exact L. }
  split; [|split; [|split; [|split]]].
  - replace (5 / 4) with (5 / 4 * (D * / D)) by (rewrite U; ring). rewrite <- Rmult_assoc. apply Rmult_lt_compat_r; [exact I|]. unfold D. assert (Q := Rle_0_sqr (a / 2 - b)). unfold Rsqr in Q. nra.
  - intros H. apply Rmult_lt_0_compat; [nra|exact I].
  - intros ->. ring.
  - intros H L. apply Sq in L. split.
    + replace (-1 / 4) with (-1 / 4 * (D * / D)) by (rewrite U; field). rewrite <- Rmult_assoc. apply Rmult_lt_compat_r; [exact I|]. unfold D. assert (Q := Rle_0_sqr (b / 2 + a)). unfold Rsqr in Q. assert (0 < a * a) by nra. nra.
    + assert (a * a + a * b < 0) by nra. nra.
  - intros H L. apply Sq in L. assert (0 < a * a + a * b) by nra. apply Rmult_lt_0_compat; assumption.
Qed.
(** So they are not slope limiters: no multiple of the slopes bounds them. *)
Lemma p_C73_slope_refuted : forall K : R, 0 < K ->
  (exists a b : R, 0 < a /\ 0 < b /\ K * Rmax a b < vanLeer a b) /\ (exists a b : R, 0 < a /\ 0 < b /\ K * Rmax a b < vanAlbada1 a b).
Proof.
  intros K HK. assert (I : 0 < / (2 * K)) by (apply Rinv_0_lt_compat; lra).
  assert (E : K * Rmax (/ (2 * K)) (/ (2 * K)) = 1 / 2) by (rewrite Rmax_left by lra; field; lra).
  split; exists (/ (2 * K)), (/ (2 * K)); (split; [exact I|]); (split; [exact I|]); rewrite E.
  - unfold vanLeer, div0. cbn [nfin Num_R]. cbv zeta. cbn [nadd ndiv nabs n1 Num_R]. replace (/ (2 * K) / / (2 * K)) with 1 by (field; lra). rewrite Rabs_R1. lra.
  - unfold vanAlbada1, div0. cbn [nfin Num_R]. cbv zeta. cbn [nadd nmul ndiv nabs n1 Num_R]. replace (/ (2 * K) / / (2 * K)) with 1 by (field; lra). lra.
Qed.
Lemma Rltb_dec x y : Rltb x y = if Rlt_dec x y then true else false.
Proof. destruct (Rlt_dec x y) as [Q|Q]; [apply Rltb_true, Q|]. destruct (Rltb x y) eqn:E; [apply Rltb_true in E; contradiction|reflexivity]. Qed.
(** minmod2: zero unless the three slopes have one sign, and then bounded by the
    second and theta times the first ... *)
Lemma p_C73_minmod2 : forall a b c theta : R, 0 <= theta ->
  (minmod2 a b c theta <> 0 -> (0 < a /\ 0 < b /\ 0 < c) \/ (a < 0 /\ b < 0 /\ c < 0)) /\
  Rabs (minmod2 a b c theta) <= theta * Rabs a /\ Rabs (minmod2 a b c theta) <= Rabs b /\ 0 <= minmod2 a b c theta * b.
Proof.
  intros a b c th Ht. unfold minmod2. cbn [nltb n0 nmin nmax nmul Num_R]. rewrite !Rltb_dec.
  assert (Z : Rabs 0 <= th * Rabs a /\ Rabs 0 <= Rabs b /\ 0 <= 0 * b).
  { rewrite Rabs_R0. split; [apply Rmult_le_pos; [exact Ht|apply Rabs_pos]|]. split; [apply Rabs_pos|lra]. }
  destruct (Rlt_dec 0 a), (Rlt_dec a 0); try lra; cbn [andb]; try (split; [intros X; contradiction|exact Z]).
  - destruct (Rlt_dec 0 b); cbn [andb]; [|split; [intros X; contradiction|exact Z]].
    destruct (Rlt_dec 0 c); cbn [andb]; [|split; [intros X; contradiction|exact Z]].
    split; [left; auto|]. assert (0 <= th * a) by nra. pose proof (Rmin_l (th * a) b). pose proof (Rmin_r (th * a) b).
    assert (0 <= Rmin (th * a) b) by (apply Rmin_glb; lra). rewrite !Rabs_right by lra. split; [lra|]. split; [lra|nra].
  - destruct (Rlt_dec b 0); cbn [andb]; [|split; [intros X; contradiction|exact Z]].
    destruct (Rlt_dec c 0); cbn [andb]; [|split; [intros X; contradiction|exact Z]].
    split; [right; auto|]. assert (th * a <= 0) by nra. pose proof (Rmax_l (th * a) b). pose proof (Rmax_r (th * a) b).
    assert (Rmax (th * a) b <= 0) by (apply Rmax_lub; lra). rewrite !Rabs_left1 by lra. split; [lra|]. split; [lra|nra].
Qed.
(** ... but not by the third: np.minimum takes it as the place for the result. *)
Lemma p_C73_third_refuted : exists a b c theta : R, 1 <= theta <= 2 /\ theta * Rabs c < Rabs (minmod2 a b c theta).
Proof.
  exists 1, 2, (1 / 10), 2. split; [lra|]. unfold minmod2. cbn [nltb n0 nmin nmax nmul Num_R]. rewrite !Rltb_dec.
  destruct (Rlt_dec 0 1), (Rlt_dec 0 2), (Rlt_dec 0 (1 / 10)), (Rlt_dec 1 0); try lra. cbn [andb]. rewrite Rmin_left by lra.
  rewrite !Rabs_right by lra. lra.
Qed.

Lemma nvelocity_bound (c v : R) : 0 <= c <= 1 -> Rabs (nvelocity c v) <= 3 / 5 * Rabs v.
Proof.
  intros Hc. unfold nvelocity, lit. cbn [nadd nsub nmul ndiv n1 nofZ Num_R]. set (h := c + (1 - c) * (IZR 5 / IZR 2)).
  assert (H : 1 <= h <= 5 / 2) by (unfold h; lra). rewrite Rabs_mult, Rmult_comm. apply Rmult_le_compat_r; [apply Rabs_pos|].
  assert (2 / 5 <= 1 / h) by (apply Rmult_le_reg_r with h; [lra|]; replace (1 / h * h) with 1 by (field; lra); lra).
  assert (1 / h <= 1) by (apply Rmult_le_reg_r with h; [lra|]; replace (1 / h * h) with 1 by (field; lra); lra).
  rewrite Rabs_right by lra. lra.
Qed.
(** The flux through a face, as what leaves either side. *)
Lemma face_bounds a b v m : 0 <= a <= 1 -> 0 <= b <= 1 -> Rabs v <= m -> - (2 * (3 / 5 * m) * b) <= face a b v <= 2 * (3 / 5 * m) * a.
Proof.
  intros Ha Hb Hv. unfold face, nflux. cbn [nmul Num_R].
  pose proof (nvelocity_bound a v Ha) as A. pose proof (nvelocity_bound b v Hb) as B.
  set (x := nvelocity a v) in *. set (y := nvelocity b v) in *. clearbody x y.
  pose proof (Rmax_l (Rabs x) (Rabs y)) as M1. pose proof (Rmax_r (Rabs x) (Rabs y)) as M2.
  assert (M3 : Rmax (Rabs x) (Rabs y) <= 3 / 5 * m) by (apply Rmax_lub; lra).
  set (M := Rmax (Rabs x) (Rabs y)) in *. clearbody M.
  assert (- M <= x <= M) by (pose proof (Rle_abs x); pose proof (Rle_abs (- x)); rewrite Rabs_Ropp in *; lra).
  assert (- M <= y <= M) by (pose proof (Rle_abs y); pose proof (Rle_abs (- y)); rewrite Rabs_Ropp in *; lra).
  split; nra.
Qed.
Lemma pad_edge_range n (c : nat -> R) lo hi : (forall i, lo <= c i <= hi) -> forall k, lo <= pad_edge n c k <= hi.
Proof. intros H k. apply H. Qed.
(** An explicit step from concentrations between 0 and 1 leaves none negative
    when 1.2 |v| dt <= dx; the main program uses |v| dt = 0.1 dx. *)
Lemma p_C74_nonneg : forall dx dt n (c v : nat -> R) m, 0 < dx -> 0 <= dt -> (forall i, (i < n)%nat -> 0 <= c i <= 1) ->
  (forall i, (i < n)%nat -> Rabs (v i) <= m) -> 0 <= m -> 6 / 5 * m * dt <= dx ->
  forall i, (i < n)%nat -> 0 <= c i + nEuler dx dt n c v i.
Proof.
  intros dx dt n c v m Hdx Hdt Hc Hv Hm HC i Hi. unfold nEuler. cbn [nmul Num_R].
  set (c0 := pad_edge n c).
  assert (HR : forall k, 0 <= c0 k <= 1) by (intros k; apply Hc; lia).
  rewrite nKT_face by (try lra; lia). replace (i + 1 - 1)%nat with i by lia. set (V := pad_zero n v).
  assert (VB : forall k, (k < n + 2)%nat -> Rabs (V k) <= m).
  { intros k Hk. unfold V, pad_zero. destruct (Nat.eqb_spec k 0); [change (Rabs 0 <= m); rewrite Rabs_R0; exact Hm|].
    destruct (Nat.eqb_spec k (n + 1)); [change (Rabs 0 <= m); rewrite Rabs_R0; exact Hm|]. apply Hv. lia. }
  destruct (rec_bound dx (n + 2) c0 i Hdx HR) as [L0 R0]. destruct (rec_bound dx (n + 2) c0 (i + 1) Hdx HR) as [L1 R1].
  destruct (rec_bound dx (n + 2) c0 (i + 1 + 1) Hdx HR) as [L2 R2].
  destruct (face_bounds _ _ (V i) m R0 L1 (VB i ltac:(lia))) as [F1 _]. destruct (face_bounds _ _ (V (i + 1 + 1)%nat) m R1 L2 (VB (i + 1 + 1)%nat ltac:(lia))) as [_ F2].
  assert (S : rec_l dx (n + 2) c0 (i + 1) + rec_r dx (n + 2) c0 (i + 1) = 2 * c i).
  { unfold rec_l, rec_r. replace (c0 (i + 1)%nat) with (c i) by (unfold c0, pad_edge; f_equal; lia). ring. }
  set (f1 := face _ _ (V i)) in *. set (f2 := face _ _ (V (i + 1 + 1)%nat)) in *. clearbody f1 f2. set (a := rec_l dx (n + 2) c0 (i + 1)) in *. set (b := rec_r dx (n + 2) c0 (i + 1)) in *.
  clearbody a b. assert (D : - (2 * (3 / 5 * m)) * (2 * c i) <= f1 - f2) by (rewrite <- S; lra).
  pose proof (Hc i Hi) as Hci. apply Rmult_le_reg_r with dx; [exact Hdx|]. rewrite Rmult_0_l.
  replace ((c i + dt * ((f1 - f2) / (2 * dx))) * dx) with (c i * dx + dt * (f1 - f2) / 2) by (field; lra).
  assert (dt * (- (2 * (3 / 5 * m)) * (2 * c i)) <= dt * (f1 - f2)) by (apply Rmult_le_compat_l; assumption).
  assert (c i * (6 / 5 * m * dt) <= c i * dx) by (apply Rmult_le_compat_l; lra). lra.
Qed.
(** The program without diffusion conserves the total over any number of steps. *)
Lemma p_C57_main : forall dx dt n (w : R) steps (c : nat -> R), dx <> 0 -> (2 <= n)%nat ->
  fsum n (nrun dx dt 0 n (fun _ => w) steps c) = fsum n c.
Proof.
  intros dx dt n w steps. induction steps as [|k IH]; intros c Hd Hn; [reflexivity|]. cbn [nrun]. rewrite IH by assumption.
  rewrite p_C57_diffusion by assumption. cbv zeta.
  rewrite p_C57_rk3 by (assumption || lia).
  assert (Z : forall j, grad1 (fun i => 0 * nRK3 dx dt n c (fun _ => w) i) dx n j = 0).
  { intros j. unfold grad1. cbn [nsub nmul ndiv Num_R]. unfold Rdiv. destruct (Nat.eqb j 0); [ring|]. destruct (Nat.eqb j (n - 1)); ring. }
  rewrite !Z. unfold Rdiv. ring.
Qed.
