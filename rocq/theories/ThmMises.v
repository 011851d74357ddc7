(** * The yield surface of von_mises: C132, C133. *)
From Coq Require Import ZArith List Bool Arith Lia Reals Lra.
From RecordUpdate Require Import RecordUpdate.
From Verif Require Import State NumR LibR LibList Spec SpecLaws ModelGrid ModelConstit ModelParticle ModelMPList ModelMain ProofsGrid ProofsMap ProofsLaws ProofsHist Concrete ThmMapping ThmLaws.
Import ListNotations.
Local Existing Instance Num_R.
Local Open Scope R_scope.

Lemma inner_plus a b : inner (plus3 a b) (plus3 a b) = inner a a + 2 * inner a b + inner b b.
Proof. unfold inner, plus3. cbn. ring. Qed.
Lemma inner_times_r a c b : inner a (times c b) = c * inner a b.
Proof. unfold inner, times. cbn. ring. Qed.
Lemma inner_times2 c d a : inner (times c a) (times d a) = c * d * inner a a.
Proof. unfold inner, times. cbn. ring. Qed.
Lemma inner_zero a : inner a a = 0 -> a = mkM3 0 0 0 0 0 0 0 0 0.
Proof.
  unfold inner. intros H. assert (Q : forall x, 0 <= x * x) by (intros x; nra).
  pose proof (Q (xx a)). pose proof (Q (xy a)). pose proof (Q (xz a)). pose proof (Q (yx a)). pose proof (Q (yy a)). pose proof (Q (yz a)). pose proof (Q (zx a)). pose proof (Q (zy a)). pose proof (Q (zz a)).
  assert (Z : forall x, x * x = 0 -> x = 0) by (intros x Hx; apply Rsqr_0_uniq; exact Hx).
  apply m3_ext; cbn; apply Z; lra.
Qed.
Definition change (p p' : particle R) : M3 R := plus3 (pdev p') (times (-1) (pdev p)).
(** The deviator of a point on the yield surface is [sqrt 2 k]. *)
Lemma on_surface p k : frob (pdev p) = sqrt 2 * k -> inner (pdev p) (pdev p) = 2 * (k * k).
Proof. intros H. rewrite <- (sqrt_sqrt (inner (pdev p) (pdev p))) by apply inner_nonneg. fold (frob (pdev p)). rewrite H. pose proof (sqrt_sqrt 2 ltac:(lra)). nra. Qed.

(** ** C132 *)
(** A step that loads a point on the yield surface is a step along the tangent:
    the square of the size of the deviator grows by the square of the step. *)
Lemma p_C132_tangent : forall P S0 So ip p G p' G' k, s_law So = VonMises -> apply_law P S0 So ip p G = Ok (p', G') -> s_k So = Some k -> 0 < k ->
  frob (pdev p) = sqrt 2 * k -> 0 <= inner (pdev p) (deviator (pdstrain p)) ->
  inner (pdev p') (pdev p') = 2 * (k * k) + inner (change p p') (change p p').
Proof.
  intros P S0 So ip p G p' G' k EL E EK Hk HY HW. unfold apply_law in E. rewrite EL in E.
  destruct (vm_out _ _ _ _ _ _ E) as (K & g & k' & s & E1 & E2 & E3 & E4 & ED & _). replace k' with k in * by congruence. cbv zeta in ED.
  pose proof (on_surface _ _ HY) as HI. assert (H2 : 0 < sqrt 2) by (apply sqrt_lt_R0; lra).
  replace (frob (pdev p) / (sqrt 2 * k)) with 1 in ED by (rewrite HY; field; lra). rewrite Rpow_one_base, Rabs_right, Rmult_1_r in ED by lra.
  set (st := times (2 * g) (plus3 (deviator (pdstrain p)) (times (- (inner (pdev p) (deviator (pdstrain p)) / (2 * (k * k)))) (pdev p)))) in *.
  assert (O : inner (pdev p) st = 0).
  { unfold st. rewrite inner_times_r. replace (inner (pdev p) (plus3 _ _)) with (inner (pdev p) (deviator (pdstrain p)) + - (inner (pdev p) (deviator (pdstrain p)) / (2 * (k * k))) * inner (pdev p) (pdev p)).
    - rewrite HI. field. lra.
    - generalize (deviator (pdstrain p)) (- (inner (pdev p) (deviator (pdstrain p)) / (2 * (k * k)))). intros d c. unfold inner. cbn. ring. }
  assert (C : change p p' = st) by (unfold change; rewrite ED; clearbody st; apply m3_ext; cbn; ring).
  rewrite C, ED, inner_plus, O, HI. ring.
Qed.
(** So every loading that is not straight along the deviator takes the point
    beyond the surface. *)
Lemma p_C132_surface_refuted : forall P S0 So ip p G p' G' k g, s_law So = VonMises -> apply_law P S0 So ip p G = Ok (p', G') -> s_k So = Some k -> s_G So = Some g -> 0 < k -> g <> 0 ->
  frob (pdev p) = sqrt 2 * k -> 0 <= inner (pdev p) (deviator (pdstrain p)) -> (forall c, deviator (pdstrain p) <> times c (pdev p)) ->
  sqrt 2 * k < frob (pdev p').
Proof.
  intros P S0 So ip p G p' G' k g EL E EK EG Hk Hg HY HW HN.
  pose proof (p_C132_tangent _ _ _ _ _ _ _ _ _ EL E EK Hk HY HW) as T.
  assert (Q : 0 < inner (change p p') (change p p')).
  { destruct (Rle_lt_or_eq_dec 0 _ (inner_nonneg (change p p'))) as [L|L]; [exact L|]. exfalso. symmetry in L. apply inner_zero in L.
    unfold apply_law in E. rewrite EL in E. destruct (vm_out _ _ _ _ _ _ E) as (K & g' & k' & s & _ & E2 & _ & _ & ED & _). replace g' with g in * by congruence. cbv zeta in ED.
    set (fac := Rabs _ / _ * _) in ED. apply (HN fac). unfold change in L. rewrite ED in L. clearbody fac. set (d := deviator (pdstrain p)) in *. clearbody d. clear ED.
    injection L as L1 L2 L3 L4 L5 L6 L7 L8 L9. clear - L1 L2 L3 L4 L5 L6 L7 L8 L9 Hg. cbn in *.
    assert (Z : forall a b, a + 2 * g * (b + - fac * a) + -1 * a = 0 -> b = fac * a).
    { intros a b H. assert (2 * g * (b - fac * a) = 0) by lra. apply Rmult_integral in H0. destruct H0; lra. }
    apply m3_ext; cbn; apply Z; assumption. }
  rewrite <- HY. unfold frob. rewrite T, (on_surface _ _ HY). apply sqrt_lt_1_alt. nra.
Qed.
(** Straining across the deviator is not resisted at all, whatever the yield
    stress: the deviator grows by every such step. *)
Lemma p_C132_across : forall (Pn : nat -> params R) S0 So ip (p p' : nat -> particle R) (G G' : nat -> grid R) g s n,
  s_law So = VonMises -> s_G So = Some g -> s_s So = Some s -> 2 <= s -> (forall j, apply_law (Pn j) S0 So ip (p j) (G j) = Ok (p' j, G' j)) -> (forall j, pdev (p (j + 1)%nat) = pdev (p' j)) ->
  (forall j, inner (pdev (p j)) (deviator (pdstrain (p j))) = 0) ->
  inner (pdev (p n)) (pdev (p n)) = inner (pdev (p 0%nat)) (pdev (p 0%nat)) + 4 * (g * g) * fsum n (fun j => inner (deviator (pdstrain (p j))) (deviator (pdstrain (p j)))).
Proof.
  intros Pn S0 So ip p p' G G' g s0 n EL EG _ _ HE HC HO. induction n as [|n IH]; [cbn; ring|]. cbn [fsum]. 
  replace (S n) with (n + 1)%nat by lia. rewrite HC. pose proof (HE n) as E. unfold apply_law in E. rewrite EL in E.
  destruct (vm_out _ _ _ _ _ _ E) as (K & g' & k & s & _ & E2 & _ & _ & ED & _). replace g' with g in * by congruence. cbv zeta in ED.
  rewrite HO, Rabs_R0 in ED. rewrite ED. specialize (HO n). set (d := deviator (pdstrain (p n))) in *.
  replace (plus3 d (times _ (pdev (p n)))) with d by (clearbody d; apply m3_ext; cbn; unfold Rdiv; ring).
  rewrite inner_plus, IH, inner_times_r, HO, inner_times2. fold d. ring.
Qed.
Lemma INR_beyond x : exists n, x < INR n.
Proof. destruct (archimed x) as [A _]. exists (Z.to_nat (up x)). rewrite INR_IZR_INZ. destruct (Z_lt_le_dec (up x) 0) as [L|L]; [|rewrite Z2Nat.id by exact L; lra]. apply Rlt_le_trans with (IZR (up x)); [lra|]. apply IZR_le. lia. Qed.
(** Beyond any bound, in steps as small as one likes. *)
Lemma p_C132_unbounded_refuted : forall (Pn : nat -> params R) S0 So ip (p p' : nat -> particle R) (G G' : nat -> grid R) g s eps M,
  s_law So = VonMises -> s_G So = Some g -> s_s So = Some s -> 2 <= s -> (forall j, apply_law (Pn j) S0 So ip (p j) (G j) = Ok (p' j, G' j)) -> (forall j, pdev (p (j + 1)%nat) = pdev (p' j)) ->
  (forall j, inner (pdev (p j)) (deviator (pdstrain (p j))) = 0 /\ frob (deviator (pdstrain (p j))) = eps) -> 0 < eps -> g <> 0 ->
  exists n, M < frob (pdev (p n)).
Proof.
  intros Pn S0 So ip p p' G G' g s eps M EL EG ES Hs HE HC HO He Hg.
  assert (HW : 0 < 4 * (g * g) * (eps * eps)) by (assert (0 < g * g) by (apply Rsqr_pos_lt; exact Hg); assert (0 < eps * eps) by nra; apply Rmult_lt_0_compat; lra).
  destruct (INR_beyond (M * M / (4 * (g * g) * (eps * eps)))) as [n Hn]. exists n.
  destruct (Rle_or_lt 0 M) as [HM|HM]; [|apply Rlt_le_trans with 0; [exact HM|apply sqrt_pos]].
  unfold frob. rewrite (p_C132_across Pn S0 So ip p p' G G' g s n EL EG ES Hs HE HC (fun j => proj1 (HO j))).
  rewrite (fsum_ext n _ (fun _ => eps * eps)).
  2:{ intros j _. rewrite <- (proj2 (HO j)). unfold frob. rewrite sqrt_sqrt; [reflexivity|apply inner_nonneg]. }
  assert (FC : forall n, fsum n (fun _ => eps * eps) = INR n * (eps * eps)) by (clear; induction n as [|n IH]; [cbn; ring|cbn [fsum]; rewrite IH, S_INR; ring]).
  rewrite FC. rewrite <- (sqrt_square M) at 1 by exact HM. apply sqrt_lt_1_alt. split; [nra|].
  apply (Rmult_lt_compat_r _ _ _ HW) in Hn. unfold Rdiv in Hn. rewrite Rmult_assoc, Rinv_l, Rmult_1_r in Hn by lra.
  pose proof (inner_nonneg (pdev (p 0%nat))). lra.
Qed.
(** Bernoulli's inequality for real exponents. *)
Lemma bernoulli x s : 0 < x -> x <= 1 -> 1 <= s -> 1 + s * (x - 1) <= Rpower x s.
Proof.
  intros H0 H1 Hs. destruct (Req_dec x 1) as [->|N]; [unfold Rpower; rewrite ln_1, Rmult_0_r, exp_0; lra|].
  assert (DP : forall c, x <= c <= 1 -> derivable_pt_lim (fun t => Rpower t s - s * t) c (s * Rpower c (s - 1) - s * 1)).
  { intros c Hc. apply derivable_pt_lim_minus; [apply derivable_pt_lim_power; lra|]. apply derivable_pt_lim_scal. apply derivable_pt_lim_id. }
  destruct (MVT_cor2 _ _ x 1 ltac:(lra) DP) as (c & Q & Hc).
  assert (L : Rpower c (s - 1) <= 1).
  { unfold Rpower. apply Rle_trans with (exp 0); [|rewrite exp_0; lra]. assert (ln c <= 0) by (rewrite <- ln_1; apply Rlt_le, ln_increasing; lra). destruct (Rle_lt_or_eq_dec ((s - 1) * ln c) 0 ltac:(nra)) as [L|L]; [left; apply exp_increasing; exact L|right; rewrite L; reflexivity]. }
  assert (P1 : Rpower 1 s = 1) by (unfold Rpower; rewrite ln_1, Rmult_0_r; apply exp_0). rewrite P1 in Q.
  assert ((s * Rpower c (s - 1) - s * 1) * (1 - x) <= 0) by (assert (s * Rpower c (s - 1) - s * 1 <= 0) by nra; nra). lra.
Qed.

(** The law along a fixed direction [N] of the size of the yield surface. *)
Lemma along P S0 So ip p G p' G' k g s N x c : s_law So = VonMises -> apply_law P S0 So ip p G = Ok (p', G') -> s_k So = Some k -> s_G So = Some g -> s_s So = Some s -> 0 < k -> 2 <= s ->
  frob N = sqrt 2 * k -> 0 <= x -> pdev p = times x N -> deviator (pdstrain p) = times c N ->
  pdev p' = times (x + 2 * g * (c - Rabs c * (if Rlt_dec 0 x then Rpower x s else 0))) N.
Proof.
  intros EL E EK EG ES Hk Hs HN Hx HP HD. unfold apply_law in E. rewrite EL in E.
  destruct (vm_out _ _ _ _ _ _ E) as (K & g' & k' & s' & _ & E2 & E3 & E4 & ED & _). replace k' with k in * by congruence. replace g' with g in * by congruence. replace s' with s in * by congruence. cbv zeta in ED.
  assert (H2 : 0 < sqrt 2) by (apply sqrt_lt_R0; lra).
  assert (HI : inner N N = 2 * (k * k)).
  { rewrite <- (sqrt_sqrt (inner N N)) by apply inner_nonneg. fold (frob N). rewrite HN. pose proof (sqrt_sqrt 2 ltac:(lra)). nra. }
  assert (FX : frob (pdev p) / (sqrt 2 * k) = x).
  { unfold frob. rewrite HP, inner_times2, HI. replace (x * x * (2 * (k * k))) with ((x * k) * (x * k) * 2) by ring.
    rewrite sqrt_mult, sqrt_square by nra. field. lra. }
  rewrite FX, HD, HP in ED. rewrite inner_times2, HI in ED.
  replace (Rabs (x * c * (2 * (k * k))) / (2 * (k * k))) with (x * Rabs c) in ED.
  2:{ rewrite !Rabs_mult, (Rabs_right x), (Rabs_right 2), (Rabs_right k) by lra. field. lra. }
  assert (PW : x * x * Rpow x (s - 2) = if Rlt_dec 0 x then Rpower x s else 0).
  { unfold Rpow. destruct (Rlt_dec 0 x) as [L|L]; [|replace x with 0 by lra; ring].
    replace (Rpower x s) with (Rpower x (2 + (s - 2))) by (f_equal; ring). rewrite Rpower_plus. replace (x * x) with (Rpower x 2); [ring|]. replace 2 with (INR 2) by (cbn; lra). rewrite Rpower_pow by exact L. cbn. ring. }
  rewrite <- PW, ED. set (w := Rpow x (s - 2)). clearbody w. apply m3_ext; cbn; ring.
Qed.
(** Straining in one direction in small enough steps never takes the stress
    beyond the surface, and never back. *)
Lemma p_C132_straight : forall (Pn : nat -> params R) S0 So ip (p p' : nat -> particle R) (G G' : nat -> grid R) k g s N x n,
  s_law So = VonMises -> s_k So = Some k -> s_G So = Some g -> s_s So = Some s -> 0 < k -> 0 <= g -> 2 <= s ->
  (forall j, apply_law (Pn j) S0 So ip (p j) (G j) = Ok (p' j, G' j)) -> (forall j, pdev (p (j + 1)%nat) = pdev (p' j)) ->
  frob N = sqrt 2 * k -> 0 <= x <= 1 -> pdev (p 0%nat) = times x N -> (forall j, exists c, 0 <= c /\ 2 * g * c * s <= 1 /\ deviator (pdstrain (p j)) = times c N) ->
  exists y, x <= y <= 1 /\ pdev (p n) = times y N.
Proof.
  intros Pn S0 So ip p p' G G' k g s N x n EL EK EG ES Hk Hg Hs HE HC HN Hx H0 HD. induction n as [|n (y & Hy & EY)]; [exists x; split; [lra|exact H0]|].
  destruct (HD n) as (c & Hc & Hcs & ED). replace (S n) with (n + 1)%nat by lia. rewrite HC.
  rewrite (along _ _ _ _ _ _ _ _ _ _ _ _ _ _ EL (HE n) EK EG ES Hk Hs HN (ltac:(lra) : 0 <= y) EY ED). eexists. split; [|reflexivity].
  rewrite Rabs_right by lra. set (w := if Rlt_dec 0 y then Rpower y s else 0).
  assert (W : 0 <= w <= 1 /\ 1 - w <= s * (1 - y)).
  { unfold w. destruct (Rlt_dec 0 y) as [L|L]; [|replace y with 0 by lra; lra]. pose proof (bernoulli y s L (proj2 Hy) ltac:(lra)) as B.
    assert (0 < Rpower y s) by apply exp_pos. assert (Rpower y s <= 1); [|lra]. unfold Rpower. apply Rle_trans with (exp 0); [|rewrite exp_0; lra]. assert (ln y <= 0) by (rewrite <- ln_1; destruct (Rle_lt_or_eq_dec y 1 (proj2 Hy)) as [l|l]; [left; apply ln_increasing; lra|right; f_equal; exact l]).
    destruct (Rle_lt_or_eq_dec (s * ln y) 0 ltac:(nra)) as [l|l]; [left; apply exp_increasing; exact l|right; rewrite l; reflexivity]. }
  clearbody w. destruct W as (W1 & W2). set (a := 2 * g * c) in *. assert (Ha : 0 <= a) by (unfold a; nra).
  replace (y + 2 * g * (c - c * w)) with (y + a * (1 - w)) by (unfold a; ring). split; [nra|].
  assert (a * (1 - w) <= a * (s * (1 - y))) by nra. assert (a * s * (1 - y) <= 1 * (1 - y)) by nra. nra.
Qed.

(** ** C133 *)
(** Straining back along the deviator: the plastic term has the sign of loading,
    and stiffens the point instead. *)
Lemma p_C133_back : forall P S0 So ip p G p' G' k g s N x c, s_law So = VonMises -> apply_law P S0 So ip p G = Ok (p', G') -> s_k So = Some k -> s_G So = Some g -> s_s So = Some s -> 0 < k -> 2 <= s ->
  frob N = sqrt 2 * k -> 0 < x -> pdev p = times x N -> c < 0 -> deviator (pdstrain p) = times c N ->
  pdev p' = times (x + 2 * (g * (1 + Rpower x s)) * c) N.
Proof.
  intros P S0 So ip p G p' G' k g s N x c EL E EK EG ES Hk Hs HN Hx HP Hc HD. rewrite (along _ _ _ _ _ _ _ _ _ _ _ _ _ _ EL E EK EG ES Hk Hs HN (Rlt_le _ _ Hx) HP HD). destruct (Rlt_dec 0 x) as [_|L]; [|lra]. rewrite Rabs_left by lra. f_equal. ring.
Qed.
(** So no unloading from a stressed state is elastic. *)
Lemma p_C133_elastic_refuted : forall P S0 So ip p G p' G' k g s N x c, s_law So = VonMises -> apply_law P S0 So ip p G = Ok (p', G') -> s_k So = Some k -> s_G So = Some g -> s_s So = Some s -> 0 < k -> g <> 0 -> 2 <= s ->
  frob N = sqrt 2 * k -> 0 < x -> pdev p = times x N -> c < 0 -> deviator (pdstrain p) = times c N ->
  change p p' <> times (2 * g) (deviator (pdstrain p)).
Proof.
  intros P S0 So ip p G p' G' k g s N x c EL E EK EG ES Hk Hg Hs HN Hx HP Hc HD Q.
  unfold change in Q. rewrite (p_C133_back _ _ _ _ _ _ _ _ _ _ _ _ _ _ EL E EK EG ES Hk Hs HN Hx HP Hc HD), HD, HP in Q.
  assert (0 < Rpower x s) by apply exp_pos. set (w := Rpower x s) in *. clearbody w.
  assert (Z : times (2 * (g * w) * c) N = mkM3 0 0 0 0 0 0 0 0 0).
  { injection Q as Q1 Q2 Q3 Q4 Q5 Q6 Q7 Q8 Q9. apply m3_ext; cbn in *; lra. }
  assert (ZI : inner (times (2 * (g * w) * c) N) (times (2 * (g * w) * c) N) = 0) by (rewrite Z; unfold inner; cbn; ring).
  rewrite inner_times2 in ZI. assert (NN : inner N N <> 0). { intros Z0. unfold frob in HN. rewrite Z0, sqrt_0 in HN. assert (0 < sqrt 2) by (apply sqrt_lt_R0; lra). nra. }
  apply Rmult_integral in ZI. destruct ZI as [ZI|ZI]; [|contradiction]. apply Rsqr_0_uniq in ZI. apply Rmult_integral in ZI. destruct ZI as [ZI|ZI]; [|lra]. apply Rmult_integral in ZI. destruct ZI as [ZI|ZI]; [lra|]. apply Rmult_integral in ZI. destruct ZI; lra.
Qed.

(** ** Concrete cases *)
Definition plane (a b : R) : M3 R := mkM3 a b 0 b (- a) 0 0 0 0.
Definition clay (d e : M3 R) (p : particle R) : particle R := p <| pdev := d |> <| pdstrain := e |>.
Lemma clay_located d e P p : located P p -> located P (clay d e p).
Proof. exact (fun H => H). Qed.
Lemma clay_ex d e : exists p, located ex_gridp p /\ pphi p = [1 / 2; 1 / 2] /\ pdev p = d /\ pdstrain p = e.
Proof. exists (clay d e ex_p_loc). split; [apply clay_located; exact ex_p_located|]. repeat (split; [reflexivity|]). reflexivity. Qed.
Definition ex_clay : solid R := ex_solid_sc VonMises.
Lemma clay_fields : s_law ex_clay = VonMises /\ s_k ex_clay = Some 1 /\ s_G ex_clay = Some 2 /\ s_s ex_clay = Some 2.
Proof. repeat split. Qed.
Lemma clay_runs d e : exists P p G p' G', apply_law P ex_clay ex_clay 0 p G = Ok (p', G') /\ pdev p = d /\ pdstrain p = e.
Proof.
  destruct (grid_init_ok (ex_gridp (T := R)) ex_bounds ex_proper) as (G0 & _). destruct (clay_ex d e) as (p & HL & HF & H1 & H2).
  destruct (run_law VonMises 0 ltac:(cbn; tauto) p G0 HL HF) as (p' & G' & E). eexists. exists p. eexists. exists p', G'. split; [exact E|]. split; assumption.
Qed.
Lemma dev_plane a b : deviator (plane a b) = plane a b.
Proof. apply m3_ext; cbn; unfold tr3; cbn; field. Qed.
Lemma frob_plane a b : frob (plane a b) = sqrt (2 * (a * a + b * b)).
Proof. unfold frob, inner. cbn. f_equal. ring. Qed.
Lemma plane_unit : frob (plane 1 0) = sqrt 2 * 1.
Proof. rewrite frob_plane. replace (2 * (1 * 1 + 0 * 0)) with 2 by ring. ring. Qed.
(** Stretched to yield, then sheared. *)
Example x_C132_surface_refuted : exists P p G p' G', apply_law P ex_clay ex_clay 0 p G = Ok (p', G') /\ s_law ex_clay = VonMises /\ s_k ex_clay = Some 1 /\ s_G ex_clay = Some 2 /\ frob (pdev p) = sqrt 2 * 1 /\
  0 <= inner (pdev p) (deviator (pdstrain p)) /\ (forall c, deviator (pdstrain p) <> times c (pdev p)).
Proof.
  destruct (clay_runs (plane 1 0) (plane 0 1)) as (P & p & G & p' & G' & E & H1 & H2). exists P, p, G, p', G'. rewrite H1, H2, dev_plane.
  split; [exact E|]. do 3 (split; [apply clay_fields|]). split; [apply plane_unit|]. split; [unfold inner; cbn; lra|]. intros c Q. apply (f_equal xy) in Q. cbn in Q. lra.
Qed.
Lemma clay_world : exists P So, s_law So = VonMises /\ s_k So = Some 1 /\ s_G So = Some 2 /\ s_s So = Some 2 /\
  forall (p : particle R) G, located ex_gridp p -> pphi p = [1 / 2; 1 / 2] -> exists p' G', apply_law P So So 0 p (wipe P G) = Ok (p', G').
Proof. exists (ex_params ex_bounds), ex_clay. do 4 (split; [apply clay_fields|]). exact (run_law VonMises 0 ltac:(cbn; tauto)). Qed.
Lemma clay_dev d e p : pdev (clay d e p) = d. Proof. reflexivity. Qed.
Lemma clay_strain d e p : pdstrain (clay d e p) = e. Proof. reflexivity. Qed.
Lemma clay_phi d e p : pphi (clay d e p) = pphi p. Proof. reflexivity. Qed.
(** The next deviator when strained across the last one by a hundredth. *)
Definition rate (ab : R * R) : R := 1 / 100 / sqrt (2 * (fst ab * fst ab + snd ab * snd ab)).
Definition nxt (ab : R * R) : R * R := (fst ab - 4 * (rate ab * snd ab), snd ab + 4 * (rate ab * fst ab)).
Definition spiral (j : nat) : R * R := Nat.iter j nxt (1, 0).
Definition spun (q : particle R) (ab : R * R) : particle R := clay (plane (fst ab) (snd ab)) (plane (- (rate ab * snd ab)) (rate ab * fst ab)) q.
Lemma spiral_pos j : 0 < fst (spiral j) * fst (spiral j) + snd (spiral j) * snd (spiral j).
Proof.
  induction j as [|j IH]; [cbn; lra|]. change (spiral (S j)) with (nxt (spiral j)). unfold nxt. cbn [fst snd]. generalize (rate (spiral j)). intros w. destruct (spiral j) as [a b]. cbn [fst snd] in *.
  replace ((a - 4 * (w * b)) * (a - 4 * (w * b)) + (b + 4 * (w * a)) * (b + 4 * (w * a))) with ((a * a + b * b) * (1 + 16 * (w * w))) by ring. apply Rmult_lt_0_compat; [exact IH|]. nra.
Qed.
Lemma spun_across q ab : inner (pdev (spun q ab)) (deviator (pdstrain (spun q ab))) = 0.
Proof. unfold spun. rewrite clay_dev, clay_strain, dev_plane. generalize (rate ab). intros w. unfold inner. cbn. ring. Qed.
Lemma spun_size q ab : 0 < fst ab * fst ab + snd ab * snd ab -> frob (deviator (pdstrain (spun q ab))) = 1 / 100.
Proof.
  intros POS. unfold spun. rewrite clay_strain, dev_plane, frob_plane. unfold rate. destruct ab as [x y]. cbn [fst snd] in *.
  set (n := sqrt (2 * (x * x + y * y))). assert (NP : 0 < n) by (apply sqrt_lt_R0; lra). assert (NN : n * n = 2 * (x * x + y * y)) by (apply sqrt_sqrt; lra). clearbody n.
  replace (2 * (- (1 / 100 / n * y) * - (1 / 100 / n * y) + 1 / 100 / n * x * (1 / 100 / n * x))) with (1 / 100 * (1 / 100) * (2 * (x * x + y * y)) / (n * n)) by (field; lra).
  rewrite NN. replace (1 / 100 * (1 / 100) * (2 * (x * x + y * y)) / (2 * (x * x + y * y))) with (1 / 100 * (1 / 100)) by (field; lra). apply sqrt_square. lra.
Qed.
(** From there on strained across the deviator for ever, by a hundredth in each step. *)
Example x_C132_unbounded_refuted : exists P So (p p' : nat -> particle R) (G G' : nat -> grid R),
  (forall j, apply_law P So So 0 (p j) (G j) = Ok (p' j, G' j)) /\ s_law So = VonMises /\ s_G So = Some 2 /\ s_s So = Some 2 /\
  (forall j, pdev (p (j + 1)%nat) = pdev (p' j)) /\ (forall j, inner (pdev (p j)) (deviator (pdstrain (p j))) = 0 /\ frob (deviator (pdstrain (p j))) = 1 / 100).
Proof.
  destruct (grid_init_ok (ex_gridp (T := R)) ex_bounds ex_proper) as (G0 & _). destruct clay_world as (P & So & EL & _ & EG & ES & RUN). exists P, So.
  destruct (clay_ex (plane 1 0) (plane 1 0)) as (q & HL & HF & _). generalize (fun p => RUN p G0). clear RUN. generalize (wipe P G0). intros W RUN.
  set (out := fun j => apply_law P So So 0 (spun q (spiral j)) W).
  assert (RJ : forall j, exists a G', out j = Ok (a, G')) by (intros j; apply RUN; [apply clay_located; exact HL|unfold spun; rewrite clay_phi; exact HF]).
  exists (fun j => spun q (spiral j)), (fun j => match out j with Ok (a, _) => a | Err _ => q end), (fun _ => W), (fun j => match out j with Ok (_, G') => G' | Err _ => W end).
  split; [intros j; destruct (RJ j) as (a & G' & E); rewrite E; exact E|]. do 3 (split; [assumption|]). split; [|intros j; split; [apply spun_across|apply spun_size, spiral_pos]].
  intros j. destruct (RJ j) as (a & G' & E). rewrite E. unfold out in E. replace (j + 1)%nat with (S j) by lia. change (spiral (S j)) with (nxt (spiral j)).
  unfold apply_law in E. rewrite EL in E. destruct (vm_out _ _ _ _ _ _ E) as (K & g & k & s & _ & E2 & _ & _ & ED & _). cbv zeta in ED. rewrite spun_across, Rabs_R0 in ED. rewrite ED. clear E ED RJ out.
  replace g with 2 by congruence. unfold spun. rewrite !clay_dev, clay_strain, dev_plane. unfold nxt. cbn [fst snd].
  generalize (rate (spiral j)). intros w. destruct (spiral j) as [x y]. cbn [fst snd]. apply m3_ext; cbn; unfold Rdiv; ring.
Qed.
Definition stretch (j : nat) : R := Nat.iter j (fun y => y + 2 * 2 * (1 / 8 - Rabs (1 / 8) * (if Rlt_dec 0 y then Rpower y 2 else 0))) 0.
Lemma stretch_pos j : 0 <= stretch j <= 1.
Proof.
  induction j as [|j IH]; [cbn; lra|]. change (stretch (S j)) with (stretch j + 2 * 2 * (1 / 8 - Rabs (1 / 8) * (if Rlt_dec 0 (stretch j) then Rpower (stretch j) 2 else 0))). rewrite Rabs_right by lra.
  destruct (Rlt_dec 0 (stretch j)) as [L|L]; [|lra]. assert (SQ : Rpower (stretch j) 2 = stretch j * stretch j) by (replace 2 with (INR 2) by (cbn; lra); rewrite Rpower_pow by exact L; cbn [pow]; ring). rewrite SQ. nra.
Qed.
(** Strained from rest along one direction: any number of steps of 1/8. *)
Example x_C132_straight : exists P So (p p' : nat -> particle R) (G G' : nat -> grid R) N,
  s_law So = VonMises /\ s_k So = Some 1 /\ s_G So = Some 2 /\ s_s So = Some 2 /\
  (forall j, apply_law P So So 0 (p j) (G j) = Ok (p' j, G' j)) /\ (forall j, pdev (p (j + 1)%nat) = pdev (p' j)) /\ frob N = sqrt 2 * 1 /\ pdev (p 0%nat) = times 0 N /\ 2 * 2 * (1 / 8) * 2 <= 1 /\ (forall j, deviator (pdstrain (p j)) = times (1 / 8) N).
Proof.
  destruct (grid_init_ok (ex_gridp (T := R)) ex_bounds ex_proper) as (G0 & _). destruct clay_world as (P & So & EL & EK & EG & ES & RUN). exists P, So.
  destruct (clay_ex (plane 1 0) (plane 1 0)) as (q & HL & HF & _). generalize (fun p => RUN p G0). clear RUN. generalize (wipe P G0). intros W RUN.
  set (pt := fun j => clay (times (stretch j) (plane 1 0)) (plane (1 / 8) 0) q). set (out := fun j => apply_law P So So 0 (pt j) W).
  assert (RJ : forall j, exists a G', out j = Ok (a, G')) by (intros j; apply RUN; [apply clay_located; exact HL|unfold pt; rewrite clay_phi; exact HF]).
  assert (DS : forall j, deviator (pdstrain (pt j)) = times (1 / 8) (plane 1 0)) by (intros j; unfold pt; rewrite clay_strain, dev_plane; apply m3_ext; cbn; ring).
  exists pt, (fun j => match out j with Ok (a, _) => a | Err _ => q end), (fun _ => W), (fun j => match out j with Ok (_, G') => G' | Err _ => W end), (plane 1 0).
  do 4 (split; [assumption|]). split; [intros j; destruct (RJ j) as (a & G' & E); rewrite E; exact E|]. split; [|split; [apply plane_unit|split; [reflexivity|split; [lra|exact DS]]]].
  intros j. destruct (RJ j) as (a & G' & E). rewrite E. unfold out in E. replace (j + 1)%nat with (S j) by lia.
  rewrite (along P So So 0 (pt j) W a G' 1 2 2 (plane 1 0) (stretch j) (1 / 8) EL E EK EG ES ltac:(lra) ltac:(lra) plane_unit (proj1 (stretch_pos j)) (clay_dev _ _ _) (DS j)). reflexivity.
Qed.
(** At half the yield stress, strained back. *)
Example x_C133_elastic_refuted : exists P p G p' G', apply_law P ex_clay ex_clay 0 p G = Ok (p', G') /\ s_law ex_clay = VonMises /\ s_k ex_clay = Some 1 /\ s_G ex_clay = Some 2 /\ s_s ex_clay = Some 2 /\ frob (plane 1 0) = sqrt 2 * 1 /\
  pdev p = times (1 / 2) (plane 1 0) /\ deviator (pdstrain p) = times (-1) (plane 1 0).
Proof.
  destruct (clay_runs (plane (1 / 2) 0) (plane (-1) 0)) as (P & p & G & p' & G' & E & H1 & H2). exists P, p, G, p', G'. rewrite H1, H2, dev_plane.
  split; [exact E|]. do 4 (split; [apply clay_fields|]). split; [apply plane_unit|]. split; apply m3_ext; cbn; field.
Qed.
