(** * The Runge-Kutta integration of dp, and dp under isotropic stress: C124, C125. *)
From Coq Require Import ZArith List Bool Arith Lia Reals Lra.
From Verif Require Import State NumR NumX LibR LibList Spec SpecLaws ModelGrid ModelConstit ModelParticle ModelMPList ModelMain ProofsGrid ProofsMap ProofsLaws ProofsHist ProofsX Concrete ThmLaws ThmLawsX ThmLawsD.
Import ListNotations.
Local Existing Instance Num_R.
Local Open Scope R_scope.

(** ** C124: RK4 *)
(** Linear maps of 2x2 matrices; the four entries; a path of stresses that
    solves ds/dt = g(s) on [0, 1]. *)
Definition linear2 (A : M2 R -> M2 R) : Prop :=
  (forall s t, A (m2add s t) = m2add (A s) (A t)) /\ (forall k s, A (m2scale k s) = m2scale k (A s)).
Definition entries : list (M2 R -> R) := [aa (T := R); ab (T := R); ba (T := R); bb (T := R)].
Definition solves (g : M2 R -> M2 R) (y : R -> M2 R) : Prop :=
  forall t, 0 <= t <= 1 -> forall c, In c entries -> derivable_pt_lim (fun u => c (y u)) t (c (g (y t))).

Lemma m2_eq (a b : M2 R) : aa a = aa b -> ab a = ab b -> ba a = ba b -> bb a = bb b -> a = b.
Proof. destruct a, b. cbn. congruence. Qed.
Lemma ent_eq (a b : M2 R) : (forall c, In c entries -> c a = c b) -> a = b.
Proof. intros Z. apply m2_eq; apply Z; unfold entries; cbn; auto. Qed.
Lemma ent_add c a b : In c entries -> c (m2add a b) = c a + c b.
Proof. intros [<-|[<-|[<-|[<-|[]]]]]; reflexivity. Qed.
Lemma ent_scale c k a : In c entries -> c (m2scale k a) = k * c a.
Proof. intros [<-|[<-|[<-|[<-|[]]]]]; reflexivity. Qed.
Lemma ent_divs c k a : In c entries -> c (m2divs a k) = c a / k.
Proof. intros [<-|[<-|[<-|[<-|[]]]]]; reflexivity. Qed.
Definition u1 : M2 R := mkM2 1 0 0 0.
Definition u2 : M2 R := mkM2 0 1 0 0.
Definition u3 : M2 R := mkM2 0 0 1 0.
Definition u4 : M2 R := mkM2 0 0 0 1.
Lemma split2 (s : M2 R) : s = m2add (m2add (m2add (m2scale (aa s) u1) (m2scale (ab s) u2)) (m2scale (ba s) u3)) (m2scale (bb s) u4).
Proof. apply m2_eq; cbn; ring. Qed.
Lemma lin_form A c s : linear2 A -> In c entries ->
  c (A s) = aa s * c (A u1) + ab s * c (A u2) + ba s * c (A u3) + bb s * c (A u4).
Proof.
  intros [L1 L2] Hc. rewrite (split2 s) at 1. rewrite !L1, !L2, !(ent_add c), !(ent_scale c) by exact Hc. reflexivity.
Qed.
(** The derivative of a path goes through a linear map. *)
Lemma lin_deriv A (y d : R -> M2 R) t : linear2 A ->
  (forall c, In c entries -> derivable_pt_lim (fun u => c (y u)) t (c (d t))) ->
  forall c, In c entries -> derivable_pt_lim (fun u => c (A (y u))) t (c (A (d t))).
Proof.
  intros HA Hy c Hc. rewrite (lin_form A c (d t) HA Hc).
  assert (K : forall c0 k, In c0 entries -> derivable_pt_lim (fun u => c0 (y u) * k) t (c0 (d t) * k)).
  { intros c0 k H0. replace (c0 (d t) * k) with (c0 (d t) * k + c0 (y t) * 0) by ring.
    apply (derivable_pt_lim_mult (fun u => c0 (y u)) (fun _ => k)); [apply Hy, H0|apply derivable_pt_lim_const]. }
  apply derivable_pt_lim_ext with (fun u => aa (y u) * c (A u1) + ab (y u) * c (A u2) + ba (y u) * c (A u3) + bb (y u) * c (A u4)).
  { intros u. symmetry. apply lin_form; assumption. }
  repeat (apply derivable_pt_lim_plus); apply K; unfold entries; cbn; auto.
Qed.
Lemma HALF : @nhalf R _ = 1 / 2.
Proof. unfold nhalf, lit. cbn. lra. Qed.
(** Taylor's formula of the fifth order with Lagrange's remainder. *)
Lemma taylor5 (f0 f1 f2 f3 f4 f5 : R -> R) :
  (forall t, 0 <= t <= 1 -> derivable_pt_lim f0 t (f1 t)) -> (forall t, 0 <= t <= 1 -> derivable_pt_lim f1 t (f2 t)) ->
  (forall t, 0 <= t <= 1 -> derivable_pt_lim f2 t (f3 t)) -> (forall t, 0 <= t <= 1 -> derivable_pt_lim f3 t (f4 t)) ->
  (forall t, 0 <= t <= 1 -> derivable_pt_lim f4 t (f5 t)) ->
  exists t, 0 < t < 1 /\ f0 1 - f0 0 - (f1 0 + f2 0 / 2 + f3 0 / 6 + f4 0 / 24) = f5 t / 120.
Proof.
  intros D0 D1 D2 D3 D4. set (M := f0 1 - f0 0 - (f1 0 + f2 0 / 2 + f3 0 / 6 + f4 0 / 24)).
  set (g := fun t => f0 t + f1 t * (1 - t) + f2 t * ((1 - t) ^ 2 / 2) + f3 t * ((1 - t) ^ 3 / 6) + f4 t * ((1 - t) ^ 4 / 24) + M * (1 - t) ^ 5).
  set (g' := fun t => f5 t * ((1 - t) ^ 4 / 24) - 5 * M * (1 - t) ^ 4).
  assert (P : forall n k t, derivable_pt_lim (fun u => (1 - u) ^ S n / k) t (- (INR (S n) * (1 - t) ^ n) / k)).
  { intros n k t. unfold Rdiv. apply derivable_pt_lim_ext with (fun u => / k * ((fun v => v ^ S n) (1 - u))); [intros u; ring|].
    replace (- (INR (S n) * (1 - t) ^ n) * / k) with (/ k * ((INR (S n) * (1 - t) ^ n) * (0 - 1))) by ring.
    apply (derivable_pt_lim_scal (fun u => (fun v => v ^ S n) (1 - u)) (/ k)).
    apply (derivable_pt_lim_comp (fun u => 1 - u) (fun v => v ^ S n)).
    - apply (derivable_pt_lim_minus (fun _ => 1) (fun u => u)); [apply derivable_pt_lim_const|apply derivable_pt_lim_id].
    - apply (derivable_pt_lim_pow (1 - t) (S n)). }
  assert (DG : forall t, 0 <= t <= 1 -> derivable_pt_lim g t (g' t)).
  { intros t Ht. assert (X : forall n k f f', derivable_pt_lim f t f' -> derivable_pt_lim (fun u => f u * ((1 - u) ^ S n / k)) t (f' * ((1 - t) ^ S n / k) + f t * (- (INR (S n) * (1 - t) ^ n) / k))).
    { intros n k f f' Hf. apply (derivable_pt_lim_mult f (fun u => (1 - u) ^ S n / k)); [exact Hf|apply P]. }
    pose proof (X 0%nat 1 f1 (f2 t) (D1 t Ht)) as X1. pose proof (X 1%nat 2 f2 (f3 t) (D2 t Ht)) as X2.
    pose proof (X 2%nat 6 f3 (f4 t) (D3 t Ht)) as X3. pose proof (X 3%nat 24 f4 (f5 t) (D4 t Ht)) as X4.
    pose proof (derivable_pt_lim_scal _ M _ _ (P 4%nat 1 t)) as X5.
    assert (Y := derivable_pt_lim_plus _ _ _ _ _ (derivable_pt_lim_plus _ _ _ _ _ (derivable_pt_lim_plus _ _ _ _ _ (derivable_pt_lim_plus _ _ _ _ _ (derivable_pt_lim_plus _ _ _ _ _ (D0 t Ht) X1) X2) X3) X4) X5).
    eapply derivable_pt_lim_ext in Y; [|intros u; reflexivity].
    replace (g' t) with (f1 t + (f2 t * ((1 - t) ^ 1 / 1) + f1 t * (- (INR 1 * (1 - t) ^ 0) / 1)) + (f3 t * ((1 - t) ^ 2 / 2) + f2 t * (- (INR 2 * (1 - t) ^ 1) / 2)) +
      (f4 t * ((1 - t) ^ 3 / 6) + f3 t * (- (INR 3 * (1 - t) ^ 2) / 6)) + (f5 t * ((1 - t) ^ 4 / 24) + f4 t * (- (INR 4 * (1 - t) ^ 3) / 24)) + M * (- (INR 5 * (1 - t) ^ 4) / 1)).
    - eapply derivable_pt_lim_ext; [|exact Y]. intros u. unfold g, plus_fct, mult_real_fct. field.
    - unfold g'. cbn [INR]. field. }
  destruct (MVT_cor2 g g' 0 1 Rlt_0_1 DG) as (t & E & Ht). exists t. split; [exact Ht|].
  assert (Z : g 1 - g 0 = 0). { unfold g, M. field. }
  rewrite Z in E. unfold g' in E. assert (Q : 0 < (1 - t) ^ 4) by (apply pow_lt; lra).
  assert (W : (f5 t / 24 - 5 * M) * (1 - t) ^ 4 = 0) by (rewrite E; field). apply Rmult_integral in W. destruct W as [W|W]; [|lra]. fold M. lra.
Qed.

(** For a law that is linear in the stress, RK4 follows the solution of
    ds/dt = func(dstrain, s) from the stress at hand over a unit of time up to
    a fifth derivative over 120: the scheme is of the fourth order. *)
Lemma p_C124_order : forall (A : M2 R -> M2 R) b f e s y, linear2 A -> (forall s', fst (f e s') = m2add (A s') b) ->
  y 0 = s -> solves (fun s' => fst (f e s')) y ->
  forall c, In c entries -> exists t, 0 < t < 1 /\
    c (y 1) - (c s + c (fst (RK4 f e s))) = c (A (A (A (A (fst (f e (y t))))))) / 120.
Proof.
  intros A b f e s y HA Hf Hs Hy c Hc. destruct HA as [L1 L2]. assert (HA : linear2 A) by (split; assumption).
  set (F1 := fun t => m2add (A (y t)) b).
  assert (D0 : forall t, 0 <= t <= 1 -> forall c, In c entries -> derivable_pt_lim (fun u => c (y u)) t (c (F1 t))).
  { intros t Ht c0 H0. unfold F1. rewrite <- Hf. apply Hy; assumption. }
  assert (D1 : forall t, 0 <= t <= 1 -> forall c, In c entries -> derivable_pt_lim (fun u => c (F1 u)) t (c (A (F1 t)))).
  { intros t Ht c0 H0. apply derivable_pt_lim_ext with (fun u => c0 (A (y u)) + c0 b); [intros u; unfold F1; rewrite ent_add by exact H0; reflexivity|].
    replace (c0 (A (F1 t))) with (c0 (A (F1 t)) + 0) by ring. apply (derivable_pt_lim_plus (fun u => c0 (A (y u))) (fun _ => c0 b)); [|apply derivable_pt_lim_const].
    apply (lin_deriv A y F1 t HA (D0 t Ht) c0 H0). }
  assert (DN : forall (d d' : R -> M2 R), (forall t, 0 <= t <= 1 -> forall c, In c entries -> derivable_pt_lim (fun u => c (d u)) t (c (d' t))) ->
    forall t, 0 <= t <= 1 -> forall c, In c entries -> derivable_pt_lim (fun u => c (A (d u))) t (c (A (d' t)))).
  { intros d d' Hd t Ht c0 H0. apply (lin_deriv A d d' t HA (Hd t Ht) c0 H0). }
  pose proof (DN _ _ D1) as D2. pose proof (DN _ _ D2) as D3. pose proof (DN _ _ D3) as D4.
  destruct (taylor5 (fun t => c (y t)) (fun t => c (F1 t)) (fun t => c (A (F1 t))) (fun t => c (A (A (F1 t)))) (fun t => c (A (A (A (F1 t))))) (fun t => c (A (A (A (A (F1 t))))))) as (t & Ht & E);
    [intros; apply D0|intros; apply D1|intros; apply D2|intros; apply D3|intros; apply D4|]; try assumption.
  exists t. split; [exact Ht|]. rewrite Hf. fold (F1 t). rewrite <- E. rewrite Hs.
  assert (ES : F1 0 = fst (f e s)). { unfold F1. rewrite Hs, Hf. reflexivity. }
  rewrite ES. set (d1 := fst (f e s)).
  assert (K2 : fst (f e (m2add s (m2scale nhalf d1))) = m2add d1 (m2scale (1 / 2) (A d1))).
  { rewrite Hf, L1, L2. apply ent_eq. intros c0 H0. rewrite !(ent_add c0), !(ent_scale c0) by exact H0. set (a1 := c0 (A d1)). unfold d1. rewrite Hf, ent_add by exact H0. rewrite HALF. lra. }
  assert (K3 : fst (f e (m2add s (m2scale nhalf (m2add d1 (m2scale (1 / 2) (A d1)))))) = m2add (m2add d1 (m2scale (1 / 2) (A d1))) (m2scale (1 / 4) (A (A d1)))).
  { rewrite Hf, L1, L2, L1, L2. apply ent_eq. intros c0 H0. rewrite !(ent_add c0), !(ent_scale c0), !(ent_add c0), !(ent_scale c0) by exact H0. set (a1 := c0 (A d1)). set (a2 := c0 (A (A d1))). unfold d1. rewrite Hf, ent_add by exact H0. rewrite HALF. lra. }
  assert (K4 : fst (f e (m2add s (m2add (m2add d1 (m2scale (1 / 2) (A d1))) (m2scale (1 / 4) (A (A d1)))))) =
    m2add (m2add (m2add d1 (A d1)) (m2scale (1 / 2) (A (A d1)))) (m2scale (1 / 4) (A (A (A d1))))).
  { rewrite Hf, !L1, !L2. apply ent_eq. intros c0 H0. rewrite !(ent_add c0), !(ent_scale c0) by exact H0. set (a1 := c0 (A d1)). set (a2 := c0 (A (A d1))). set (a3 := c0 (A (A (A d1)))). unfold d1. rewrite Hf, ent_add by exact H0. lra. }
  assert (ER : fst (RK4 f e s) = m2divs (m2add (m2add (m2add d1 (m2scale 2 (m2add d1 (m2scale (1 / 2) (A d1))))) (m2scale 2 (m2add (m2add d1 (m2scale (1 / 2) (A d1))) (m2scale (1 / 4) (A (A d1))))))
     (m2add (m2add (m2add d1 (A d1)) (m2scale (1 / 2) (A (A d1)))) (m2scale (1 / 4) (A (A (A d1)))))) 6).
  { unfold RK4. cbv zeta. fold d1. rewrite K2, K3. destruct (f e (m2add s (m2add (m2add d1 (m2scale (1 / 2) (A d1))) (m2scale (1 / 4) (A (A d1)))))) as [d4 pq] eqn:E4. cbn [fst] in K4 |- *. rewrite K4. reflexivity. }
  rewrite ER, (ent_divs c) by exact Hc. repeat first [rewrite (ent_add c) by exact Hc|rewrite (ent_scale c) by exact Hc]. field.
Qed.
(** A law that does not look at the stress is integrated without error. *)
Lemma p_C124_exact : forall f e s d, (forall s', fst (f e s') = d) -> fst (RK4 f e s) = d.
Proof.
  intros f e s d Hf. unfold RK4. cbv zeta. rewrite !Hf. pose proof (Hf (m2add s d)) as K4. destruct (f e (m2add s d)) as [d4 pq]. cbn [fst] in *. subst d4.
  apply ent_eq. intros c Hc. rewrite (ent_divs c) by exact Hc. repeat first [rewrite (ent_add c) by exact Hc|rewrite (ent_scale c) by exact Hc]. change (@n2 R _) with 2. change (@nofZ R _ 6) with 6. field.
Qed.
(** What the law leaves alone, and what it changes at a fixed rate, RK4 leaves
    alone and changes at that rate: any linear combination of the entries. *)
Lemma p_C124_invariant : forall f e s (l : M2 R -> R) k,
  (forall a b, l (m2add a b) = l a + l b) -> (forall q a, l (m2scale q a) = q * l a) ->
  (forall s', l (fst (f e s')) = k) -> l (fst (RK4 f e s)) = k.
Proof.
  intros f e s l k A1 A2 Hf. unfold RK4. cbv zeta. set (d1 := fst (f e s)). set (d2 := fst (f e (m2add s (m2scale nhalf d1)))). set (d3 := fst (f e (m2add s (m2scale nhalf d2)))).
  pose proof (Hf (m2add s d3)) as K4. destruct (f e (m2add s d3)) as [d4 pq]. cbn [fst] in *.
  assert (ED : forall a, m2divs a (nofZ 6) = m2scale (/ 6) a). { intros a. apply m2_eq; cbn; unfold Rdiv; ring. }
  rewrite ED, A2, !A1, !A2, K4. unfold d1, d2, d3. rewrite !Hf. change (@n2 R _) with 2. field.
Qed.
(** The Drucker-Prager law does not depend on the speed: a strain k times as
    large changes the stress at k times the rate. *)
Lemma p_C124_speed : forall K g n mu beta e s k, 0 <= k ->
  fst (dp_guts K g n mu beta (m2scale k e) s) = m2scale k (fst (dp_guts K g n mu beta e s)).
Proof.
  intros K g n mu beta e s k Hk. unfold dp_guts. cbv zeta. cbn [fst].
  set (p := (trace2 s / n2)%num). set (sij := m2sub s (m2muls eye2 p)). set (q := nsqrt (n3 * m2sum (m2mulE sij sij) / n2)%num). set (K' := if (n0 <? p)%num then K else n0).
  assert (ET : trace2 (m2scale k e) = k * trace2 e) by (cbn; ring). rewrite ET.
  assert (ED : m2sub (m2scale k e) (m2divs (m2scale (k * trace2 e) eye2) n2) = m2scale k (m2sub e (m2divs (m2scale (trace2 e) eye2) n2))).
  { apply m2_eq; cbn; unR; field. }
  rewrite ED. set (de := m2sub e _).
  assert (ES : m2sum (m2mulE sij (m2scale k de)) = k * m2sum (m2mulE sij de)) by (cbn; ring). rewrite ES.
  set (D := (n3 * g * mu * nsq p + beta * nsq q)%num). set (l := ((n3 * g * p * m2sum (m2mulE sij de) - K' * nsq q * trace2 e) / D)%num).
  assert (EL : ((n3 * g * p * (k * m2sum (m2mulE sij de)) - K' * nsq q * (k * trace2 e)) / D)%num = k * l).
  { unfold l. unR. unfold Rdiv. ring. }
  match goal with |- context [nabs (nan0 ?x)] => replace x with (k * l) by (symmetry; exact EL) end.
  assert (EG : nabs (nan0 (k * l)) = k * nabs (nan0 l)). { cbn. rewrite Rabs_mult, (Rabs_right k) by lra. reflexivity. }
  rewrite EG. set (Ga := nabs (nan0 l)). set (r := (q / (mu * p))%num). set (w1 := npow r (n - n1)%num). set (w2 := npow r n).
  apply m2_eq; cbn; unfold Rdiv; ring.
Qed.
(** The law s' = s: the solution is the exponential, RK4 gives 41/24 for e - 1. *)
Example x_C124_order : exists A b f e s y, linear2 A /\ (forall s', fst (f e s') = m2add (A s') b) /\ y 0 = s /\ solves (fun s' => fst (f e s')) y /\
  aa (y 1) = exp 1 /\ aa s = 1 /\ aa (fst (RK4 f e s)) = 41 / 24.
Proof.
  exists (fun s => s), (m2scale 0 u1), (fun _ s => (m2add s (m2scale 0 u1), (0, 0))), u1, u1, (fun t => m2scale (exp t) u1).
  split; [split; reflexivity|]. split; [reflexivity|]. split; [apply m2_eq; cbn; rewrite exp_0; ring|].
  split; [|split; [cbn; ring|split; [reflexivity|unfold RK4; cbn; unR; change (nofZ 6) with 6; field_simplify; lra]]].
  intros t _ c Hc. cbn [fst]. apply derivable_pt_lim_ext with (fun u => exp u * c u1); [intros u; rewrite ent_scale by exact Hc; reflexivity|].
  replace (c (m2add (m2scale (exp t) u1) (m2scale 0 u1))) with (exp t * c u1 + exp t * 0) by (rewrite ent_add, !ent_scale by exact Hc; ring).
  apply (derivable_pt_lim_mult exp (fun _ => c u1)); [apply derivable_pt_lim_exp|apply derivable_pt_lim_const].
Qed.
Example x_C124_exact : exists f e s d, (forall s', fst (f e s') = d) /\ fst (RK4 f e s) = d /\ aa d = 3.
Proof.
  exists (fun e _ => (m2scale 3 e, (0, 0))), u1, u2, (m2scale 3 u1). split; [reflexivity|]. split; [apply p_C124_exact; reflexivity|cbn; ring].
Qed.
(** A law that only shears keeps the pressure. *)
Example x_C124_invariant : exists f e s, (forall s', trace2 (fst (f e s')) = 0) /\ trace2 (fst (RK4 f e s)) = 0 /\ ab s = 1 /\ fst (f e s) = u2.
Proof.
  exists (fun e s => (m2scale (ab s) e, (0, 0))), u2, u2.
  assert (Z : forall s' : M2 R, trace2 (m2scale (ab s') u2) = 0) by (intros; cbn; ring). split; [exact Z|].
  split; [|split; [reflexivity|cbn; apply m2_eq; cbn; ring]].
  apply (p_C124_invariant (fun e s => (m2scale (ab s) e, (0, 0))) u2 u2 (trace2 (T := R)) 0); [intros; cbn; ring|intros; cbn; ring|exact Z].
Qed.

(** ** C125: dp under isotropic stress *)
Definition zero3 : M3 R := mkM3 0 0 0 0 0 0 0 0 0.
Lemma guts_iso K g n mu beta (d : M2 (X R)) p :
  fst (dp_guts K g n mu beta d (mkM2 (Fin p) (Fin 0) (Fin 0) (Fin p))) = mkM2 (Fin 0) (Fin 0) (Fin 0) (Fin 0).
Proof.
  unfold dp_guts. cbv zeta. cbn [fst].
  assert (EP : (trace2 (mkM2 (Fin p) (Fin 0) (Fin 0) (Fin p)) / n2)%num = Fin p).
  { change (@n2 (X R) _) with (Fin 2). change (trace2 (mkM2 (Fin p) (Fin 0) (Fin 0) (Fin p))) with (Fin (p + p)). rewrite xdivF by lra. f_equal. field. }
  rewrite EP.
  assert (ES : m2sub (mkM2 (Fin p) (Fin 0) (Fin 0) (Fin p)) (m2muls eye2 (Fin p)) = mkM2 (Fin 0) (Fin 0) (Fin 0) (Fin 0)).
  { unfold m2sub, m2muls, m2map2, m2map, eye2. cbn. f_equal; f_equal; ring. }
  rewrite ES.
  assert (EQ : nsqrt (n3 * m2sum (m2mulE (mkM2 (Fin 0) (Fin 0) (Fin 0) (Fin 0)) (mkM2 (Fin 0) (Fin 0) (Fin 0) (Fin 0))) / n2)%num = Fin 0).
  { change (@n2 (X R) _) with (Fin 2). change (@n3 (X R) _) with (Fin 3). unfold m2sum, m2mulE, m2map2. cbn [aa ab ba bb]. rewrite !xmulF, !xaddF, xmulF, xdivF by lra.
    replace (3 * (0 * 0 + 0 * 0 + (0 * 0 + 0 * 0)) / 2) with 0 by field. rewrite xsqrtF by lra. rewrite sqrt_0. reflexivity. }
  rewrite EQ.
  assert (N : m2divs (m2scale (n3 / n2)%num (mkM2 (Fin 0) (Fin 0) (Fin 0) (Fin 0))) (Fin 0) = mkM2 NaN NaN NaN NaN).
  { change (@n2 (X R) _) with (Fin 2). change (@n3 (X R) _) with (Fin 3). unfold m2divs, m2scale, m2map. cbn [aa ab ba bb]. rewrite xdivF by lra. rewrite !xmulF, !Rmult_0_r, !xdiv0, !xinf_zero. reflexivity. }
  rewrite N.
  assert (A : forall x : X R, (NaN * x)%num = NaN) by reflexivity. assert (B : forall x : X R, (x - NaN)%num = NaN) by (intros []; reflexivity).
  assert (C : forall x : X R, (x * NaN)%num = NaN) by (intros []; reflexivity). assert (D : forall x : X R, (NaN + x)%num = NaN) by (intros []; reflexivity).
  unfold m2add, m2sub, m2scale, m2muls, m2map2, m2map. cbn [aa ab ba bb]. rewrite !A, !B, !C, !D. reflexivity.
Qed.
(** Whatever the strain: where the stress in the plane is isotropic, the
    increment of the stress in the plane is zero, since the direction of the
    shear stress is 0/0 and nan_to_num turns the whole increment into zero. *)
Lemma p_C125_responds_refuted : forall P So MP G MP' G' (s : M3 R), pstress MP = F3 s -> xx s = yy s -> xy s = 0 -> yx s = 0 ->
  dp P So MP G = Ok (MP', G') -> block2 (pdstress MP') = F2 (mkM2 0 0 0 0).
Proof.
  intros P So MP G MP' G' s Es EX EY EZ E. unfold dp in E. pbinds E.
  assert (EB : m2map nopp (block2 (pstress MP)) = mkM2 (Fin (- xx s)) (Fin 0) (Fin 0) (Fin (- xx s))).
  { rewrite Es. unfold m2map, block2, F3. cbn. rewrite EY, EZ, <- EX, Ropp_0. reflexivity. }
  rewrite EB in E. set (f := dp_guts _ _ _ _ _) in E.
  assert (H2 : forall d, fst (f d (mkM2 (Fin (- xx s)) (Fin 0) (Fin 0) (Fin (- xx s)))) = mkM2 (Fin 0) (Fin 0) (Fin 0) (Fin 0)) by (intros d; apply guts_iso).
  assert (HS : forall k, m2add (mkM2 (Fin (- xx s)) (Fin 0) (Fin 0) (Fin (- xx s))) (m2scale (Fin k) (mkM2 (Fin 0) (Fin 0) (Fin 0) (Fin 0))) = mkM2 (Fin (- xx s)) (Fin 0) (Fin 0) (Fin (- xx s))).
  { intros k. unfold m2add, m2scale, m2map2, m2map. cbn. f_equal; f_equal; ring. }
  assert (H1 : m2add (mkM2 (Fin (- xx s)) (Fin 0) (Fin 0) (Fin (- xx s))) (mkM2 (Fin 0) (Fin 0) (Fin 0) (Fin 0)) = mkM2 (Fin (- xx s)) (Fin 0) (Fin 0) (Fin (- xx s))).
  { unfold m2add, m2map2. cbn. f_equal; f_equal; ring. }
  assert (HH : @nhalf (X R) _ = Fin (1 / 2)). { unfold nhalf, lit. cbn [nofZ Num_X]. rewrite xdivF by (cbn; lra). reflexivity. }
  match type of E with (let '(_, _) := RK4 f ?d ?b in _) = _ => assert (ER : fst (RK4 f d b) = mkM2 (Fin 0) (Fin 0) (Fin 0) (Fin 0)); [|destruct (RK4 f d b) as [dS [p q]]] end.
  { unfold RK4. cbv zeta. rewrite HH, !H2, HS, H2, HS, H2, H1.
    match goal with |- context [f ?d ?b] => pose proof (H2 d) as H4; destruct (f d b) as [d4 pq] end. cbn [fst] in H4 |- *. subst d4.
    change (@n2 (X R) _) with (Fin 2). change (@nofZ (X R) _ 6) with (Fin 6).
    unfold m2divs, m2add, m2scale, m2map2, m2map. cbn [aa ab ba bb]. rewrite !xmulF, !xaddF, !xdivF by lra. f_equal; f_equal; field. }
  cbn [fst] in ER. subst dS. pbinds E. injection E as <- <-. transitivity (block2 (set_block2 (pdstress MP) (m2map nopp (mkM2 (Fin 0) (Fin 0) (Fin 0) (Fin 0))))); [reflexivity|].
  unfold block2, set_block2, m2map, F2. cbn. f_equal; f_equal; ring.
Qed.
(** So a point without stress -- as every script that does not start from its
    own weight makes them -- carries none for ever, however it is deformed: a
    heap of it offers no resistance. *)
Lemma p_C125_stress_free_refuted : forall P S0 So ip MP G MP' G' l dt, s_law So = Dp -> p_dt P = Fin dt -> pL MP = F3 l ->
  pstress MP = F3 zero3 -> pdstress MP = F3 zero3 -> update_stress P S0 So ip MP G = Ok (MP', G') ->
  pstress MP' = F3 zero3 /\ pdstress MP' = F3 zero3.
Proof.
  intros P S0 So ip MP G MP' G' l dt HL Hdt Hl Hs Hd E. unfold update_stress, apply_law in E. rewrite HL in E.
  match type of E with bind ?x _ = _ => destruct x as [[q Gq]|] eqn:ED end; [|discriminate]. cbn [bind] in E. injection E as <- <-.
  assert (D0 : block2 (pdstress q) = F2 (mkM2 0 0 0 0)) by (eapply p_C125_responds_refuted; [exact Hs|reflexivity..|exact ED]).
  assert (FR : pL q = pL MP /\ pstress q = pstress MP /\ exists b, pdstress q = set_block2 (pdstress MP) b).
  { unfold dp in ED. pbinds ED. destruct (RK4 _ _ _) as [dS [p1 q1]]. pbinds ED. injection ED as <- <-. repeat split. eexists. reflexivity. }
  destruct FR as (FL & FS & b & FD). assert (DZ : pdstress q = F3 zero3).
  { rewrite FD in D0 |- *. rewrite Hd in *. unfold block2, set_block2, F2, F3, zero3 in *. cbn in D0 |- *. injection D0 as -> -> -> ->. reflexivity. }
  split; [|exact DZ]. cbn [pstress set]. rewrite DZ, FL, FS, Hs, Hl, Hdt. 
  transitivity (F3 (madd zero3 (msub zero3 (mmuls (madd (mm l zero3) (mm zero3 l)) dt)))); [reflexivity|]. f_equal.
  apply ThmLaws.m3_ext; cbn; ring.
Qed.
(** A point whose friction was set by hand, strained at will, takes no stress. *)
Example x_C125_stress_free_refuted : forall e l, let MP := xp 0 e zero3 <| pmu := Some (Fin (1 / 2)) |> <| pL := F3 l |> in
  s_law (ex_solid (T := X R) Dp) = Dp /\ pL MP = F3 l /\ pstress MP = F3 zero3 /\ pdstress MP = F3 zero3 /\ pdstrain MP = F3 e /\
  exists MP' G', update_stress xP (ex_solid Dp) (ex_solid Dp) 0 MP xG = Ok (MP', G') /\ pstress MP' = F3 zero3.
Proof.
  intros e l MP. repeat (split; [reflexivity|]).
  assert (X : exists r, update_stress xP (ex_solid Dp) (ex_solid Dp) 0 MP xG = Ok r).
  { unfold update_stress, apply_law. change (s_law (ex_solid Dp)) with Dp. cbv iota. unfold dp.
    assert (EM : exists m, mean_size xP MP = Ok m) by (eexists; unfold mean_size; cbn; reflexivity). destruct EM as [m ->].
    change (pmu MP) with (Some (Fin (1 / 2))). cbn [bind ex_solid s_rho_s s_mu_0 s_delta_mu s_I_0 s_K s_G s_s attr].
    destruct (RK4 _ _ _) as [dS [p q]].
    match goal with |- context [visualise ?P ?M ?f ?G] => destruct (visualise_total 12 P M f G xG_lens) as [G' EV]; [apply (xp_nodes 0 e zero3)|rewrite EV] end.
    cbn [bind]. eexists. reflexivity. }
  destruct X as [[MP' G'] E]. exists MP', G'. split; [exact E|].
  refine (proj1 (p_C125_stress_free_refuted xP (ex_solid Dp) (ex_solid Dp) 0 MP xG MP' G' l (1 / 10) eq_refl eq_refl eq_refl eq_refl eq_refl E)).
Qed.
