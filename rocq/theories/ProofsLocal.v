(** * A step of the model against the scheme of SpecLocal.v. *)
From Coq Require Import ZArith Reals List Bool Arith Lra Lia.
From Verif Require Import State NumR Spec SpecLaws SpecStep SpecScheme SpecLocal LibList LibR ModelGrid ModelConstit ModelParticle ModelMPList
  ModelIntegr ModelMain ProofsGrid ProofsMap ProofsP2G ProofsWalls ProofsLaws ProofsInOut ProofsHist Concrete
  ThmMapping ThmWalls ThmLaws ThmInOut ThmHist ProofsStep ProofsPoints ThmStep ThmBalance ThmEnergy ThmFall ThmGeo ProofsScheme ThmScheme.
Import ListNotations.
Local Open Scope R_scope.

(** ** The laws *)
Lemma devi_a (d : M3 R) : msub d (mdivs (mscale (trace d) eye) n3) = devi d.
Proof. apply m3_ext. intros a b. unfold devi. rewrite el_m3. destruct a, b; cbn; unfold tr3, trace; unR; field. Qed.
Lemma devi_b (d : M3 R) : msub d (mscale (trace d / n3)%num eye) = devi d.
Proof. apply m3_ext. intros a b. unfold devi. rewrite el_m3. destruct a, b; cbn; unfold tr3, trace; unR; field. Qed.
Lemma ssq_sum (d : M3 R) : msum (mmap nsq d) = ssq d.
Proof. unfold ssq, over, nsq, Rsqr. cbn. unR. ring. Qed.
Lemma ssq_pos d : 0 <= ssq d.
Proof. unfold ssq, over. repeat apply Rplus_le_le_0_compat; apply Rle_0_sqr. Qed.
Lemma ssq_rate dt (d : M3 R) : msum (mmap nsq (mdivs (mscale n2 d) dt)) = (2 / dt)² * ssq d.
Proof. rewrite ssq_sum. unfold ssq, over, Rsqr. cbn. unR. unfold Rdiv. ring. Qed.
Lemma sqrt_rate dt c d : 0 < dt -> sqrt ((c / dt)² * ssq d) = Rabs c * sqrt (ssq d) / dt.
Proof.
  intros H. rewrite sqrt_mult; [|apply Rle_0_sqr|apply ssq_pos]. rewrite sqrt_Rsqr_abs. unfold Rdiv at 1. rewrite Rabs_mult.
  rewrite (Rabs_right (/ dt)); [unfold Rdiv; ring|]. apply Rle_ge, Rlt_le, Rinv_0_lt_compat, H.
Qed.
Lemma dots_sum (s d : M3 R) : msum (mmulE s d) = dots s d.
Proof. unfold dots, over. cbn. unR. ring. Qed.
Lemma fsum_foldM (get : nat -> res R) phi (xs : list R) : (forall i x, get i = Ok x -> x = nth i xs 0) ->
  forall m k s w, foldM (fun s i => a <- nth_res phi i ;; b <- get i ;; Ok (s + a * b)%num) s (seq k m) = Ok w ->
  w = s + fsum m (fun i => nth (k + i) phi 0 * nth (k + i) xs 0).
Proof.
  intros Hg. induction m as [|m IH]; intros k s w E.
  - cbn in E. injection E as <-. unfold fsum. cbn. lra.
  - cbn [seq foldM] in E. apply bind_ok in E. destruct E as (s1 & E1 & E). apply bind_ok in E1. destruct E1 as (x & E1 & E2).
    apply bind_ok in E2. destruct E2 as (y & E2 & E3). injection E3 as <-. apply (nth_res_ok _ _ _ 0) in E1 as [_ E1]. apply Hg in E2.
    apply IH in E. rewrite E, fsum_S, Nat.add_0_r, E1, <- E2. unR. rewrite Rplus_assoc. f_equal. f_equal.
    apply fsum_ext. intros i _. replace (Datatypes.S k + i)%nat with (k + Datatypes.S i)%nat by lia. reflexivity.
Qed.

Lemma weighted_blend (p : particle R) n get xs w : (forall i x, get i = Ok x -> x = nth i xs 0) -> weighted p n get = Ok w ->
  w = blend n (pphi p) xs.
Proof. intros Hg E. unfold weighted in E. apply (fsum_foldM get _ xs Hg) in E. rewrite E. unfold blend. unR. rewrite Rplus_0_l. reflexivity. Qed.
Lemma many_index (o : option (scarr R)) i x : (a <- attr o ;; sc_index a i) = Ok x -> x = nth i (many o) 0.
Proof.
  destruct o as [[a|l]|]; cbn; try discriminate. intros E. apply (nth_res_ok _ _ _ 0) in E as [_ E]. symmetry. exact E.
Qed.
Lemma gs_index (l : list R) i x : nth_res l i = Ok x -> x = nth i l 0.
Proof. intros E. apply (nth_res_ok _ _ _ 0) in E as [_ E]. symmetry. exact E. Qed.
Lemma one_ok (o : option (scarr R)) x : (a <- attr o ;; sc_scalar a) = Ok x -> one o = x.
Proof. destruct o as [[a|l]|]; cbn; try discriminate. intros E. injection E as <-. reflexivity. Qed.

(** The stuff of a point apart from what it remembers is fixed. *)
Definition lawful (So : solid R) (p : particle R) : Prop :=
  match s_law So with
  | Elastic | ElasticTime | VonMises | Viscous | KenKamrin | Pouliquen => True
  | Rigid | Bingham => pdstress p = m0
  | _ => False
  end.

Lemma el_madd (a b : M3 R) x y : el x y (madd a b) = el x y a + el x y b.
Proof. destruct x, y; reflexivity. Qed.
Lemma el_msub (a b : M3 R) x y : el x y (msub a b) = el x y a - el x y b.
Proof. destruct x, y; reflexivity. Qed.
Lemma el_mscale c (b : M3 R) x y : el x y (mscale c b) = c * el x y b.
Proof. destruct x, y; reflexivity. Qed.
Lemma el_mdivs c (b : M3 R) x y : el x y (mdivs b c) = el x y b / c.
Proof. destruct x, y; reflexivity. Qed.
Lemma el_eye x y : el x y (@eye R _) = delta x y.
Proof. destruct x, y; reflexivity. Qed.
Lemma el_m0 x y : el x y (@m0 R _) = 0.
Proof. destruct x, y; reflexivity. Qed.
Lemma tr_trace (d : M3 R) : trace d = tr3 d.
Proof. reflexivity. Qed.

Section Law.
  Context (P : params R) (S0 So : solid R) (ip : nat) (p p' : particle R) (G G' : grid R) (E : ambient) (v b : V3 R).
  Context (ED : a_dt E = p_dt P) (ET : a_t E = p_t P) (EG : a_P E = pG P) (EM : a_top E = p_max_g P) (Hdt : 0 < p_dt P).
  Context (HL : lawful So p) (X : apply_law P S0 So ip p G = Ok (p', G')).
  Let q := mkPoint (stuff_of P So p) (pm p) (pV p) (px p) v (pstress p) b (Nat.eqb ip 0).
  Let d := pdstrain p.
  Definition law_result : Prop :=
    pL p' = pL p /\ pstress p' = z_base E q d /\ madd (pstress p') (pdstress p') = z_material E q d /\
    pm p' = z_shed E q /\ stuff_of P So p' = z_memory (stuff_of P So p) d /\ lawful So p'.

  Ltac start L := pose proof X as Y; pose proof HL as W; unfold law_result, z_base, z_shed, lawful in *; cbn [q z_stuff z_s z_m z_V z_first]; unfold z_material; cbn [q z_stuff z_s];
    unfold stuff_of in *; unfold apply_law in Y; rewrite L in W, Y |- *; cbv beta iota in W |- *.
  Ltac finish := repeat match goal with |- _ /\ _ => split end; try reflexivity; try exact I.
  Ltac got := let Z := fresh in match goal with Y : Ok (?a, _) = Ok (p', _) |- _ => assert (Z : a = p') by (injection Y; auto); rewrite <- Z; clear Z Y end.
  Ltac attrs := try match goal with H : visualise _ _ _ _ = Ok _ |- _ => clear H end; repeat match goal with H : attr _ = Ok _ |- _ => apply attr_ok in H end.

  Lemma law_rigid : s_law So = Rigid -> law_result.
  Proof.
    intros L. start L. unfold rigid in Y. got. finish; [|exact W].
    rewrite W. apply m3_ext. intros x y. rewrite el_madd, el_m0. lra.
  Qed.
  Lemma law_elastic : s_law So = Elastic -> law_result.
  Proof.
    intros L. start L. unfold elastic in Y. pbinds Y. got. attrs. rewrite E0, E1.
    cbn [pL pstress pdstress pm set orz] in *. finish.
    rewrite devi_a. apply m3_ext. intros x y. unfold hooke. rewrite el_m3, !el_madd, !el_mscale, el_eye. fold d. unR. unfold tr3, trace. cbn. unR. ring.
  Qed.
  Lemma law_time : s_law So = ElasticTime -> law_result.
  Proof.
    intros L. start L. unfold elastic_time in Y. pbinds Y. got. attrs.
    rewrite E1, E2.
    cbn [pL pstress pdstress pm set orz] in *. finish.
    - rewrite devi_a. apply m3_ext. intros x y. unfold hooke. rewrite el_m3, !el_madd, !el_mscale, el_eye. fold d. unR. unfold tr3, trace. cbn. unR. ring.
    - rewrite ET. destruct (Nat.eqb ip 0); [|injection E0 as <-; reflexivity].
      apply bind_ok in E0. destruct E0 as (t0 & T0 & E0). apply attr_ok in T0. rewrite T0. cbn [orz].
      change (t0 <? p_t P)%num with (Rltb t0 (p_t P)) in E0. rewrite Rltb_dec in E0. destruct (Rlt_dec t0 (p_t P)); [|injection E0 as <-; reflexivity].
      apply bind_ok in E0. destruct E0 as (rf & R0 & E0). apply attr_ok in R0. rewrite R0. cbn [orz]. injection E0 as <-.
      rewrite <- Rltb_dec. reflexivity.
  Qed.
  Lemma law_mises : s_law So = VonMises -> law_result.
  Proof.
    intros L. start L. unfold von_mises in Y. pbinds Y. got. attrs.
    rewrite E0, E1, E2, E3.
    cbn [pL pstress pdstress pm pdev psigma_kk set orz] in *. rewrite !devi_a in *.
    assert (DV : madd (pdev p) (mscale (n2 * a0)%num (msub (devi (pdstrain p)) (mscale (nabs (msum (mmulE (pdev p) (devi (pdstrain p)))) / (n2 * nsq a1) *
               npow (nsqrt (msum (mmap nsq (pdev p))) / (nsqrt n2 * a1)) (a2 - n2))%num (pdev p)))) = mises_s a0 a1 a2 (pdev p) d).
    { apply m3_ext. intros x y. unfold mises_s. rewrite el_m3, el_madd, el_mscale, el_msub, el_mscale, ssq_sum, dots_sum. reflexivity. }
    rewrite DV. finish.
    apply m3_ext. intros x y. rewrite el_m3. rewrite el_madd, el_msub, el_madd, el_mdivs, el_mscale, el_eye. fold d. rewrite tr_trace. unR. unfold n2, n3. unR. field.
  Qed.
  Lemma law_newton : s_law So = Viscous -> law_result.
  Proof.
    intros L. start L. unfold viscous in Y. pbinds Y. got. attrs. rewrite E0, E1, E2.
    cbn [pL pstress pdstress pm ppressure set orz] in *. rewrite devi_b. finish.
    apply m3_ext. intros x y. unfold fluid. rewrite el_m3, ED. rewrite el_madd, !el_msub, el_madd, !el_mdivs, !el_mscale, el_eye. fold d. rewrite tr_trace. unR. unfold n2, n3. unR. field. lra.
  Qed.
  Lemma law_bingham : s_law So = Bingham -> law_result.
  Proof.
    intros L. start L. unfold bingham in Y. pbinds Y. got. attrs. rewrite devi_b in *. rewrite E0, E1, E3.
    cbn [pL pstress pdstress pm ppressure set orz]. rewrite W.
    assert (ZZ : forall m : M3 R, madd m m0 = m) by (intros m; apply m3_ext; intros x y; rewrite el_madd, el_m0; lra).
    rewrite ZZ.
    assert (V : mdivs (mscale (eta_plastic E a0 (one (s_mu_0 So)) (orz (s_mu_s So)) (orz (s_tau_0 So)) d) (devi d)) (p_dt P) = a1).
    { unfold eta_plastic. rewrite ED. rewrite ssq_sum in E2. fold d in E2.
      change ((nsqrt (ssq (devi d)) / p_dt P <=? a0)%num) with (Rleb (sqrt (ssq (devi d)) / p_dt P) a0) in E2.
      destruct (Rle_dec (sqrt (ssq (devi d)) / p_dt P) a0) as [H|H].
      - apply Rleb_true in H. rewrite H in E2.
        apply bind_ok in E2. destruct E2 as (m1 & M1 & E2). apply bind_ok in E2. destruct E2 as (m2 & M2 & E2).
        rewrite (one_ok (s_mu_0 So) m2) by (rewrite M1; exact M2). injection E2 as <-. reflexivity.
      - destruct (Rleb _ _) eqn:C; [apply Rleb_true in C; contradiction|].
        apply bind_ok in E2. destruct E2 as (m1 & M1 & E2). apply bind_ok in E2. destruct E2 as (m2 & M2 & E2). apply attr_ok in M1. apply attr_ok in M2.
        rewrite M1, M2. injection E2 as <-. reflexivity. }
    assert (K : msub (madd (mscale (ppressure p + a * (trace (pdstrain p) / n3))%num eye) a1) (mdivs (mscale (a2 * (trace (pdstrain p) / n3))%num eye) (p_dt P))
      = fluid E (ppressure p + a * (tr3 d / 3)) (eta_plastic E a0 (one (s_mu_0 So)) (orz (s_mu_s So)) (orz (s_tau_0 So)) d) a2 d).
    { rewrite <- V. apply m3_ext. intros x y. unfold fluid. rewrite el_m3, ED, el_msub, el_madd, !el_mdivs, !el_mscale, el_eye. fold d. rewrite tr_trace.
      unR. unfold n2, n3. unR. field. lra. }
    rewrite K. finish.
  Qed.
  Lemma law_glass : s_law So = KenKamrin -> law_result.
  Proof.
    intros L. start L. unfold ken_kamrin in Y. pbinds Y. got. attrs. rewrite devi_b in *. rewrite E0, E1, E2, E5.
    match goal with H : sc_scalar ?u = Ok ?w |- _ => assert (I0 : one (s_I_0 So) = w) by (apply one_ok; rewrite E3; exact H) end. rewrite I0.
    cbn [pL pstress pdstress pm ppressure prho set orz]. finish.
    assert (SH : nmax (nsqrt (nhalf * msum (mmap nsq (mdivs (mscale n2 (devi (pdstrain p))) (p_dt P))))%num) (lit 1 100000) =
      Rmax (sqrt (2 * ssq (devi d)) / a_dt E) (1 / 100000)).
    { rewrite ssq_rate, ED. fold d. change nmax with Rmax. f_equal. change nsqrt with sqrt. unfold nhalf, lit. unR.
      replace (1 / 2 * ((2 / p_dt P)² * ssq (devi d))) with ((sqrt 2 / p_dt P)² * ssq (devi d)).
      - rewrite sqrt_rate by exact Hdt. rewrite sqrt_mult by (try lra; apply ssq_pos). rewrite Rabs_right by (apply Rle_ge, sqrt_pos). reflexivity.
      - rewrite Rsqr_div', Rsqr_sqrt by lra. unfold Rsqr. field. lra. }
    rewrite SH. apply m3_ext. intros x y. unfold fluid, eta_glass. rewrite el_m3, EG, EM, ED. cbv zeta.
    rewrite el_madd, !el_msub, el_madd, !el_mdivs, !el_mscale, el_mdivs, el_mscale, el_eye. fold d. rewrite tr_trace. unfold n3, n2. unR.
    set (sh := Rmax (sqrt _ / _) _). set (p1 := ppressure p + a * (tr3 d / 3)).
    replace (250 * prho p * p_max_g P * (y_M (pG P) - y_m (pG P)) ^ 3) with (250 * prho p * p_max_g P * ((y_M (pG P) - y_m (pG P)) * (y_M (pG P) - y_m (pG P)) * (y_M (pG P) - y_m (pG P)))) by ring.
    replace (sqrt 2 * 1 * sh) with (sqrt 2 * sh) by ring.
    set (e := Rmin _ _). field. lra.
  Qed.
  Lemma law_grains : s_law So = Pouliquen -> law_result.
  Proof.
    intros L. start L. unfold pouliquen in Y.
    apply bind_ok in Y. destruct Y as (sb & B1 & Y). apply (weighted_blend p _ _ _ _ (gs_index (gs (pG P)))) in B1.
    apply bind_ok in Y. destruct Y as (m0' & B2 & Y). apply (weighted_blend p _ _ _ _ (many_index (s_mu_0 So))) in B2.
    apply bind_ok in Y. destruct Y as (dm & B3 & Y). apply (weighted_blend p _ _ _ _ (many_index (s_delta_mu So))) in B3.
    apply bind_ok in Y. destruct Y as (i0 & B4 & Y). apply (weighted_blend p _ _ _ _ (many_index (s_I_0 So))) in B4.
    cbv zeta in Y. 
    apply bind_ok in Y. destruct Y as (rs & E0 & Y). apply bind_ok in Y. destruct Y as (em & E1 & Y). apply bind_ok in Y. destruct Y as (K & E2 & Y).
    destruct (negb _); [discriminate|]. pbinds Y. got. attrs. rewrite devi_b in *. rewrite E0, E1, E2.
    cbn [pL pstress pdstress pm ppressure prho pphi set orz]. rewrite <- B1, <- B2, <- B3, <- B4.
    assert (PR : (if ((n0 <? ppressure p + K * (trace (pdstrain p) / n3)) || (prho p <? s_rho So * lit 8 10))%num%bool then n0
      else (ppressure p + K * (trace (pdstrain p) / n3))%num) = grains_p K (s_rho So * (8 / 10)) (ppressure p) (prho p) d).
    { unfold grains_p. fold d. rewrite tr_trace. cbv zeta.
      change (n0 <? ppressure p + K * (tr3 d / n3))%num with (Rltb 0 (ppressure p + K * (tr3 d / 3))).
      change (prho p <? s_rho So * lit 8 10)%num with (Rltb (prho p) (s_rho So * (8 / 10))).
      rewrite <- !Rltb_dec. destruct (Rltb 0 _), (Rltb (prho p) _); reflexivity. }
    rewrite PR. finish.
    rewrite ssq_rate. change nsqrt with sqrt. rewrite sqrt_rate by exact Hdt. rewrite (Rabs_right 2) by lra.
    apply m3_ext. intros x y. unfold fluid, eta_grains. rewrite el_m3. rewrite el_madd, !el_msub, el_madd, !el_mdivs, !el_mscale, el_eye. fold d. cbv zeta. rewrite ED.
    unfold n2. unR. change nmin with Rmin. change nabs with Rabs. unfold nan0. 
    set (e := Rmin _ _). field. lra.
  Qed.

  Lemma law_local : law_result.
  Proof.
    pose proof HL as W. unfold lawful in W. destruct (s_law So) eqn:L; try contradiction;
    [apply law_rigid|apply law_elastic|apply law_time|apply law_mises|apply law_newton|apply law_bingham|apply law_glass|apply law_grains]; exact L.
  Qed.
End Law.

(** ** A point under strain *)
Lemma stress_local P S0 k ph (p p' : particle R) G G' E : proper (pG P) -> located (pG P) p ->
  length (gm G) = nodes (pG P) -> length (gq G) = nodes (pG P) -> 0 < p_dt P ->
  a_dt E = p_dt P -> a_t E = p_t P -> a_P E = pG P -> a_top E = p_max_g P ->
  lawful (ph_sol ph) p -> stress_one P S0 k ph p G = Ok (p', G') ->
  let d := m3 (fun a b => p_dt P * fsum (nodes (pG P)) (fun j =>
     (node_v P G a j * ghat (pG P) (px p) b j + node_v P G b j * ghat (pG P) (px p) a j) / 2)) in
  let q := point_of P k ph p in
  pstress p' = z_stress E q d /\ pm p' = z_shed E q /\ stuff_of P (ph_sol ph) p' = z_memory (stuff_of P (ph_sol ph) p) d /\
  lawful (ph_sol ph) p'.
Proof.
  intros HP HL Lm Lq Hdt ED ET EG EM HW X d q. unfold stress_one in X. pbinds X. rename E0 into E1.
  destruct (strain_scheme P G p a HP HL Lm Lq E1) as (F & D & LL).
  assert (DD : pdstrain a = d) by (apply m3_ext; intros; rewrite D; unfold d; rewrite el_m3; reflexivity).
  unfold update_stress in X. pbinds X. injection X as <- _.
  assert (SA : stuff_of P (ph_sol ph) a = stuff_of P (ph_sol ph) p) by (rewrite F; reflexivity).
  match goal with H : apply_law _ _ _ _ _ _ = Ok (?b, _) |- _ =>
    destruct (law_local P S0 (ph_sol ph) k a b G _ E (velocity ph p) (pb p) ED ET EG EM Hdt ltac:(rewrite F; exact HW) H) as (A1 & A2 & A3 & A4 & A5 & A6);
    rename b into b end.
  assert (QQ : mkPoint (stuff_of P (ph_sol ph) a) (pm a) (pV a) (px a) (velocity ph p) (pstress a) (pb p) (Nat.eqb k 0) = q).
  { rewrite SA. unfold q, point_of. rewrite F. reflexivity. }
  rewrite QQ in A2, A3, A4. rewrite DD in *. rewrite SA in A5. cbn [pstress pm set].
  split; [|split; [exact A4|split]].
  - apply m3_ext. intros x y. unfold z_stress. rewrite el_m3, <- A3, <- A2. rewrite A1.
    rewrite <- (rate_scheme (pL a) (pstress b) d (p_dt P) LL). destruct x, y; cbn; unR; ring.
  - exact A5.
  - exact A6.
Qed.

(** ** Lists of points *)
Lemma psum_cloud (Pm : params R) (c0 : phase R -> particle R -> R) (c : point -> R) L : (forall k ph p, c0 ph p = c (point_of Pm k ph p)) ->
  forall k, psum L c0 = Rsum (map c (cloud_from Pm k L)).
Proof.
  intros H. unfold psum. induction L as [|ph L IH]; intros k; [reflexivity|].
  cbn [cloud_from map Rsum fold_right]. rewrite map_app, map_map. change (fold_right Rplus 0) with Rsum.
  rewrite (IH (Datatypes.S k)). unfold Rsum at 3. rewrite fold_right_app. fold (Rsum (map c (cloud_from Pm (Datatypes.S k) L))).
  generalize (Rsum (map c (cloud_from Pm (Datatypes.S k) L))). intros z. generalize (live ph). intros l.
  induction l as [|p l IHl]; cbn [map Rsum fold_right]; [lra|]. unfold Rsum in IHl. rewrite <- IHl, (H k). lra.
Qed.

Lemma Lrel_cloud Pm (R1 : phase R -> particle R -> particle R -> Prop) (F : point -> point) L L' : Lrel R1 L L' ->
  (forall k ph ph' p p', In ph L -> In p (live ph) -> ph_sol ph' = ph_sol ph -> ph_sv ph' = ph_sv ph -> R1 ph p p' ->
     point_of Pm k ph' p' = F (point_of Pm k ph p)) -> forall k, cloud_from Pm k L' = map F (cloud_from Pm k L).
Proof.
  intros HR HF. induction HR as [|ph ph' L L' (A1 & A2 & A3 & A4 & _) HR IH]; intros k; [reflexivity|].
  cbn [cloud_from]. rewrite map_app. f_equal.
  - assert (X : forall p p', In p (live ph) -> R1 ph p p' -> point_of Pm k ph' p' = F (point_of Pm k ph p)) by (intros; apply HF; auto; left; auto).
    rewrite map_map. clear - A4 X. induction A4 as [|p p' l l' H A4 IH]; [reflexivity|]. cbn [map]. f_equal.
    + apply X; auto. left; reflexivity.
    + apply IH. intros q q' Hq. apply X. right. exact Hq.
  - apply IH. intros j q q' p p' Q. apply HF. right. exact Q.
Qed.

Lemma points_cloud {S1} Pm (f : nat -> phase R -> particle R -> S1 -> res (particle R * S1)) (I : S1 -> Prop) (F : point -> point) : forall L,
  (forall k ph p s p' s', In ph L -> In p (live ph) -> I s -> f k ph p s = Ok (p', s') -> I s' /\ point_of Pm k ph p' = F (point_of Pm k ph p)) ->
  forall k s L' s', I s ->
  forM (fun k ph s => '(pts, s) <- each (ph_n ph) (f k ph) (ph_pts ph) s ;; Ok (ph <| ph_pts := pts |>, s)) k L s = Ok (L', s') ->
  cloud_from Pm k L' = map F (cloud_from Pm k L).
Proof.
  induction L as [|ph L IH]; intros H k s L' s' HI E; cbn [forM] in E.
  - injection E as <- _. reflexivity.
  - pbinds E. injection E as <- _. pbinds E0. injection E0 as <- <-.
    match goal with X : each _ _ _ _ = Ok (?l, ?u) |- _ => rename X into EE; rename l into l1; rename u into u1 end.
    apply (each_live (f k ph) I (fun p p' => point_of Pm k ph p' = F (point_of Pm k ph p)) (ph_n ph) (ph_pts ph) s l1 u1 HI) in EE.
    2:{ intros p s2 p2 s3 A B C. apply (H k ph p s2 p2 s3); auto. left. reflexivity. }
    destruct EE as (HU & FF & _). cbn [cloud_from]. rewrite map_app. f_equal.
    + unfold live. cbn [ph_n ph_pts set]. rewrite map_map. clear - FF. fold (live ph) in FF.
      change (point_of Pm k (ph <| ph_pts := l1 |>)) with (point_of Pm k ph). fold (live ph).
      revert FF. generalize (live ph), (firstn (ph_n ph) l1). intros l l' FF. induction FF as [|p p' l l' X FF IH]; [reflexivity|]. cbn [map]. rewrite X, IH. reflexivity.
    + eapply IH; [|exact HU|eassumption]. intros j q p s2 p2 s3 A. apply H. right. exact A.
Qed.
