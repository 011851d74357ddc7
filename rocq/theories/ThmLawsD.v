(** * Drucker-Prager laws on reals with infinities and NaN *)
From Coq Require Import ZArith List Bool Arith Lia Reals Lra.
From Verif Require Import State NumR NumX LibR LibList Spec SpecLaws ModelGrid ModelConstit ModelParticle ModelMPList ModelMain ProofsGrid ProofsMap ProofsLaws ProofsHist ProofsX Concrete ThmLawsX.
Import ListNotations.
Local Open Scope R_scope.

(** ** C26 *)
(** [MP.mu] does not exist on a new particle and the law does not create it:
    stress can never be updated. *)
Lemma p_C26_law_refuted : forall T (NT : Num T) (P : params T) S MP G r, pmu MP = None -> dp P S MP G <> Ok r.
Proof.
  intros T NT P S MP G r HM E. unfold dp in E. pbinds E. rewrite HM in *. discriminate.
Qed.
Lemma p_C26_new_particle_refuted : forall T (NT : Num T) (P Q : params T) S0 S x y phi MP S1 G r,
  particle_init P S0 S x y phi = Ok MP -> dp Q S1 MP G <> Ok r.
Proof.
  intros T NT P Q S0 S x y phi MP S1 G r E. apply p_C26_law_refuted. unfold particle_init in E. pbinds E. injection E as <-. reflexivity.
Qed.
Lemma Lrel_in {T} (R1 : phase T -> particle T -> particle T -> Prop) L L' ph p : Lrel R1 L L' -> In ph L -> In p (live ph) ->
  exists ph' p', In ph' L' /\ In p' (live ph') /\ ph_sol ph' = ph_sol ph /\ R1 ph p p'.
Proof.
  induction 1 as [|ph1 ph1' L L' (E1 & E2 & E3 & F & Ln) HL IH]; intros [].
  - subst ph1. clear - E1 F. intros Hp. assert (X : exists p', In p' (live ph1') /\ R1 ph p p').
    { revert F Hp. generalize (live ph) (live ph1'). intros l l'. induction 1 as [|a b l l' Hab F IH]; intros []; [subst; eauto using in_eq|].
      destruct IH as (p' & A & B); [assumption|]. eauto using in_cons. }
    destruct X as (p' & A & B). exists ph1', p'. auto using in_eq.
  - intros Hp. destruct IH as (ph' & p' & A & B); auto. exists ph', p'. destruct B as (B & C & D). auto using in_cons.
Qed.
(** No time step succeeds while a new particle of such a phase exists. *)
Lemma p_C26_step_refuted : forall T (NT : Num T) uf fill (s : state T) ph MP r,
  In ph (sL s) -> In MP (live ph) -> s_law (ph_sol ph) = Dp -> pmu MP = None -> time_march uf fill s <> Ok r.
Proof.
  intros T NT uf fill s ph MP r Hph HMP HL HM E. unfold time_march in E. cbv zeta in E. pbinds E. clear E.
  set (P := sP s <| p_loads := uf (sP s) |>) in *.
  assert (R1 : Lrel (fun _ p p' => pmu p' = pmu p) (sL s) a0).
  { eapply points__rel; [|exact E1]. intros k ph1 p p' _ _ X. injection X as <-. unfold increment_gravity. destruct (Nat.eqb k 0); reflexivity. }
  assert (R2 : Lrel (fun _ p p' => pmu p' = pmu p) a0 a1).
  { eapply points__rel; [|exact E2]. cbv beta. intros k ph1 p p' _ _ X. unfold get_reference_node in X.
    repeat match type of X with (match ?t with _ => _ end) = _ => destruct t end; try discriminate; injection X as <-; reflexivity. }
  assert (R3 : Lrel (fun _ p p' => pmu p' = pmu p) a1 a2).
  { eapply points__rel; [|exact E3]. cbv beta. intros k ph1 p p' _ _ X. unfold get_basis_functions in X. pbinds X.
    injection X as <-. reflexivity. }
  destruct (Lrel_in _ _ _ _ _ R1 Hph HMP) as (ph1 & p1 & A1 & B1 & C1 & D1).
  destruct (Lrel_in _ _ _ _ _ R2 A1 B1) as (ph2 & p2 & A2 & B2 & C2 & D2).
  destruct (Lrel_in _ _ _ _ _ R3 A2 B2) as (ph3 & p3 & A3 & B3 & C3 & D3).
  match goal with H : stress_strain _ _ _ = Ok _ |- _ => rename H into ES end.
  unfold stress_strain in ES. pbinds ES. clear ES.
  match goal with H : points _ _ _ = Ok _ |- _ => rename H into EP end.
  apply (points_rel _ (fun _ => True) (fun ph p p' => s_law (ph_sol ph) = Dp -> pmu p <> None)) in EP; [|exact I|].
  - destruct EP as [_ EP]. destruct (Lrel_in _ _ _ _ _ EP A3 B3) as (ph4 & p4 & _ & _ & _ & Q). apply Q; congruence.
  - intros k phx p G0 p' G0' _ _ _ X. split; [exact I|]. intros HD HN. pbinds X.
    match goal with H : update_strain _ _ _ = Ok _ |- _ => apply strain_frame in H; rename H into EU end.
    unfold update_stress, apply_law in X. rewrite HD in X. pbinds X.
    match goal with H : dp _ _ _ _ = Ok _ |- _ => revert H end. apply p_C26_law_refuted. rewrite EU. exact HN.
Qed.
Example x_C26_step_refuted : forall G : grid R, exists s ph MP, In ph (sL s) /\ In MP (live ph) /\ s_law (ph_sol ph) = Dp /\ pmu MP = None /\ sG s = G.
Proof. intros G. exists (mkState (ex_params ex_bounds) G (ex_L Dp)), (ex_phase Dp), ex_p1. repeat split; left; reflexivity. Qed.

(** ** C27 *)
Definition F2 (a : M2 R) : M2 (X R) := mkM2 (Fin (aa a)) (Fin (ab a)) (Fin (ba a)) (Fin (bb a)).
(** Pressure (positive in compression) and equivalent shear stress in the plane,
    and the plane elastic response. *)
Definition plane_p (s : M3 R) : R := - (xx s + yy s) / 2.
Definition plane_q (s : M3 R) : R :=
  sqrt (3 / 2 * (((xx s - yy s) / 2) * ((xx s - yy s) / 2) * 2 + xy s * xy s + yx s * yx s)).
Definition plane_elastic (K g : R) (e : M3 R) : M2 R :=
  mkM2 (2 * g * ((xx e - yy e) / 2) + K * (xx e + yy e)) (2 * g * xy e) (2 * g * yx e) (2 * g * ((yy e - xx e) / 2) + K * (xx e + yy e)).
Lemma plane_sq u a b : 0 <= 3 / 2 * (u * u * 2 + a * a + b * b).
Proof. pose proof (Rle_0_sqr u). pose proof (Rle_0_sqr a). pose proof (Rle_0_sqr b). unfold Rsqr in *. lra. Qed.
Lemma plane_sq0 u a b : 3 / 2 * (u * u * 2 + a * a + b * b) = 0 -> u = 0 /\ a = 0 /\ b = 0.
Proof.
  pose proof (Rle_0_sqr u). pose proof (Rle_0_sqr a). pose proof (Rle_0_sqr b). unfold Rsqr in *. intros E.
  assert (A : u * u = 0) by lra. assert (B : a * a = 0) by lra. assert (C : b * b = 0) by lra.
  apply Rmult_integral in A, B, C. repeat split; lra.
Qed.
Lemma plane_q_zero s : plane_q s = 0 <-> xx s = yy s /\ xy s = 0 /\ yx s = 0.
Proof.
  unfold plane_q. split.
  - intros E. apply sqrt_eq_0 in E; [|apply plane_sq]. apply plane_sq0 in E. lra.
  - intros (A & B & C). rewrite A, B, C. transitivity (sqrt 0); [f_equal; field|apply sqrt_0].
Qed.
Lemma guts_parts K g mu beta t e s : 0 < mu -> 0 < t -> 0 < plane_p s ->
  let q := plane_q s in let p := plane_p s in
  let dS := fst (dp_rate_guts (Fin K) (Fin g) (Fin mu) (Fin beta) (Fin t) (m2map nopp (block2 (F3 e))) (m2map nopp (block2 (F3 s)))) in
  (q = 0 -> dS = mkM2 NaN NaN NaN NaN) /\
  (q <> 0 -> exists d, m2map nopp dS = F2 d /\ (q <= mu * p -> d = plane_elastic K g e)) /\
  snd (dp_rate_guts (Fin K) (Fin g) (Fin mu) (Fin beta) (Fin t) (m2map nopp (block2 (F3 e))) (m2map nopp (block2 (F3 s)))) = (Fin p, Fin q).
Proof.
  intros Hm Ht Hp q p. unfold dp_rate_guts. cbv zeta.
  assert (EP : (trace2 (m2map nopp (block2 (F3 s))) / n2)%num = Fin p).
  { change (@n2 (X R) _) with (Fin 2). change (trace2 (m2map nopp (block2 (F3 s)))) with (Fin (- xx s + - yy s)).
    rewrite xdivF by lra. f_equal. unfold p, plane_p. field. }
  rewrite EP.
  assert (ES : m2sub (m2map nopp (block2 (F3 s))) (m2muls eye2 (Fin p)) =
    F2 (mkM2 ((yy s - xx s) / 2) (- xy s) (- yx s) ((xx s - yy s) / 2))).
  { unfold m2sub, m2muls, m2map2, m2map, eye2, block2, F2. cbn. f_equal; f_equal; unfold p, plane_p; field. }
  rewrite ES. set (sd := mkM2 _ _ _ _ : M2 R).
  assert (EQ : nsqrt (n3 * m2sum (m2mulE (F2 sd) (F2 sd)) / n2)%num = Fin q).
  { change (@n2 (X R) _) with (Fin 2). change (@n3 (X R) _) with (Fin 3). change (m2sum (m2mulE (F2 sd) (F2 sd))) with (Fin (m2sum (m2mulE sd sd))).
    rewrite xmulF, xdivF by lra. assert (Z : 3 * m2sum (m2mulE sd sd) / 2 = 3 / 2 * (((xx s - yy s) / 2) * ((xx s - yy s) / 2) * 2 + xy s * xy s + yx s * yx s)).
    { unfold m2sum, m2mulE, m2map2, sd. cbn. field. }
    rewrite Z, xsqrtF by apply plane_sq. reflexivity. }
  rewrite EQ.
  assert (ED : (trace2 (m2map nopp (block2 (F3 e)))) = Fin (- (xx e + yy e))).
  { change (trace2 (m2map nopp (block2 (F3 e)))) with (Fin (- xx e + - yy e)). f_equal. ring. }
  rewrite ED.
  assert (EDE : m2sub (m2map nopp (block2 (F3 e))) (m2divs (m2scale (Fin (- (xx e + yy e))) eye2) n2) =
    F2 (mkM2 ((yy e - xx e) / 2) (- xy e) (- yx e) ((xx e - yy e) / 2))).
  { change (@n2 (X R) _) with (Fin 2). unfold m2sub, m2divs, m2scale, m2map2, m2map, eye2, block2, F2, F3. cbn [aa ab ba bb xx xy yx yy].
    change (@n1 (X R) _) with (Fin 1). change (@n0 (X R) _) with (Fin 0). rewrite !xmulF, !xdivF by lra.
    cbn. f_equal; f_equal; field. }
  rewrite EDE. set (de := mkM2 _ _ _ _ : M2 R).
  rewrite (xmulF mu p), (xsubF q (mu * p)).
  assert (Q0 : 0 <= q) by apply sqrt_pos.
  assert (EGm : (Fin (q - mu * p)%R * nofb (n0 <? Fin (q - mu * p)%R))%num = Fin (if Rltb 0 (q - mu * p) then q - mu * p else 0)).
  { change (n0 <? Fin (q - mu * p)%R)%num with (Rltb 0 (q - mu * p)). destruct (Rltb 0 (q - mu * p)); cbn; f_equal; ring. }
  rewrite EGm. set (Gm := if Rltb 0 (q - mu * p) then q - mu * p else 0).
  change (@n2 (X R) _) with (Fin 2). change (@n3 (X R) _) with (Fin 3).
  rewrite !xmulF. assert (Hmp : mu * p * p * t <> 0) by (apply Rgt_not_eq, Rmult_lt_0_compat; [|exact Ht]; apply Rmult_lt_0_compat; [|exact Hp]; apply Rmult_lt_0_compat; [exact Hm|exact Hp]).
  rewrite (xdivF (beta * q)) by exact Hmp. rewrite xmulF, xaddF.
  split; [|split; [|reflexivity]].
  - intros Hq. assert (Z : q = 0) by exact Hq. rewrite Z. replace (2 * 0 * p * t) with 0 by ring.
    assert (ZS : sd = mkM2 0 0 0 0).
    { apply plane_q_zero in Hq. destruct Hq as (A & B & C). unfold sd. rewrite A, B, C. f_equal; field. }
    rewrite ZS.
    assert (N : m2divs (m2scale (Fin 3) (F2 (mkM2 0 0 0 0))) (Fin 0) = mkM2 NaN NaN NaN NaN).
    { unfold m2divs, m2scale, m2map, F2. cbn [aa ab ba bb]. rewrite !xmulF, !xdiv0, !Rmult_0_r, !xinf_zero. reflexivity. }
    rewrite N. reflexivity.
  - intros Hq. assert (Hd : 2 * q * p * t <> 0).
    { apply Rgt_not_eq. assert (0 < q) by lra. apply Rmult_lt_0_compat; [|exact Ht]. apply Rmult_lt_0_compat; [|exact Hp]. lra. }
    assert (N : m2divs (m2scale (Fin 3) (F2 sd)) (Fin (2 * q * p * t)) = F2 (m2divs (m2scale 3 sd) (2 * q * p * t))).
    { unfold m2divs, m2scale, m2map, F2. cbn [aa ab ba bb]. rewrite !xmulF, !xdivF by exact Hd. reflexivity. }
    rewrite N. eexists. split.
    + unfold m2add, m2sub, m2scale, m2muls, m2map2, m2map, eye2, F2. cbn [aa ab ba bb fst]. change (@n1 (X R) _) with (Fin 1). change (@n0 (X R) _) with (Fin 0).
      rewrite !xmulF, !xsubF, !xmulF, !xaddF. match goal with |- _ = mkM2 (Fin (aa ?d)) _ _ _ => instantiate (1 := mkM2 _ _ _ _) end. reflexivity.
    + intros HY. assert (ZG : Gm = 0). { unfold Gm. rewrite (proj2 (Rltb_false 0 (q - mu * p))) by lra. reflexivity. }
      rewrite ZG. unfold plane_elastic, de. cbn. f_equal; rewrite ?Rmult_0_r; field.
Qed.
(** For an isotropic compressive stress -- the state a lithostatic start
    produces -- the whole in-plane stress increment is NaN; for every other
    compressive stress it is finite, and elastic below yield. *)
Lemma p_C27_exact : forall P S0 S MP G e s mu beta K g t n,
  pdstrain MP = F3 e -> pstress MP = F3 s -> 0 < plane_p s ->
  s_mu S0 = Some (Fin mu) -> 0 < mu -> s_G S0 = Some (Fin g) -> s_t_star S0 = Some (Fin t) -> 0 < t ->
  s_K S0 = Some (Fin K) -> s_beta S0 = Some (Fin beta) -> s_mu S <> None ->
  slens n G -> (forall r, (r < 4)%nat -> exists k, pyi n (nearby (pnstar MP) r (nx (pG P))) = Some k) ->
  exists MP' G', dp_rate P S0 S MP G = Ok (MP', G') /\
    (xx s = yy s /\ xy s = 0 /\ yx s = 0 -> block2 (pdstress MP') = mkM2 NaN NaN NaN NaN) /\
    (~ (xx s = yy s /\ xy s = 0 /\ yx s = 0) -> exists d, block2 (pdstress MP') = F2 d /\
       (plane_q s <= mu * plane_p s -> d = plane_elastic K g e)).
Proof.
  intros P S0 S MP G e s mu beta K g t n Ee Es Hp Em Hm Eg Et Ht EK Eb ES HS HN. unfold dp_rate.
  rewrite Em, Eg, Et, EK, Eb, Ee. cbn [attr bind]. rewrite Es.
  destruct (guts_parts K g mu beta t e s Hm Ht Hp) as (A & B & C).
  destruct (dp_rate_guts _ _ _ _ _ _ _) as [dS [p1 q1]]. cbn [fst snd] in A, B, C.
  destruct (s_mu S) as [mu'|]; [|congruence]. cbn [attr bind].
  match goal with |- context [visualise ?P ?M ?f ?G] => destruct (visualise_total n P M f G HS) as [G' EV]; [exact HN|rewrite EV] end. cbn [bind].
  eexists _, G'. split; [reflexivity|]. cbn [pdstress set block2 set_block2 xx xy yx yy]. rewrite <- plane_q_zero. split.
  - intros Hq. rewrite (A Hq). reflexivity.
  - intros Hq. destruct (B Hq) as (d & D1 & D2). exists d. split; [exact D1|exact D2].
Qed.
Lemma p_C27_finite_refuted : forall P S0 S MP G e s p mu beta K g t n,
  pdstrain MP = F3 e -> pstress MP = F3 s -> 0 < p -> xx s = - p -> yy s = - p -> xy s = 0 -> yx s = 0 ->
  s_mu S0 = Some (Fin mu) -> 0 < mu -> s_G S0 = Some (Fin g) -> s_t_star S0 = Some (Fin t) -> 0 < t ->
  s_K S0 = Some (Fin K) -> s_beta S0 = Some (Fin beta) -> s_mu S <> None ->
  slens n G -> (forall r, (r < 4)%nat -> exists k, pyi n (nearby (pnstar MP) r (nx (pG P))) = Some k) ->
  exists MP' G', dp_rate P S0 S MP G = Ok (MP', G') /\ block2 (pdstress MP') = mkM2 NaN NaN NaN NaN.
Proof.
  intros P S0 S MP G e s p mu beta K g t n Ee Es Hp X Y XY YX. intros.
  destruct (p_C27_exact P S0 S MP G e s mu beta K g t n) as (MP' & G' & E & Z & _); auto.
  { unfold plane_p. rewrite X, Y. lra. }
  exists MP', G'. split; [exact E|]. apply Z. lra.
Qed.
Example x_C27_exact : forall s e, pdstrain (xp 0 e s) = F3 e /\ pstress (xp 0 e s) = F3 s /\ exists S0 : solid (X R),
  s_mu S0 = Some (Fin (1/2)) /\ s_G S0 = Some (Fin 2) /\ s_t_star S0 = Some (Fin 1) /\ s_K S0 = Some (Fin 3) /\ s_beta S0 = Some (Fin 0) /\
  slens 12 xG /\ (forall r, (r < 4)%nat -> exists k, pyi 12 (nearby (pnstar (xp 0 e s)) r (nx (pG xP))) = Some k).
Proof.
  intros s e. split; [reflexivity|]. split; [reflexivity|]. exists (ex_solid (T := X R) DpRate).
  assert (Q : @nhalf (X R) _ = Fin (1/2)). { unfold nhalf, lit. cbn [nofZ Num_X]. rewrite xdivF by (cbn; lra). reflexivity. }
  cbn [ex_solid s_mu s_G s_t_star s_K s_beta]. rewrite Q. repeat (split; [reflexivity|]). split; [exact xG_lens|apply xp_nodes].
Qed.
