(** * The nodal fields that the laws fill: C76. *)
From Coq Require Import ZArith Reals List Bool Arith Lra Lia.
From Verif Require Import State NumR Spec SpecLaws LibList LibR ModelGrid ModelConstit ModelParticle ModelMPList ModelMain
  ProofsGrid ProofsMap ProofsP2G ProofsLaws ProofsHist ProofsStep ProofsPoints Concrete ThmMapping ThmLaws ThmStep.
Import ListNotations.
Local Open Scope R_scope.

Definition sf_eqb (f g : sfield) : bool :=
  match f, g with
  | Fgammadot, Fgammadot | Fyield, Fyield | Fpressure, Fpressure | Fsigmah, Fsigmah | Fsigmav, Fsigmav | Fdev, Fdev
  | Fdevdot, Fdevdot | Fmu_s, Fmu_s | Fmu, Fmu | FI, FI | Feta, Feta => true
  | _, _ => false
  end.
Lemma sget_sset (f g : sfield) (l : list R) G : sget g (sset f l G) = if sf_eqb g f then l else sget g G.
Proof. destruct f, g; reflexivity. Qed.
Lemma sadd_spec f i w (G G' : grid R) : sadd f i w G = Ok G' -> forall g k,
  nth k (sget g G') 0 = nth k (sget g G) 0 + (if sf_eqb g f then hit (length (sget f G)) i k * w else 0).
Proof.
  unfold sadd. intros E g k. apply bind_ok in E. destruct E as (l & E & Q). injection Q as <-.
  pose proof (upd_proj (fun a => a) _ _ _ _ w 0 E ltac:(intros; reflexivity) k) as U. cbv beta in U.
  rewrite sget_sset. destruct (sf_eqb g f) eqn:B; [|lra]. assert (g = f) as -> by (destruct g, f; (reflexivity || discriminate B)). exact U.
Qed.
Definition adds (g : sfield) (fs : list (sfield * (R -> R))) (N : R) : R :=
  Rsum (map (fun fw => if sf_eqb g (fst fw) then snd fw N else 0) fs).
Lemma foldM_sadd_spec n i w fs : forall (G G' : grid R), slens n G ->
  foldM (fun G (fw : sfield * (R -> R)) => sadd (fst fw) i (snd fw w) G) G fs = Ok G' ->
  slens n G' /\ forall g k, nth k (sget g G') 0 = nth k (sget g G) 0 + hit n i k * adds g fs w.
Proof.
  induction fs as [|fw fs IH]; intros G G' HS E.
  - injection E as <-. split; [exact HS|]. intros. unfold adds. cbn. lra.
  - cbn [foldM] in E. apply bind_ok in E. destruct E as (G1 & E1 & E). pose proof (sadd_spec _ _ _ _ _ E1) as A.
    destruct (sadd_ok _ _ _ _ _ E1) as [_ S1]. destruct (IH G1 G' (S1 n HS) E) as [S2 B]. split; [exact S2|]. intros g k.
    rewrite B, A, (HS (fst fw)). unfold adds. cbn [map Rsum fold_right]. change (fold_right Rplus 0) with Rsum.
    destruct (sf_eqb g (fst fw)); lra.
Qed.
Lemma visualise_spec P MP fs (G G' : grid R) : slens (nodes (pG P)) G -> visualise P MP fs G = Ok G' ->
  slens (nodes (pG P)) G' /\ forall g k, nth k (sget g G') 0 = nth k (sget g G) 0 +
    fsum 4 (fun r => hit (nodes (pG P)) (nearby (pnstar MP) r (nx (pG P))) k * adds g fs (Nr MP r)).
Proof.
  intros HS E. unfold visualise in E.
  assert (A : forall g k, slens (nodes (pG P)) G' /\ nth k (sget g G') 0 = nth k (sget g G) 0 +
    fsum 4 (fun r => hit (nodes (pG P)) (nearby (pnstar MP) r (nx (pG P))) k * adds g fs (Nr MP r))).
  { intros g k. apply (four_acc P (pnstar MP) _ (slens (nodes (pG P))) (fun _ => True) (fun G => nth k (sget g G) 0)
      (fun r => hit (nodes (pG P)) (nearby (pnstar MP) r (nx (pG P))) k * adds g fs (Nr MP r))) in E; [tauto|exact HS|].
    intros r t t' _ Ht Hf. destruct (foldM_sadd_spec (nodes (pG P)) _ _ fs t t' Ht Hf) as [X Y]. auto. }
  split; [apply (A Fmu 0%nat)|]. intros g k. apply A.
Qed.
Lemma visualise_lin P MP fs (G G' : grid R) g c : slens (nodes (pG P)) G -> visualise P MP fs G = Ok G' ->
  (forall N, adds g fs N = N * c) -> forall k, nth k (sget g G') 0 = nth k (sget g G) 0 + wt P MP k * c.
Proof.
  intros HS E Hc k. destruct (visualise_spec P MP fs G G' HS E) as [_ ->]. f_equal. unfold wt. rewrite <- fsum_scal_r.
  apply fsum_ext. intros r _. rewrite Hc. ring.
Qed.

(** Which attribute of a particle a law shows in which field, per unit mass. *)
Definition in_plane_q (s : M3 R) : R :=
  let p := (xx s + yy s) / 2 in
  sqrt (3 * ((xx s - p) * (xx s - p) + xy s * xy s + yx s * yx s + (yy s - p) * (yy s - p)) / 2).
Definition shown (dt : R) (l : law_name) (f : sfield) (p : particle R) : R :=
  match f, l with
  | Fpressure, DpRate => - (xx (pstress p) + yy (pstress p)) / 2
  | Fpressure, Rigid => 0
  | Fpressure, _ => ppressure p
  | Fgammadot, (Elastic | ElasticTime | VonMises | DpRate | KenKamrin) => pgammadot p / dt
  | Fsigmav, (Elastic | ElasticTime | VonMises) => psigmav p
  | Fsigmah, (Elastic | ElasticTime | VonMises) => psigmah p
  | Fyield, VonMises => pyield p
  | Fdevdot, VonMises => frob (pdev_d p) / dt
  | Fdev, (VonMises | Viscous | Bingham | KenKamrin) => frob (pdev p)
  | Fdev, (Pouliquen | LinearMu | KenSimple) => frob (pdev p) / sqrt 2
  | Fdev, DpRate => in_plane_q (pstress p)
  | Fmu, (Pouliquen | LinearMu) => match pmu p with Some m => m | None => 0 end
  | FI, (Pouliquen | LinearMu) => pI p
  | Feta, (Pouliquen | KenSimple) => peta p
  | _, _ => 0
  end.
Lemma mnorm_frob (a : M3 R) : mnorm a = frob a.
Proof. unfold mnorm, frob, inner. destruct a. cbn. unfold nsq. cbn. f_equal. ring. Qed.
Lemma sqrt_n2 : nsqrt (n2 : R) = sqrt 2.
Proof. reflexivity. Qed.
Lemma okp_inj {A B} (a a1 : A) (b b1 : B) : Ok (a, b) = Ok (a1, b1) -> a = a1 /\ b = b1.
Proof. intros E. injection E. auto. Qed.
Ltac vis_lin E f HS :=
  apply okp_inj in E; destruct E as [E <-];
  match goal with V : visualise _ _ _ _ = Ok _ |- _ => rewrite E in V; apply (visualise_lin _ _ _ _ _ f _ HS V) end;
  let N := fresh in intros N; unfold adds; rewrite ?mnorm_frob, ?sqrt_n2; destruct f;
  cbn -[trace frob msum mnorm in_plane_q sqrt]; unfold Rdiv; try ring.
Lemma shows_rigid P S p (G : grid R) p' G' : slens (nodes (pG P)) G -> rigid P S p G = Ok (p', G') ->
  forall f k, nth k (sget f G') 0 = nth k (sget f G) 0 + wt P p' k * (pm p' * shown (p_dt P) Rigid f p').
Proof.
  intros HS E f k. unfold rigid in E. injection E as <- <-. destruct f; cbn; ring.
Qed.
Lemma shows_elastic P S p (G : grid R) p' G' : slens (nodes (pG P)) G -> elastic P S p G = Ok (p', G') ->
  forall f k, nth k (sget f G') 0 = nth k (sget f G) 0 + wt P p' k * (pm p' * shown (p_dt P) Elastic f p').
Proof.
  intros HS E f k. unfold elastic in E. pbinds E. vis_lin E f HS.
Qed.
Lemma shows_elastic_time P S ip p (G : grid R) p' G' : slens (nodes (pG P)) G -> elastic_time P S ip p G = Ok (p', G') ->
  forall f k, nth k (sget f G') 0 = nth k (sget f G) 0 + wt P p' k * (pm p' * shown (p_dt P) ElasticTime f p').
Proof.
  intros HS E f k. unfold elastic_time in E. pbinds E. vis_lin E f HS.
Qed.
Lemma shows_von_mises P S p (G : grid R) p' G' : slens (nodes (pG P)) G -> von_mises P S p G = Ok (p', G') ->
  forall f k, nth k (sget f G') 0 = nth k (sget f G) 0 + wt P p' k * (pm p' * shown (p_dt P) VonMises f p').
Proof.
  intros HS E f k. unfold von_mises in E. pbinds E. vis_lin E f HS.
Qed.
Lemma shows_dp_rate P S0 S p (G : grid R) p' G' : slens (nodes (pG P)) G -> dp_rate P S0 S p G = Ok (p', G') ->
  forall f k, nth k (sget f G') 0 = nth k (sget f G) 0 + wt P p' k * (pm p' * shown (p_dt P) DpRate f p').
Proof.
  intros HS E f k. unfold dp_rate in E. pbinds E. destruct dp_rate_guts as [ds [p1 q1]]. pbinds E.
    assert (HP : pstress p' = pstress p) by (apply okp_inj in E; destruct E as [<- _]; reflexivity).
    vis_lin E f HS; rewrite HP; cbn -[sqrt]; try ring. unfold in_plane_q. cbn.
    match goal with |- 0 + (0 + (_ * sqrt ?a * _ + 0)) = _ * (_ * sqrt ?b) => replace a with b by field end. ring.
Qed.
Lemma shows_viscous P S p (G : grid R) p' G' : slens (nodes (pG P)) G -> viscous P S p G = Ok (p', G') ->
  forall f k, nth k (sget f G') 0 = nth k (sget f G) 0 + wt P p' k * (pm p' * shown (p_dt P) Viscous f p').
Proof.
  intros HS E f k. unfold viscous in E. pbinds E. vis_lin E f HS.
Qed.
Lemma shows_bingham P S p (G : grid R) p' G' : slens (nodes (pG P)) G -> bingham P S p G = Ok (p', G') ->
  forall f k, nth k (sget f G') 0 = nth k (sget f G) 0 + wt P p' k * (pm p' * shown (p_dt P) Bingham f p').
Proof.
  intros HS E f k. unfold bingham in E. pbinds E. vis_lin E f HS.
Qed.
Lemma shows_ken_kamrin P S p (G : grid R) p' G' : slens (nodes (pG P)) G -> ken_kamrin P S p G = Ok (p', G') ->
  forall f k, nth k (sget f G') 0 = nth k (sget f G) 0 + wt P p' k * (pm p' * shown (p_dt P) KenKamrin f p').
Proof.
  intros HS E f k. unfold ken_kamrin in E. pbinds E. vis_lin E f HS.
Qed.
Lemma shows_pouliquen P S p (G : grid R) p' G' : slens (nodes (pG P)) G -> pouliquen P S p G = Ok (p', G') ->
  forall f k, nth k (sget f G') 0 = nth k (sget f G) 0 + wt P p' k * (pm p' * shown (p_dt P) Pouliquen f p').
Proof.
  intros HS E f k. unfold pouliquen in E. pbinds E.
    destruct (negb _); [discriminate E|]. pbinds E.
    match goal with V : visualise _ _ _ _ = Ok _ |- _ =>
      match type of E with context [Some ?m] => revert V E; generalize m; intros mu V E end end.
    assert (HM : pmu p' = Some mu) by (apply okp_inj in E; destruct E as [<- _]; reflexivity).
    vis_lin E f HS; rewrite HM; ring.
Qed.
Lemma shows_linear_mu P S p (G : grid R) p' G' : slens (nodes (pG P)) G -> linear_mu P S p G = Ok (p', G') ->
  forall f k, nth k (sget f G') 0 = nth k (sget f G) 0 + wt P p' k * (pm p' * shown (p_dt P) LinearMu f p').
Proof.
  intros HS E f k. unfold linear_mu in E. pbinds E.
    match goal with V : visualise _ _ _ _ = Ok _ |- _ =>
      match type of E with context [Some ?m] => revert V E; generalize m; intros mu V E end end.
    assert (HM : pmu p' = Some mu) by (apply okp_inj in E; destruct E as [<- _]; reflexivity).
    vis_lin E f HS; rewrite HM; ring.
Qed.
Lemma shows_ken_simple P S p (G : grid R) p' G' : slens (nodes (pG P)) G -> ken_simple P S p G = Ok (p', G') ->
  forall f k, nth k (sget f G') 0 = nth k (sget f G) 0 + wt P p' k * (pm p' * shown (p_dt P) KenSimple f p').
Proof.
  intros HS E f k. unfold ken_simple in E. pbinds E.
    destruct (negb _); [discriminate E|]. pbinds E. vis_lin E f HS.
Qed.
Lemma law_shows P S0 S ip p (G : grid R) p' G' : s_law S <> Dp -> slens (nodes (pG P)) G ->
  apply_law P S0 S ip p G = Ok (p', G') ->
  forall f k, nth k (sget f G') 0 = nth k (sget f G) 0 + wt P p' k * (pm p' * shown (p_dt P) (s_law S) f p').
Proof.
  intros HD HS E. unfold apply_law in E. destruct (s_law S) eqn:EL; try discriminate E; try congruence.
  - exact (shows_rigid _ _ _ _ _ _ HS E).
  - exact (shows_elastic _ _ _ _ _ _ HS E).
  - exact (shows_elastic_time _ _ _ _ _ _ _ HS E).
  - exact (shows_von_mises _ _ _ _ _ _ HS E).
  - exact (shows_dp_rate _ _ _ _ _ _ _ HS E).
  - exact (shows_viscous _ _ _ _ _ _ HS E).
  - exact (shows_bingham _ _ _ _ _ _ HS E).
  - exact (shows_ken_kamrin _ _ _ _ _ _ HS E).
  - exact (shows_pouliquen _ _ _ _ _ _ HS E).
  - exact (shows_linear_mu _ _ _ _ _ _ HS E).
  - exact (shows_ken_simple _ _ _ _ _ _ HS E).
Qed.

(** ** Sums over the points before and after a stage *)
Definition pair_sum (L L' : list (phase R)) (c : solid R -> particle R -> particle R -> R) : R :=
  Rsum (map (fun pp => Rsum (map (fun qq => c (ph_sol (fst pp)) (fst qq) (snd qq))
                                 (combine (live (fst pp)) (live (snd pp))))) (combine L L')).
Lemma each_acc2 {S A} (f : A -> S -> res (A * S)) (I : S -> Prop) (obs : S -> R) (c : A -> A -> R) n :
  forall l s l' s', I s ->
  (forall a s a' s', In a (firstn n l) -> I s -> f a s = Ok (a', s') -> I s' /\ obs s' = obs s + c a a') ->
  each n f l s = Ok (l', s') ->
  I s' /\ obs s' = obs s + Rsum (map (fun qq => c (fst qq) (snd qq)) (combine (firstn n l) (firstn n l'))).
Proof.
  induction n; simpl; intros l s l' s' I0 Hs H.
  - inv H. split; auto. simpl; lra.
  - destruct l as [|a l]; [discriminate|]. pbinds H. injection H as <- <-. simpl.
    destruct (Hs a s b b0) as [I1 O1]; auto. left; auto.
    destruct (IHn l b0 b1 b2) as [I2 O2]; auto. { intros. eapply Hs; eauto. right; auto. }
    split; auto. lra.
Qed.
Lemma points_acc2 {S} (f : nat -> phase R -> particle R -> S -> res (particle R * S)) (I : S -> Prop) (obs : S -> R)
    (c : solid R -> particle R -> particle R -> R) L s L' s' : I s ->
  (forall k ph p s p' s', In ph L -> In p (live ph) -> I s -> f k ph p s = Ok (p', s') ->
     I s' /\ obs s' = obs s + c (ph_sol ph) p p') ->
  points f L s = Ok (L', s') -> I s' /\ obs s' = obs s + pair_sum L L' c.
Proof.
  unfold points. generalize 0%nat. revert s L' s'. induction L as [|ph L IH]; simpl; intros s L' s' k I0 Hs H.
  - inv H. split; auto. unfold pair_sum. cbn. lra.
  - pbinds H. injection H as <- <-. pbinds E. inv E.
    match goal with E : each _ _ _ _ = Ok _ |- _ => apply (each_acc2 _ I obs (c (ph_sol ph))) in E; [|exact I0|] end.
    2:{ intros a s0 a' s0' Hin Is Hf. eapply Hs; eauto. }
    match goal with E : I _ /\ _ |- _ => destruct E as [I1 O1] end.
    match goal with E : forM _ _ _ _ = Ok _ |- _ => eapply IH in E; [|exact I1|]; [destruct E as [I2 O2]|] end.
    2:{ intros. eapply Hs; eauto. }
    split; [exact I2|]. rewrite O2, O1. unfold pair_sum. cbn [combine map fst snd]. match goal with |- context [Rsum (?a :: ?l)] => change (Rsum (a :: l)) with (a + Rsum l) end. change (live (ph <| ph_pts := b3 |>)) with (firstn (ph_n ph) b3). change (live ph) with (firstn (ph_n ph) (ph_pts ph)). ring.
Qed.
Lemma pair_sum_congr (L1 L1' L2 L2' : list (phase R)) (c1 c2 : solid R -> particle R -> particle R -> R) Q Q' :
  Forall2 (fun ph1 ph2 => ph_sol ph1 = ph_sol ph2 /\ Forall2 (Q (ph_sol ph1)) (live ph1) (live ph2)) L1 L2 ->
  Forall2 (fun ph1 ph2 => ph_sol ph1 = ph_sol ph2 /\ Forall2 (Q' (ph_sol ph1)) (live ph1) (live ph2)) L1' L2' ->
  map ph_sol L1 = map ph_sol L1' ->
  (forall S p1 p1' p2 p2', Q S p1 p2 -> Q' S p1' p2' -> c1 S p1 p1' = c2 S p2 p2') ->
  pair_sum L1 L1' c1 = pair_sum L2 L2' c2.
Proof.
  intros H. revert L1' L2'. unfold pair_sum. induction H as [|ph1 ph2 L1 L2 [ES HF] H IH]; intros L1' L2' H' EM Hc; [reflexivity|].
  destruct H' as [|ph1' ph2' L1' L2' [ES' HF'] H']; [reflexivity|]. cbn in EM. injection EM as EM0 EM. cbn [combine map fst snd].
  match goal with |- Rsum (?a :: ?l) = Rsum (?b :: ?m) => change (a + Rsum l = b + Rsum m) end. f_equal.
  - rewrite <- ES. rewrite <- EM0 in HF'. clear - HF HF' Hc. revert HF'. generalize (live ph1') (live ph2').
    induction HF as [|p1 p2 l1 l2 HQ HF IHF]; intros l1' l2' HF'; [reflexivity|].
    destruct HF' as [|p1' p2' l1' l2' HQ' HF']; [reflexivity|]. cbn. f_equal; [|apply IHF; exact HF'].
    apply Hc; [exact HQ|exact HQ'].
  - apply IH; auto.
Qed.
Lemma stage_shows (P : params R) L (G : grid R) L' G' : proper (pG P) -> slens (nodes (pG P)) G -> cyclic_lr (pB P) = false ->
  all_live L (fun ph p => located (pG P) p /\ s_law (ph_sol ph) <> Dp /\ s_law (ph_sol ph) <> DpRate) ->
  stress_strain P L G = Ok (L', G') -> forall f k,
  nth k (sget f G') 0 = nth k (sget f G) 0 +
    pair_sum L L' (fun S p p' => hat (pG P) (px p) k * (pm p' * shown (p_dt P) (s_law S) f p')).
Proof.
  intros HP HS Hc HL E f k. unfold stress_strain in E. pbinds E. rewrite Hc in E. injection E as <- <-.
  match goal with E : points _ _ _ = Ok _ |- _ => apply (points_acc2 _ (slens (nodes (pG P))) (fun G => nth k (sget f G) 0)
     (fun S p p' => hat (pG P) (px p) k * (pm p' * shown (p_dt P) (s_law S) f p'))) in E; [tauto|exact HS|] end.
  clear - HP HL. intros j ph p G1 p' G1' Hin Hp HS X. destruct (HL ph p Hin Hp) as (HLo & HD & HR).
  change (stress_one P a j ph p G1 = Ok (p', G1')) in X.
  destruct (stress_one_rel _ _ _ _ _ _ _ _ X) as (XS & _ & XL & _). split; [apply XL; exact HS|].
  unfold stress_one, update_stress in X. pbinds X. injection X as <- <-.
  match goal with E : apply_law _ _ _ _ ?p1 _ = Ok (?p2, _), F : update_strain _ _ _ = Ok ?p1 |- _ =>
    rewrite (law_shows P _ _ _ p1 G1 p2 _ HD HS E f k);
    pose proof (strained_located (pG P) p _ XS HLo) as HL2; rename p2 into pz end.
  f_equal. rewrite <- (wt_hat P _ k HP HLo).
  assert (EW : wt P pz k = wt P p k).
  { unfold strained, law_frame in XS. clear - XS. unfold wt.
    apply (f_equal (fun q => (pnstar q, pN q))) in XS. cbn in XS. injection XS as X1 X2.
    unfold Nr. rewrite X1, X2. reflexivity. }
  rewrite EW. f_equal. cbn [pm set]. f_equal. destruct f, (s_law (ph_sol ph)); try reflexivity; congruence.
Qed.
Lemma Lrel_pair {T} (Q : phase T -> particle T -> particle T -> Prop) (Q' : solid T -> particle T -> particle T -> Prop) L L' :
  (forall ph p p', Q ph p p' -> Q' (ph_sol ph) p p') -> Lrel Q L L' ->
  Forall2 (fun ph1 ph2 => ph_sol ph1 = ph_sol ph2 /\ Forall2 (Q' (ph_sol ph1)) (live ph1) (live ph2)) L L'.
Proof.
  intros HQ H. induction H as [|ph ph' L L' (E & _ & _ & F & _) H IH]; constructor; auto. split; [symmetry; exact E|].
  clear - HQ F. induction F; constructor; auto.
Qed.
Lemma pair_trans {T} (Q1 Q2 Q3 : solid T -> particle T -> particle T -> Prop) (L1 L2 L3 : list (phase T)) :
  (forall S a b c, Q1 S a b -> Q2 S b c -> Q3 S a c) ->
  Forall2 (fun ph1 ph2 => ph_sol ph1 = ph_sol ph2 /\ Forall2 (Q1 (ph_sol ph1)) (live ph1) (live ph2)) L1 L2 ->
  Forall2 (fun ph1 ph2 => ph_sol ph1 = ph_sol ph2 /\ Forall2 (Q2 (ph_sol ph1)) (live ph1) (live ph2)) L2 L3 ->
  Forall2 (fun ph1 ph2 => ph_sol ph1 = ph_sol ph2 /\ Forall2 (Q3 (ph_sol ph1)) (live ph1) (live ph2)) L1 L3.
Proof.
  intros HQ H. revert L3. induction H as [|a b L1 L2 [E F] H IH]; intros L3 H'; inversion H' as [|? c ? ? [E' F'] H'']; subst; constructor; auto.
  split; [congruence|]. rewrite <- E in F'. clear - HQ F F'. revert F'. generalize (live c).
  induction F as [|x y l l' HQ1 F IH]; intros l3 F3; inversion F3; subst; constructor; eauto.
Qed.
Lemma momentum_sget P (G G' : grid R) f : update_momentum P G = Ok G' -> sget f G' = sget f G.
Proof.
  unfold update_momentum. cbv zeta. intros E.
  destruct (roughness (pB P)); [destruct (truthy_mu (wall_mu (pB P))); [destruct (friction_masks P G)|]|];
    (destruct (conveyor (pB P)); [pbinds E|]; injection E as <-; destruct f; reflexivity).
Qed.
Lemma force_sget G G' f : force_frame G G' -> sget f G' = sget f G.
Proof. unfold force_frame. intros ->. destruct f; reflexivity. Qed.
Lemma wipe_sget P (G : grid R) f : sget f (wipe P G) = repeat 0 (nodes (pG P)).
Proof. unfold wipe. destruct (p_seg P); destruct f; reflexivity. Qed.
Lemma shut_inout {T} `{Num T} (P : params T) L : shut P -> inout P L = Ok L.
Proof. intros (_ & H2 & _ & H3 & H4 & H5 & H6). unfold inout. rewrite H2, H3, H4, H5, H6. reflexivity. Qed.

(** C76.  After a step every nodal field (but the shear rate, which the step recomputes) is the sum over the points
    of mass times tent value at the place where the point was at the start of the step times the quantity its law
    shows. *)
Lemma p_C76_step : forall uf fill (s s' : state R), proper (pG (sP s)) -> grid_ok (pG (sP s)) (sG s) -> shut (sP s) ->
  all_live (sL s) (fun ph p => in_dom (pG (sP s)) (px p) /\ s_law (ph_sol ph) <> Dp /\ s_law (ph_sol ph) <> DpRate) ->
  time_march uf fill s = Ok s' -> forall f k, f <> Fgammadot ->
  nth k (sget f (sG s')) 0 =
    pair_sum (sL s) (sL s') (fun S p p' => hat (pG (sP s)) (px p) k * (pm p' * shown (p_dt (sP s)) (s_law S) f p')).
Proof.
  intros uf fill s s' HP HG HS HL E f k Hf. pose proof HS as (Hs & Hc & _).
  destruct (march_stages uf fill s s' HP HG ltac:(intros ph p A B; apply (HL ph p A B)) Hs Hc E)
    as (S0 & L1 & L3 & L4 & L5 & G1 & G3 & G4 & G5 & G6 & _ & _ & R1 & R3 & EP & FP & ES & R4 & _ & LO & EF & LF & EB & _ & _ & EM & _ & EG & RM & EI).
  set (P := sP s <| p_loads := uf (sP s) |>) in *.
  assert (EI' : L5 = sL s') by (rewrite (shut_inout P L5) in EI by exact HS; injection EI; auto). subst L5.
  rewrite EG.
  assert (E6 : sget f (calculate_gammadot fill P G6) = sget f G3).
  { replace (sget f (calculate_gammadot fill P G6)) with (sget f G6) by (destruct f; (reflexivity || congruence)).
    rewrite (momentum_sget _ _ _ f EM), (force_sget _ _ f (BCs_frame _ _ _ _ EB)).
    destruct (force_loop_spec P L4 G3 G4 LF EF) as (F & _). unfold frame_f in F. rewrite F. destruct f; reflexivity. }
  rewrite E6. clear E6.
  assert (SL : slens (nodes (pG P)) G1).
  { intros g. unfold frame_all in FP. rewrite FP. replace (sget g _) with (sget g (wipe (sP s) (sG s))) by (destruct g; reflexivity).
    rewrite wipe_sget. apply repeat_length. }
  assert (A3 : Forall2 (fun ph1 ph2 => ph_sol ph1 = ph_sol ph2 /\
      Forall2 ((fun _ p p' => px p = px p' /\ (in_dom (pG (sP s)) (px p) -> located (pG (sP s)) p')) (ph_sol ph1)) (live ph1) (live ph2)) (sL s) L3).
  { apply (pair_trans (fun _ p p' => px p = px p') (fun _ p p' => in_dom (pG (sP s)) (px p) /\ p' = locate (pG (sP s)) p)
      (fun _ p p' => px p = px p' /\ (in_dom (pG (sP s)) (px p) -> located (pG (sP s)) p')) _ L1).
    - intros S a b c Hab [Hd ->]. rewrite Hab. split; [reflexivity|]. intros _. apply locate_located. exact Hd.
    - apply (Lrel_pair _ (fun _ p p' => px p = px p') _ _) with (2 := R1). intros ph p p' [b ->]. reflexivity.
    - apply (Lrel_pair _ (fun _ p p' => in_dom (pG (sP s)) (px p) /\ p' = locate (pG (sP s)) p) _ _) with (2 := R3). intros ph p p' X. exact X. }
  rewrite (stage_shows P L3 G1 L4 G3 HP SL Hc) with (k := k) (f := f); [|clear - A3 HL|exact ES].
  2:{ intros ph3 p3 H1 H2. unfold all_live in HL. induction A3 as [|ph0 ph ls L3 [E F] A IH]; [destruct H1|].
      destruct H1 as [<-|H1]; [|apply IH; auto; intros; apply HL; auto; right; auto].
      assert (HL0 : forall p, In p (live ph0) -> in_dom (pG (sP s)) (px p) /\ s_law (ph_sol ph0) <> Dp /\ s_law (ph_sol ph0) <> DpRate)
        by (intros p Hp; apply HL; [left; reflexivity|exact Hp]).
      rewrite <- E. clear - F H2 HL0. induction F as [|a b l l' [_ HQ] F IHF]; [destruct H2|].
      destruct H2 as [<-|H2]; [|apply IHF; auto; intros; apply HL0; right; auto].
      destruct (HL0 a ltac:(left; reflexivity)) as (X & Y). split; [apply HQ; exact X|exact Y]. }
  replace (nth k (sget f G1) 0) with 0.
  2:{ unfold frame_all in FP. rewrite FP. replace (sget f _) with (sget f (wipe (sP s) (sG s))) by (destruct f; reflexivity).
      rewrite wipe_sget. symmetry. apply nth_repeat_same. }
  rewrite Rplus_0_l. symmetry.
  apply (pair_sum_congr _ _ _ _ _ _ (fun _ p p' => px p = px p')
    (fun S p' p => pm p' = pm p /\ shown (p_dt (sP s)) (s_law S) f p' = shown (p_dt (sP s)) (s_law S) f p)).
  - clear - A3. induction A3 as [|? ? ? ? [E F] A IH]; constructor; auto. split; [exact E|].
    clear - F. induction F as [|? ? ? ? [Q _] F]; constructor; auto.
  - clear - RM HL. induction RM as [|ph ph' l l' (E & _ & _ & F & _) A IH]; constructor; auto. split; [exact E|].
    rewrite E. destruct (is_rigid (s_law (ph_sol ph))); (induction F as [|? ? ? ? Q F]; constructor; auto).
    + destruct Q as (w & _ & ->). split; [reflexivity|]. destruct f, (s_law (ph_sol ph)); reflexivity.
    + destruct Q as (-> & _). split; [reflexivity|]. destruct f, (s_law (ph_sol ph)); reflexivity.
  - clear - A3 R4 RM. revert R4 RM A3. generalize (sL s) (sL s'). intros l l' R4 RM A3.
    transitivity (map ph_sol L4); [|clear - RM; induction RM as [|? ? ? ? (E & _) ? IH]; cbn; [reflexivity|f_equal; auto]].
    transitivity (map ph_sol L3); [clear - A3; induction A3 as [|? ? ? ? (E & _) ? IH]; cbn; [reflexivity|f_equal; auto]|].
    clear - R4; induction R4 as [|? ? ? ? (E & _) ? IH]; cbn; [reflexivity|f_equal; auto].
  - intros S p1 p1' p2 p2' -> [-> ->]. reflexivity.
Qed.

Example x_C76_step : forall uf fill, exists s s' : state R, proper (pG (sP s)) /\ grid_ok (pG (sP s)) (sG s) /\ shut (sP s) /\
  all_live (sL s) (fun ph p => in_dom (pG (sP s)) (px p) /\ s_law (ph_sol ph) <> Dp /\ s_law (ph_sol ph) <> DpRate) /\
  time_march uf fill s = Ok s' /\ (exists ph p q, In ph (sL s) /\ live ph = [p; q] /\ tr3 (pstress p) = 5).
Proof.
  intros uf fill. set (B := ex_box (T := R)).
  destruct (grid_init_ok ex_gridp B ex_proper) as (G & EG & OK).
  pose proof (ex_ready B G EG OK eq_refl eq_refl eq_refl Elastic (or_introl eq_refl)) as HR.
  destruct (march_total uf fill _ HR) as [s' E].
  exists (start (ex_params B) G Elastic), s'.
  split; [exact ex_proper|]. split; [exact OK|]. split; [repeat split; reflexivity|].
  split; [intros ph p Hin Hp; split; [exact (ex_dom Elastic ph p Hin Hp)|destruct Hin as [<-|[]]; split; discriminate]|].
  split; [exact E|]. do 3 eexists. split; [left; reflexivity|]. split; [reflexivity|]. unfold tr3. cbn. lra.
Qed.

(** One law call: the point adds mass times tent value times the quantity its law shows, to every field. *)
Lemma p_C76_law : forall P S0 S ip (p p' : particle R) (G G' : grid R), proper (pG P) -> located (pG P) p ->
  slens (nodes (pG P)) G -> s_law S <> Dp -> apply_law P S0 S ip p G = Ok (p', G') ->
  forall f k, nth k (sget f G') 0 =
    nth k (sget f G) 0 + hat (pG P) (px p) k * (pm p' * shown (p_dt P) (s_law S) f p').
Proof.
  intros P S0 S ip p p' G G' HP HL HS HD E f k. rewrite (law_shows P S0 S ip p G p' G' HD HS E f k).
  rewrite <- (wt_hat P p k HP HL). apply law_effect in E. destruct E as (F & _). unfold law_frame in F.
  apply (f_equal (fun q => (pnstar q, pN q))) in F. cbn in F. injection F as F1 F2. unfold wt, Nr. rewrite F1, F2. reflexivity.
Qed.
Example x_C76_law : forall l, In l [Elastic; ElasticTime; VonMises; DpRate; Viscous; Bingham; KenKamrin; LinearMu; KenSimple] ->
  exists P S (p p' : particle R) (G G' : grid R), s_law S = l /\ proper (pG P) /\ located (pG P) p /\ slens (nodes (pG P)) G /\
  s_law S <> Dp /\ apply_law P S S 0 p G = Ok (p', G') /\ xy (pdstrain p) = 2.
Proof.
  intros l Hl. destruct (grid_init_ok (ex_gridp (T := R)) ex_bounds ex_proper) as (G0 & _ & HG0).
  destruct (run_law l 0 Hl ex_p_loc G0 ex_p_located eq_refl) as (p' & G' & E).
  eexists _, _, _, p', _, G'. split; [|split; [|split; [|split; [|split; [|split; [exact E|reflexivity]]]]]].
  - reflexivity.
  - exact ex_proper.
  - exact ex_p_located.
  - apply (wipe_slens (ex_params ex_bounds) G0).
  - cbn in *. intuition congruence.
Qed.

Lemma pair_sum_le (L L' : list (phase R)) Q c (d : phase R -> particle R -> R) : Prel Q L L' ->
  (forall ph p ph' p', In ph L -> In p (live ph) -> In ph' L' -> In p' (live ph') -> Q ph p p' -> ph_sol ph' = ph_sol ph ->
     c (ph_sol ph) p p' <= d ph p) -> pair_sum L L' c <= psum L d.
Proof.
  intros H. unfold pair_sum, psum. induction H as [|ph ph' L L' (ES & _ & _ & F) H IH]; intros Hc; [cbn; lra|].
  cbn [combine map fst snd].
  match goal with |- Rsum (?a :: ?l) <= Rsum (?b :: ?m) => change (a + Rsum l <= b + Rsum m) end. apply Rplus_le_compat.
  - assert (X : forall p p', In p (live ph) -> In p' (live ph') -> Q ph p p' -> c (ph_sol ph) p p' <= d ph p).
    { intros p p' A B D. apply (Hc ph p ph' p'); auto; left; auto. }
    clear - F X. induction F as [|a b l l' K F IHF]; [cbn; lra|]. cbn [combine map fst snd].
    match goal with |- Rsum (?a :: ?l) <= Rsum (?b :: ?m) => change (a + Rsum l <= b + Rsum m) end. apply Rplus_le_compat.
    + apply X; auto; left; auto.
    + apply IHF. intros; apply X; auto; right; auto.
  - apply IH. intros; eapply Hc; eauto; right; auto.
Qed.
Lemma pair_sum_opp L L' c : pair_sum L L' (fun S p p' => - c S p p') = - pair_sum L L' c.
Proof.
  unfold pair_sum. assert (X : forall (A : Type) (g : A -> R) l, Rsum (map (fun a => - g a) l) = - Rsum (map g l)).
  { intros A g l. induction l as [|a l IH]; [cbn; ring|]. cbn [map].
    match goal with |- Rsum (?a :: ?l) = - Rsum (?b :: ?m) => change (a + Rsum l = - (b + Rsum m)) end. rewrite IH. ring. }
  rewrite <- X. f_equal. apply map_ext. intros pp. apply X.
Qed.
(** So a nodal field divided by the nodal mass lies between any bounds on what the points show.  Laws under which a
    point keeps its mass. *)
Lemma p_C76_between : forall uf fill (s s' : state R) f k lo hi, proper (pG (sP s)) -> grid_ok (pG (sP s)) (sG s) -> shut (sP s) ->
  all_live (sL s) (fun ph p => in_dom (pG (sP s)) (px p) /\ 0 <= pm p) ->
  (forall ph, In ph (sL s) -> s_law (ph_sol ph) <> Rigid /\ s_law (ph_sol ph) <> Dp /\ s_law (ph_sol ph) <> DpRate /\
     s_law (ph_sol ph) <> ElasticTime) ->
  time_march uf fill s = Ok s' -> f <> Fgammadot ->
  all_live (sL s') (fun ph p => lo <= shown (p_dt (sP s)) (s_law (ph_sol ph)) f p <= hi) ->
  lo * nth k (gm (sG s')) 0 <= nth k (sget f (sG s')) 0 <= hi * nth k (gm (sG s')) 0.
Proof.
  intros uf fill s s' f k lo hi HP HG HS HL HN E Hf HB.
  assert (HD : all_live (sL s) (fun _ p => in_dom (pG (sP s)) (px p))) by (intros ph p A B; apply (HL ph p A B)).
  rewrite (p_C76_step uf fill s s' HP HG HS ltac:(intros ph p A B; destruct (HL ph p A B); destruct (HN ph A) as (_ & X & Y & _); auto) E f k Hf).
  rewrite (march_mass uf fill s s' HP HG HD HS E k).
  pose proof (march_points uf fill s s' HP HG HD HS ltac:(intros ph A; apply (HN ph A)) E) as HM.
  split.
  - apply Ropp_le_cancel. rewrite <- pair_sum_opp.
    replace (- (lo * psum (sL s) (fun _ p => pm p * hat (pG (sP s)) (px p) k)))
      with (psum (sL s) (fun _ p => - lo * (pm p * hat (pG (sP s)) (px p) k))) by (rewrite psum_scal; ring).
    refine (pair_sum_le _ _ _ _ _ HM _). intros ph p ph' p' H1 H2 H3 H4 (EM & _) H5. cbv beta.
    rewrite (EM ltac:(apply (HN ph H1))). destruct (HB ph' p' H3 H4) as [B1 B2]. rewrite H5 in B1, B2.
    destruct (HL ph p H1 H2) as [_ M]. pose proof (hat_nonneg (pG (sP s)) (px p) k) as Hh.
    assert (0 <= pm p * hat (pG (sP s)) (px p) k) by nra. nra.
  - rewrite <- psum_scal. refine (pair_sum_le _ _ _ _ _ HM _). intros ph p ph' p' H1 H2 H3 H4 (EM & _) H5. cbv beta.
    rewrite (EM ltac:(apply (HN ph H1))). destruct (HB ph' p' H3 H4) as [B1 B2]. rewrite H5 in B1, B2.
    destruct (HL ph p H1 H2) as [_ M]. pose proof (hat_nonneg (pG (sP s)) (px p) k) as Hh.
    assert (0 <= pm p * hat (pG (sP s)) (px p) k) by nra. nra.
Qed.
Lemma all_live_bounded (g : phase R -> particle R -> R) (L : list (phase R)) : exists lo hi, all_live L (fun ph p => lo <= g ph p <= hi).
Proof.
  induction L as [|ph L (lo & hi & IH)]; [exists 0, 0; intros ? ? []|].
  assert (Y : exists a b, forall p, In p (live ph) -> a <= g ph p <= b).
  { generalize (live ph). intros l. induction l as [|p l (a & b & H)]; [exists 0, 0; intros ? []|].
    exists (Rmin a (g ph p)), (Rmax b (g ph p)). intros q [<-|Hq].
    - split; [apply Rmin_r|apply Rmax_r].
    - specialize (H q Hq). split; [apply Rle_trans with a; [apply Rmin_l|lra]|apply Rle_trans with b; [lra|apply Rmax_l]]. }
  destruct Y as (a & b & Y). exists (Rmin a lo), (Rmax b hi). intros q p [<-|Hq] Hp.
  - specialize (Y p Hp). split; [apply Rle_trans with a; [apply Rmin_l|lra]|apply Rle_trans with b; [lra|apply Rmax_l]].
  - specialize (IH q p Hq Hp). cbv beta in IH. split; [apply Rle_trans with lo; [apply Rmin_r|lra]|apply Rle_trans with hi; [lra|apply Rmax_r]].
Qed.
Example x_C76_between : forall uf fill, exists (s s' : state R) lo hi, proper (pG (sP s)) /\ grid_ok (pG (sP s)) (sG s) /\ shut (sP s) /\
  all_live (sL s) (fun ph p => in_dom (pG (sP s)) (px p) /\ 0 <= pm p) /\
  (forall ph, In ph (sL s) -> s_law (ph_sol ph) <> Rigid /\ s_law (ph_sol ph) <> Dp /\ s_law (ph_sol ph) <> DpRate /\
     s_law (ph_sol ph) <> ElasticTime) /\
  time_march uf fill s = Ok s' /\
  all_live (sL s') (fun ph p => lo <= shown (p_dt (sP s)) (s_law (ph_sol ph)) Fpressure p <= hi).
Proof.
  intros uf fill. set (B := ex_box (T := R)).
  destruct (grid_init_ok ex_gridp B ex_proper) as (G & EG & OK).
  pose proof (ex_ready B G EG OK eq_refl eq_refl eq_refl Elastic (or_introl eq_refl)) as HR.
  destruct (march_total uf fill _ HR) as [s' E].
  destruct (all_live_bounded (fun ph p => shown (p_dt (sP (start (ex_params B) G Elastic))) (s_law (ph_sol ph)) Fpressure p) (sL s')) as (lo & hi & HX).
  exists (start (ex_params B) G Elastic), s', lo, hi.
  split; [exact ex_proper|]. split; [exact OK|]. split; [repeat split; reflexivity|].
  split. { intros ph p Hin Hp. split; [exact (ex_dom Elastic ph p Hin Hp)|]. destruct Hin as [<-|[]]. destruct Hp as [<-|[<-|[]]]; cbn; lra. }
  split; [intros ph [<-|[]]; repeat split; discriminate|]. split; [exact E|exact HX].
Qed.

(** What the elastic and von Mises laws show: the trace of the stress from before the increment, positive in tension;
    the elastic_time and Drucker-Prager rate laws show it positive in compression. *)
Lemma p_C76_values : forall P S0 S ip (p p' : particle R) (G G' : grid R), apply_law P S0 S ip p G = Ok (p', G') ->
  (s_law S = Elastic \/ s_law S = VonMises -> ppressure p' = tr3 (pstress p) / 3 /\ psigmav p' = yy (pstress p) /\
     psigmah p' = xx (pstress p) /\ pgammadot p' = frob (deviator (pdstrain p))) /\
  (s_law S = ElasticTime -> ppressure p' = - tr3 (pstress p) / 3 /\ psigmav p' = - yy (pstress p) /\
     psigmah p' = - xx (pstress p) /\ pgammadot p' = frob (deviator (pdstrain p))) /\
  (s_law S = DpRate -> shown (p_dt P) DpRate Fpressure p' = - (xx (pstress p) + yy (pstress p)) / 2 /\
     shown (p_dt P) DpRate Fdev p' = in_plane_q (pstress p)).
Proof.
  assert (FD : forall e : M3 R, sqrt (msum (mmap nsq (msub e (mdivs (mscale (trace e) eye) n3)))) = frob (deviator e)).
  { intros e. rewrite <- mnorm_frob. unfold mnorm. cbn -[sqrt]. f_equal. unfold deviator, msum, mmap, nsq, tr3. cbn. field. }
  intros P S0 S ip p p' G G' E. unfold apply_law in E.
  split; [|split].
  - intros [EL|EL]; rewrite EL in E; [unfold elastic in E|unfold von_mises in E]; pbinds E; apply okp_inj in E; destruct E as [<- _];
      (split; [reflexivity|split; [reflexivity|split; [reflexivity|exact (FD (pdstrain p))]]]).
  - intros EL; rewrite EL in E. unfold elastic_time in E. pbinds E. apply okp_inj in E. destruct E as [<- _].
    (split; [reflexivity|split; [reflexivity|split; [reflexivity|exact (FD (pdstrain p))]]]).
  - intros EL; rewrite EL in E. unfold dp_rate in E. pbinds E. destruct dp_rate_guts as [ds [p1 q1]]. pbinds E.
    apply okp_inj in E. destruct E as [<- _]. split; reflexivity.
Qed.
Example x_C76_values : forall l, In l [Elastic; VonMises; ElasticTime; DpRate] ->
  exists P S (p p' : particle R) (G G' : grid R), s_law S = l /\ apply_law P S S 0 p G = Ok (p', G') /\ tr3 (pstress p) = 5.
Proof.
  intros l Hl. destruct (grid_init_ok (ex_gridp (T := R)) ex_bounds ex_proper) as (G0 & _ & HG0).
  destruct (run_law l 0 ltac:(cbn in *; tauto) ex_p_loc G0 ex_p_located eq_refl) as (p' & G' & E).
  eexists _, _, _, p', _, G'. split; [|split; [exact E|]]; [reflexivity|]. unfold tr3. cbn. lra.
Qed.

(** Hence "pressure" has no single sign convention: under one and the same stress the elastic law shows a positive
    and the elastic_time law a negative value. *)
Lemma p_C76_sign_refuted : ~ forall P S0 S1 S2 ip (p p1 p2 : particle R) (G G1 G2 : grid R),
  apply_law P S0 S1 ip p G = Ok (p1, G1) -> apply_law P S0 S2 ip p G = Ok (p2, G2) ->
  s_law S1 = Elastic -> s_law S2 = ElasticTime -> 0 <= ppressure p1 -> 0 <= ppressure p2.
Proof.
  intros H. destruct (grid_init_ok (ex_gridp (T := R)) ex_bounds ex_proper) as (G0 & _ & HG0).
  destruct (run_law Elastic 0 ltac:(cbn; tauto) ex_p_loc G0 ex_p_located eq_refl) as (p1 & G1 & E1).
  destruct (run_law ElasticTime 0 ltac:(cbn; tauto) ex_p_loc G0 ex_p_located eq_refl) as (p2 & G2 & E2).
  assert (T5 : tr3 (pstress ex_p_loc) = 5) by (unfold tr3; cbn; lra).
  pose proof (p_C76_values _ _ _ _ _ _ _ _ E1) as (A & _). destruct (A (or_introl eq_refl)) as (A1 & _). rewrite T5 in A1.
  pose proof (p_C76_values _ _ _ _ _ _ _ _ E2) as (_ & B & _). destruct (B eq_refl) as (B1 & _). rewrite T5 in B1.
  assert (E2' : apply_law (ex_params ex_bounds) (ex_solid_sc Elastic) (ex_solid_sc ElasticTime) 0 ex_p_loc (wipe (ex_params ex_bounds) G0) = Ok (p2, G2))
    by exact E2.
  specialize (H _ _ _ _ _ _ _ _ _ _ _ E1 E2' eq_refl eq_refl). rewrite A1, B1 in H. specialize (H ltac:(lra)). lra.
Qed.

Lemma pair_sum_psum (L L' : list (phase R)) Q c (d : phase R -> particle R -> R) : Prel Q L L' ->
  (forall ph p p', In ph L -> In p (live ph) -> Q ph p p' -> c (ph_sol ph) p p' = d ph p) -> pair_sum L L' c = psum L d.
Proof.
  intros H Hc. apply Rle_antisym.
  - apply (pair_sum_le _ _ Q); auto. intros ph p ph' p' A B _ _ D _. right. apply Hc; auto.
  - apply Ropp_le_cancel. rewrite <- pair_sum_opp. replace (- psum L d) with (psum L (fun ph p => - 1 * d ph p)) by (rewrite psum_scal; ring).
    apply (pair_sum_le _ _ Q); auto. intros ph p ph' p' A B _ _ D _. rewrite (Hc ph p p' A B D). lra.
Qed.
(** A step of an elastic or von Mises body leaves in the pressure field, at every node, the mass-weighted sum of the
    mean stress the points had before the step: the field lags one step behind the stress. *)
Lemma p_C76_pressure : forall uf fill (s s' : state R), proper (pG (sP s)) -> grid_ok (pG (sP s)) (sG s) -> shut (sP s) ->
  all_live (sL s) (fun ph p => in_dom (pG (sP s)) (px p)) ->
  (forall ph, In ph (sL s) -> s_law (ph_sol ph) = Elastic \/ s_law (ph_sol ph) = VonMises) ->
  time_march uf fill s = Ok s' -> forall k,
  nth k (f_pressure (sG s')) 0 =
    psum (sL s) (fun _ p => hat (pG (sP s)) (px p) k * pm p * (tr3 (pstress p) / 3)).
Proof.
  intros uf fill s s' HP HG HS HD HL E k. pose proof HS as (Hs & Hc & _).
  change (f_pressure (sG s')) with (sget Fpressure (sG s')).
  rewrite (p_C76_step uf fill s s' HP HG HS) with (k := k); [| |exact E|discriminate].
  2:{ intros ph p A B. split; [exact (HD ph p A B)|]. destruct (HL ph A) as [-> | ->]; split; discriminate. }
  destruct (march_stages uf fill s s' HP HG HD Hs Hc E)
    as (S0 & L1 & L3 & L4 & L5 & G1 & G3 & G4 & G5 & G6 & _ & _ & R1 & R3 & EP & FP & ES & R4 & _ & LO & EF & LF & EB & _ & _ & EM & _ & EG & RM & EI).
  set (P := sP s <| p_loads := uf (sP s) |>) in *.
  assert (EI' : L5 = sL s') by (rewrite (shut_inout P L5) in EI by exact HS; injection EI; auto). subst L5.
  assert (R5 : Lrel (fun ph p p' => s_law (ph_sol ph) = Elastic \/ s_law (ph_sol ph) = VonMises ->
     pm p' = pm p /\ ppressure p' = tr3 (pstress p) / 3) L3 L4).
  { unfold stress_strain in ES. pbinds ES. change (cyclic_lr (pB P)) with (cyclic_lr (pB (sP s))) in ES. rewrite Hc in ES. injection ES as <- <-.
    match goal with E : points _ _ _ = Ok _ |- _ => apply (points_rel _ (fun _ => True) (fun ph p p' => s_law (ph_sol ph) = Elastic \/ s_law (ph_sol ph) = VonMises ->
       pm p' = pm p /\ ppressure p' = tr3 (pstress p) / 3)) in E; [tauto|exact I|] end.
    intros j ph p Ga p' Ga' _ _ _ X. split; [exact I|]. intros EL. change (stress_one P a j ph p Ga = Ok (p', Ga')) in X.
    pose proof (stress_one_rel _ _ _ _ _ _ _ _ X) as (_ & _ & _ & XM).
    split; [apply XM; destruct EL as [-> | ->]; discriminate|].
    unfold stress_one, update_stress in X. pbinds X. injection X as <- <-.
    match goal with E : apply_law _ _ _ _ _ _ = Ok _ |- _ => apply p_C76_values in E; destruct E as (V & _); destruct (V EL) as (V1 & _) end.
    match goal with E : update_strain _ _ _ = Ok _ |- _ => apply strain_frame in E; rewrite E in V1 end. exact V1. }
  apply (pair_sum_psum _ _ (fun ph p p' => s_law (ph_sol ph) = Elastic \/ s_law (ph_sol ph) = VonMises ->
     pm p' = pm p /\ ppressure p' = tr3 (pstress p) / 3)).
  2:{ intros ph p p' A B Q. destruct (Q (HL ph A)) as [-> Q2]. cbn [shown]. destruct (HL ph A) as [-> | ->]; cbn [shown]; rewrite Q2; ring. }
  clear - R1 R3 R5 RM.
  unfold Prel. revert L3 L4 R3 R5 RM. revert R1. generalize (sL s) (sL s'). intros l l' R1. revert l'.
  induction R1 as [|ph0 ph1 la lb (S1 & N1 & _ & F1 & K1) R1 IH]; intros l' L3 L4 R3 R5 RM.
  { inversion R3; subst. inversion R5; subst. inversion RM; subst. constructor. }
  inversion R3 as [|? ph3 ? lc (S3 & N3 & _ & F3 & K3) R3']; subst. inversion R5 as [|? ph4 ? ld (S4 & N4 & _ & F4 & K4) R5']; subst.
  inversion RM as [|? ph5 ? le (S5 & N5 & K5 & F5 & _) RM']; subst. constructor; [|eapply IH; eauto].
  split; [congruence|]. split; [congruence|]. split; [congruence|].
  replace (ph_sol ph3) with (ph_sol ph0) in F4 by congruence. replace (ph_sol ph4) with (ph_sol ph0) in F5 by congruence.
  pose proof (Forall2_comp _ _ _ _ _ (Forall2_comp _ _ _ _ _ (Forall2_comp _ _ _ _ _ F1 F3) F4) F5) as F.
  eapply Forall2_imp; [|exact F]. cbv beta. intros p p5 (p4 & (p3 & (p1 & (b & ->) & (_ & ->)) & Q) & M) HE.
  destruct (Q HE) as [Q1 Q2]. assert (is_rigid (s_law (ph_sol ph0)) = false) as Z by (destruct HE as [-> | ->]; reflexivity).
  rewrite Z in M. destruct M as (-> & _). split; [exact Q1|exact Q2].
Qed.
Example x_C76_pressure : forall uf fill, exists s s' : state R, proper (pG (sP s)) /\ grid_ok (pG (sP s)) (sG s) /\ shut (sP s) /\
  all_live (sL s) (fun ph p => in_dom (pG (sP s)) (px p)) /\
  (forall ph, In ph (sL s) -> s_law (ph_sol ph) = Elastic \/ s_law (ph_sol ph) = VonMises) /\
  time_march uf fill s = Ok s' /\
  psum (sL s) (fun _ p => hat (pG (sP s)) (px p) 0 * pm p * (tr3 (pstress p) / 3)) <> 0.
Proof.
  intros uf fill. set (B := ex_box (T := R)).
  destruct (grid_init_ok ex_gridp B ex_proper) as (G & EG & OK).
  pose proof (ex_ready B G EG OK eq_refl eq_refl eq_refl Elastic (or_introl eq_refl)) as HR.
  destruct (march_total uf fill _ HR) as [s' E].
  exists (start (ex_params B) G Elastic), s'.
  split; [exact ex_proper|]. split; [exact OK|]. split; [repeat split; reflexivity|]. split; [exact (ex_dom Elastic)|].
  split; [intros ph [<-|[]]; left; reflexivity|]. split; [exact E|].
  unfold psum. cbn [sL start ex_L map live ph_n ph_pts ex_phase firstn Rsum fold_right].
  assert (T5 : tr3 (pstress (ex_p1 (T := R))) = 5) by (unfold tr3; cbn; lra).
  assert (T0 : tr3 (pstress (ex_p2 (T := R))) = 0) by (unfold tr3; cbn; lra).
  assert (M1 : pm (ex_p1 (T := R)) = 1 \/ pm (ex_p1 (T := R)) = 2) by (cbn; lra).
  rewrite T5, T0.
  assert (HH : hat (pG (sP (start (ex_params B) G Elastic))) (px ex_p1) 0 = 1/4).
  { unfold hat, tent, node_x, node_y, cell_w, cell_h. cbn.
    replace ((1 / 2 - (0 + 0 * ((3 - 0) / (1 + 1 + 1 + 1 - 1)))) / ((3 - 0) / (1 + 1 + 1 + 1 - 1))) with (1/2) by field.
    replace ((1 / 2 - (0 + 0 * ((2 - 0) / (1 + 1 + 1 - 1)))) / ((2 - 0) / (1 + 1 + 1 - 1))) with (1/2) by field.
    rewrite Rabs_pos_eq by lra. rewrite Rmax_right by lra. lra. }
  rewrite HH. destruct M1 as [-> | ->]; lra.
Qed.

