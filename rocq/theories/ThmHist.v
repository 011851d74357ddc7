(** * Histories: particle bookkeeping, mass, symmetry, independence of the old grid: C17, C33, C34, C52. *)
From Coq Require Import ZArith Reals List Bool Arith Lra Lia.
From Verif Require Import State NumR Spec LibList LibR ModelGrid ModelConstit ModelParticle ModelMPList ModelIntegr
  ModelMain SpecStep ProofsGrid ProofsMap ProofsP2G ProofsLaws ProofsSym ProofsInOut ProofsHist Concrete
  ThmMapping ThmLaws ThmInOut.
Import ListNotations.
Local Open Scope R_scope.

(** ** C33 *)
Lemma stable_any T (N : Num T) : stable (T := T) (fun _ _ _ => True) (fun _ _ _ => True).
Proof. constructor; auto. Qed.
Lemma counted_all T (L : list (phase T)) : counted L <-> all_counted L.
Proof. unfold counted, all_counted. rewrite Forall_forall. reflexivity. Qed.

(** [P.S[p].n] is the number of points of the phase after any number of steps,
    whatever enters or leaves ... *)
Lemma p_C33_count : forall (T : Type) (N : Num T) uf fill (s s' : state T), counted (sL s) -> reach uf fill s s' ->
  counted (sL s') /\ length (sL s') = length (sL s).
Proof.
  intros T N uf fill s s' C R. apply counted_all in C.
  pose proof (reach_ev uf fill _ _ s s' (stable_any T N) C R) as V. split.
  - apply counted_all. eapply Lev_counted; eauto.
  - apply Forall2_len in V. auto.
Qed.
(** ... and it is when the simulation starts. *)
Lemma p_C33_initial : forall (T : Type) (N : Num T) (P : params T) sols L, mplist_init P sols = Ok L -> counted L.
Proof.
  intros T N P sols L E. unfold mplist_init in E. pbinds E. apply counted_all. apply mapM_Forall2 in E. clear E0.
  induction E as [|[[So sv] pts] ph sols' L' E _ IH]; constructor.
  - pbinds E. injection E as <-. cbn. apply mapM_Forall2 in E0. apply Forall2_len in E0. exact E0.
  - exact IH.
Qed.

(** ** C34 *)
(** The mass and volume of a point; the mass is left out for elastic_time. *)
Definition same_body {T} (S : solid T) (p p' : particle T) : Prop :=
  pV p' = pV p /\ (s_law S <> ElasticTime -> pm p' = pm p).
Definition entering {T} `{Num T} (P : gridp T) (S : solid T) (p : particle T) : Prop :=
  pV p = (s_A S * thickness P)%num /\ (s_law S <> ElasticTime -> pm p = (s_rho S * (s_A S * thickness P))%num).

Lemma stable_body T (N : Num T) : stable (T := T) same_body entering.
Proof.
  unfold same_body, entering. constructor.
  - auto.
  - intros S p q r [A B] [C D]. split; [congruence|]. intros Q. rewrite D, B; auto.
  - intros P S p q [A B] [C D]. split; [congruence|]. intros Q. rewrite B, D; auto.
  - intros S P k p. rewrite grav_frame. destruct p; auto.
  - intros S P G p p' E. rewrite (ref_frame _ _ _ _ E). destruct p; auto.
  - intros S G p p' E. rewrite (basis_frame _ _ _ E). destruct p; auto.
  - intros P S0 S k p p1 p2 G G' E1 E2. apply strain_frame in E1. unfold update_stress in E2. pbinds E2. injection E2 as <- <-.
    apply law_effect in E. destruct E as (LF & _ & _ & LM & _). cbn [pV pm set]. split.
    + rewrite LF, E1. destruct p; reflexivity.
    + intros Q. change (pm b = pm p). rewrite (LM Q), E1. destruct p; reflexivity.
  - intros S P G p p' E. rewrite (phi_frame _ _ _ _ E). destruct p; auto.
  - intros S p. destruct p; auto.
  - intros S P G p sv p' sv' E. rewrite (move_frame _ _ _ _ _ _ E). destruct p; auto.
  - intros S P p p' E. rewrite (rigid_frame _ _ _ E). destruct p; auto.
  - intros S P p. rewrite wrap_frame. destruct p; auto.
  - intros P S0 S x y p E. unfold particle_init in E. cbv zeta in E. pbinds E. injection E as <-. cbn. auto.
Qed.

(** After any number of steps, the points of a phase are some of those it had
    (all, without outlets), with the volume and mass they had, followed by
    points that entered (none, without inlets), with the volume and mass they
    entered with. *)
Lemma p_C34_mass_and_volume : forall (T : Type) (N : Num T) uf fill (s s' : state T), counted (sL s) -> reach uf fill s s' ->
  Forall2 (fun ph ph' => ph_sol ph' = ph_sol ph /\
    exists sel kept new, subseq sel (ph_pts ph) /\ ph_pts ph' = kept ++ new /\
      Forall2 (same_body (ph_sol ph)) sel kept /\ Forall (entering (pG (sP s)) (ph_sol ph)) new /\
      (outlet_left (pB (sP s)) = false -> outlet_bottom (pB (sP s)) = false -> sel = ph_pts ph) /\
      (inlet_right (pB (sP s)) = false -> inlet_top (pB (sP s)) = false -> new = []))
    (sL s) (sL s').
Proof.
  intros T N uf fill s s' C R. apply counted_all in C.
  pose proof (reach_ev uf fill _ _ s s' (stable_body T N) C R) as V. cbv zeta in V.
  revert V. unfold Levolves. generalize (sL s) as L, (sL s') as L'. induction 1 as [|ph ph' L L' V _ IH]; constructor; [|exact IH].
  destruct V as (A & _ & sel & kept & new & B & D & E & F & G & I). split; [exact A|]. exists sel, kept, new.
  split; [exact B|]. split; [exact F|]. split; [exact D|]. split; [exact E|]. split; intros Q1 Q2.
  - apply G. rewrite Q1, Q2. reflexivity.
  - apply I. rewrite Q1, Q2. reflexivity.
Qed.

(** In a closed system the total mass never changes. *)
Lemma p_C34_total_mass : forall uf fill (s s' : state R), counted (sL s) -> reach uf fill s s' ->
  outlet_left (pB (sP s)) = false -> outlet_bottom (pB (sP s)) = false ->
  inlet_right (pB (sP s)) = false -> inlet_top (pB (sP s)) = false ->
  (forall ph, In ph (sL s) -> s_law (ph_sol ph) <> ElasticTime) ->
  psum (sL s') (fun _ p => pm p) = psum (sL s) (fun _ p => pm p) /\
  psum (sL s') (fun _ p => pV p) = psum (sL s) (fun _ p => pV p).
Proof.
  intros uf fill s s' C R O1 O2 I1 I2 HE.
  pose proof (p_C34_mass_and_volume _ _ uf fill s s' C R) as V.
  destruct (p_C33_count _ _ uf fill s s' C R) as [C' _].
  revert C C' HE V. generalize (sL s) as L, (sL s') as L'. intros L L' C C' HE V.
  induction V as [|ph ph' L L' V _ IH]; [split; reflexivity|].
  destruct V as (A & sel & kept & new & B & D & E & F & G & I). rewrite (G O1 O2) in E. rewrite (I I1 I2), app_nil_r in D.
  destruct IH as [IH1 IH2].
  { intros q Hq. apply C. right. exact Hq. } { intros q Hq. apply C'. right. exact Hq. } { intros q Hq. apply HE. right. exact Hq. }
  assert (HL : live ph = ph_pts ph) by (unfold live; rewrite (C ph) by (left; reflexivity); apply firstn_all).
  assert (HL' : live ph' = ph_pts ph') by (unfold live; rewrite (C' ph') by (left; reflexivity); apply firstn_all).
  assert (Q : Rsum (map pm (ph_pts ph')) = Rsum (map pm (ph_pts ph)) /\ Rsum (map pV (ph_pts ph')) = Rsum (map pV (ph_pts ph))).
  { rewrite D. assert (NE := HE ph (or_introl eq_refl)). clear - E NE.
    induction E as [|p q l m [V M] _ [IH1 IH2]]; [split; reflexivity|]. specialize (M NE). unfold Rsum in *. cbn [map fold_right]. rewrite IH1, IH2, V, M. split; reflexivity. }
  destruct Q as [Q1 Q2]. unfold psum, Rsum in *. cbn [map fold_right]. rewrite HL, HL'.
  split; (apply f_equal2; [assumption|assumption]).
Qed.

(** ** C17, along histories *)
Definition all_sym (p : particle R) : Prop := symmetric (pstress p) /\ symmetric (pdev p) /\ symmetric (pdstress p).

Lemma init_sym P S0 S x y phi p : particle_init P S0 S x y phi = Ok p -> all_sym p.
Proof.
  intros E. unfold particle_init in E. cbv zeta in E. pbinds E. injection E as <-. unfold all_sym. cbn [pstress pdev pdstress].
  assert (Q : symmetric b).
  { unfold init_state in E0. destruct (p_pressure P); cbv zeta in E0; pbinds E0; injection E0 as <- <-.
    all: first [apply init_stress_sym; unfold symmetric; cbn [xy yx xz zx yz zy mscale mmap mones eye] | unfold symmetric; cbn [xy yx xz zx yz zy m0]].
    all: split; [|split]; reflexivity. }
  split; [exact Q|]. split; unfold symmetric in *; cbn; unR; destruct Q as (A & B & C); repeat split; rewrite ?A, ?B, ?C; reflexivity.
Qed.

Lemma stable_sym : stable (T := R) (fun _ p p' => all_sym p -> all_sym p') (fun _ _ p => all_sym p).
Proof.
  constructor.
  - auto.
  - auto.
  - auto.
  - intros S P k p. rewrite grav_frame. destruct p; auto.
  - intros S P G p p' E. rewrite (ref_frame _ _ _ _ E). destruct p; auto.
  - intros S G p p' E. rewrite (basis_frame _ _ _ E). destruct p; auto.
  - intros P S0 S k p p1 p2 G G' E1 E2 (A & B & C). unfold all_sym. eapply p_C17_stress_symmetric; eauto.
  - intros S P G p p' E. rewrite (phi_frame _ _ _ _ E). destruct p; auto.
  - intros S p. destruct p; auto.
  - intros S P G p sv p' sv' E. rewrite (move_frame _ _ _ _ _ _ E). destruct p; auto.
  - intros S P p p' E. rewrite (rigid_frame _ _ _ E). destruct p; auto.
  - intros S P p. rewrite wrap_frame. destruct p; auto.
  - intros P S0 S x y p E. eapply init_sym; eauto.
Qed.

(** After any number of steps from any state whose stresses are symmetric, for
    every law, every stress is symmetric. *)
Lemma p_C17_history : forall uf fill (s s' : state R), counted (sL s) -> reach uf fill s s' ->
  (forall ph p, In ph (sL s) -> In p (ph_pts ph) -> all_sym p) ->
  forall ph p, In ph (sL s') -> In p (ph_pts ph) -> symmetric (pstress p).
Proof.
  intros uf fill s s' C R H0. apply counted_all in C.
  pose proof (reach_ev uf fill _ _ s s' stable_sym C R) as V. cbv zeta in V. revert H0 V.
  unfold Levolves. generalize (sL s) as L, (sL s') as L'. intros L L' H0 V.
  induction V as [|ph ph' L L' V _ IH]; intros q p Hq Hp; [destruct Hq|].
  destruct Hq as [<-|Hq].
  - destruct V as (_ & _ & sel & kept & new & B & D & E & F & _). rewrite F in Hp. apply in_app_or in Hp.
    assert (Q : all_sym p); [|apply Q]. destruct Hp as [Hp|Hp].
    + assert (A : forall q, In q sel -> all_sym q) by (intros q Hq; apply (H0 ph q); [left; reflexivity|eapply subseq_in; eauto]).
      clear - D A Hp. induction D; [destruct Hp|]. destruct Hp as [<-|Hp]; [apply H, A; left; reflexivity|].
      apply IHD; [exact Hp|intros; apply A; right; assumption].
    + rewrite Forall_forall in E. auto.
  - eapply IH; eauto. intros ph1 p1 Q1. apply H0. right. exact Q1.
Qed.
(** A run from the constructed list of points needs no assumption. *)
Lemma p_C17_run : forall uf fill P G sols L s', mplist_init P sols = Ok L -> reach uf fill (mkState P G L) s' ->
  forall ph p, In ph (sL s') -> In p (ph_pts ph) -> symmetric (pstress p).
Proof.
  intros uf fill P G sols L s' E R. eapply p_C17_history; [|exact R|]; cbn [sL].
  - eapply p_C33_initial; eauto.
  - unfold mplist_init in E. pbinds E. apply mapM_Forall2 in E. clear E0 R.
    induction E as [|[[So sv] pts] ph sols' L' E _ IH]; intros q p Hq Hp; [destruct Hq|].
    destruct Hq as [<-|Hq]; [|eauto].
    pbinds E. injection E as <-. cbn in Hp. apply mapM_Forall2 in E0. clear - E0 Hp.
    induction E0 as [|[[x y] phi] q pts ps E _ IH]; [destruct Hp|]. destruct Hp as [<-|Hp]; [|auto].
    eapply init_sym; eauto.
Qed.

(** ** C52 *)
(** The geometry and masks of a grid. *)
Definition same_mesh {T} (G G' : grid T) : Prop :=
  gdx G = gdx G' /\ gdy G = gdy G' /\ gX G = gX G' /\ gY G = gY G' /\ gV G = gV G' /\
  bv G = bv G' /\ bh G = bh G' /\ btot G = btot G' /\ bconv G = bconv G'.
(** A step reads nothing from the old grid but its geometry and masks.  (The
    arrays [phim], [phi] exist only when grains segregate; the model has them
    always.) *)
Lemma p_C52_old_grid_irrelevant : forall (T : Type) (N : Num T) uf fill P (L : list (phase T)) G G', same_mesh G G' ->
  (p_seg P = false -> g_phim G = g_phim G' /\ g_phi G = g_phi G') ->
  time_march uf fill (mkState P G L) = time_march uf fill (mkState P G' L).
Proof.
  intros T N uf fill P L G G' (A & B & C & D & E & F & H & I & J) K. unfold time_march. cbn [sP sG sL].
  assert (W : wipe P G = wipe P G').
  { unfold wipe. rewrite A, B, C, D, E, F, H, I, J. destruct (p_seg P); [reflexivity|].
    destruct (K eq_refl) as [-> ->]. reflexivity. }
  rewrite W. reflexivity.
Qed.
