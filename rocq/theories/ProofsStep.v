(** * One time step: when it succeeds, and what its stages do. *)
From Coq Require Import ZArith List Bool Arith Lia Reals Lra.
From Verif Require Import State NumR LibR LibList Spec SpecStep ModelGrid ModelConstit ModelParticle ModelMPList
  ModelIntegr ModelMain ProofsGrid ProofsMap ProofsP2G ProofsWalls ProofsLaws ProofsInOut ProofsHist Concrete ThmMapping ThmWalls ThmLaws ThmInOut.
Import ListNotations.
Local Open Scope R_scope.

(** ** Laws with their attributes succeed *)
Lemma law_total P (S0 S : solid R) ip p G : reaches P p -> slens (nodes (pG P)) G -> equipped S0 S ->
  exists p' G', apply_law P S0 S ip p G = Ok (p', G').
Proof.
  intros HR HS HE.
  assert (V : forall MP fs, pnstar MP = pnstar p -> exists G', visualise P MP fs G = Ok G').
  { intros MP fs EN. apply visualise_total with (n := nodes (pG P)); [exact HS|]. rewrite EN. exact HR. }
  unfold equipped, has, scalar_attr in HE. unfold apply_law. destruct (s_law S); try contradiction.
  - do 2 eexists; reflexivity.
  - destruct HE as (H1 & H2). unfold elastic.
    destruct (s_K S) as [K|]; [|congruence]. destruct (s_G S) as [g|]; [|congruence]. cbn [attr bind].
    match goal with |- context [visualise P ?M ?f G] => destruct (V M f eq_refl) as [G' ->] end. cbn [bind]. eauto.
  - destruct HE as (H1 & H2 & H3 & H4). unfold elastic_time.
    destruct (s_t_0 S) as [t0|]; [|congruence]. destruct (s_rho_f S) as [rf|]; [|congruence].
    destruct (s_E_0 S) as [E0|]; [|congruence]. destruct (s_nu S) as [nu|]; [|congruence]. cbn [attr bind].
    destruct (Nat.eqb ip 0); [destruct (_ <? _)%num|]; cbn [bind];
    match goal with |- context [visualise P ?M ?f G] => destruct (V M f eq_refl) as [G' ->] end; cbn [bind]; eauto.
  - destruct HE as (H1 & H2 & H3 & H4). unfold von_mises.
    destruct (s_K S) as [K|]; [|congruence]. destruct (s_G S) as [g|]; [|congruence].
    destruct (s_k S) as [k|]; [|congruence]. destruct (s_s S) as [s|]; [|congruence]. cbn [attr bind].
    match goal with |- context [visualise P ?M ?f G] => destruct (V M f eq_refl) as [G' ->] end. cbn [bind]. eauto.
  - destruct HE as (H1 & H2 & H3 & H4 & H5 & H6). unfold dp_rate.
    destruct (s_mu S0) as [mu0|]; [|congruence]. destruct (s_G S0) as [g|]; [|congruence].
    destruct (s_t_star S0) as [t|]; [|congruence]. destruct (s_K S0) as [K|]; [|congruence].
    destruct (s_beta S0) as [b|]; [|congruence]. destruct (s_mu S) as [mu|]; [|congruence]. cbn [attr bind].
    destruct (dp_rate_guts _ _ _ _ _ _ _) as [ds [pp qq]].
    match goal with |- context [visualise P ?M ?f G] => destruct (V M f eq_refl) as [G' ->] end. cbn [bind]. eauto.
  - destruct HE as (H1 & H2 & H3). unfold viscous.
    destruct (s_K S) as [K|]; [|congruence]. destruct (s_mu_s S) as [m|]; [|congruence].
    destruct (s_mu_v S) as [v|]; [|congruence]. cbn [attr bind].
    match goal with |- context [visualise P ?M ?f G] => destruct (V M f eq_refl) as [G' ->] end. cbn [bind]. eauto.
  - destruct HE as (H1 & H2 & (m0 & H3) & H4 & H5 & H6). unfold bingham. rewrite H3.
    destruct (s_K S) as [K|]; [|congruence]. destruct (s_gamma_c S) as [g|]; [|congruence].
    destruct (s_mu_s S) as [m|]; [|congruence]. destruct (s_tau_0 S) as [t|]; [|congruence].
    destruct (s_mu_v S) as [v|]; [|congruence]. cbn [attr bind sc_scalar].
    destruct (_ <=? _)%num; cbn [bind];
    match goal with |- context [visualise P ?M ?f G] => destruct (V M f eq_refl) as [G' ->] end; cbn [bind]; eauto.
  - destruct HE as (H1 & H2 & H3 & (i0 & H4) & H5). unfold ken_kamrin. rewrite H4.
    destruct (s_K S) as [K|]; [|congruence]. destruct (s_mu_s S) as [m|]; [|congruence].
    destruct (s_mu_2 S) as [m2|]; [|congruence].
    destruct (s_mu_v S) as [v|]; [|congruence]. cbn [attr bind sc_scalar].
    match goal with |- context [visualise P ?M ?f G] => destruct (V M f eq_refl) as [G' ->] end. cbn [bind]. eauto.
Qed.

(** ** Totality of the stages *)
Lemma cyc_total {A} (add : A -> A -> A) (P : gridp R) (l : list A) (d : A) : proper P -> length l = nodes P ->
  exists l', cyc add (nx P) l = Ok l' /\ length l' = nodes P.
Proof.
  intros (Hx & _) Hl. destruct (p_C09_make_cyclic A add d (nx P) (ny P) l) as (l' & E & L & _); [lia|exact Hl|].
  exists l'. auto.
Qed.
Lemma sset_slens n f l (G : grid R) : slens n G -> length l = n -> slens n (sset f l G) /\ vis_frame G (sset f l G).
Proof.
  intros H E. split; [|destruct G; destruct f; reflexivity]. intros f'. pose proof (H f').
  destruct f, f'; cbn in *; auto.
Qed.
Lemma cyc_fields_total P fs : forall (G : grid R), proper (pG P) -> slens (nodes (pG P)) G ->
  exists G', cyc_fields P fs G = Ok G' /\ slens (nodes (pG P)) G' /\ vis_frame G G'.
Proof.
  induction fs as [|f fs IH]; intros G HP HS.
  - exists G. split; [reflexivity|]. split; [exact HS|apply vis_frame_refl].
  - destruct (cyc_total nadd (pG P) (sget f G) 0 HP (HS f)) as (l & E & L).
    destruct (sset_slens _ f l G HS L) as [S1 F1].
    destruct (IH (sset f l G) HP S1) as (G' & E' & S' & F').
    exists G'. split; [|split; [exact S'|exact (vis_frame_trans _ _ _ F1 F')]].
    unfold cyc_fields in *. cbn [foldM]. rewrite E. cbn [bind]. exact E'.
Qed.

(** What the stress update may change in a particle. *)
Definition strained (p p' : particle R) : Prop :=
  law_frame (p <| pdstrain := pdstrain p' |> <| pL := pL p' |> <| pstrain := pstrain p' |>) p'.

Definition stress_one P S0 k (ph : phase R) p G :=
  p <- update_strain P G p ;; update_stress P S0 (ph_sol ph) k p G.

Lemma stress_one_rel P S0 k ph p (G : grid R) p' G' : stress_one P S0 k ph p G = Ok (p', G') ->
  strained p p' /\ vis_frame G G' /\ (forall n, slens n G -> slens n G') /\
  (s_law (ph_sol ph) <> ElasticTime -> pm p' = pm p).
Proof.
  unfold stress_one. intros E. pbinds E. apply strain_frame in E0.
  unfold update_stress in E. pbinds E. injection E as <- <-.
  apply law_effect in E1. destruct E1 as (F & V & Sl & M & _). split.
  - unfold strained, law_frame in *. rewrite F. cbn. rewrite E0. destruct p; reflexivity.
  - split; [exact V|]. split; [exact Sl|]. intros HL. cbn. rewrite (M HL), E0. reflexivity.
Qed.

Lemma strained_reaches P p p' : strained p p' -> reaches P p -> reaches P p'.
Proof. unfold strained, law_frame. intros E. rewrite E. exact (fun H => H). Qed.

Lemma stress_strain_total P L (G : grid R) S0 : proper (pG P) -> sol0 L = Ok S0 -> enough L ->
  all_live L (fun ph p => reaches P p /\ equipped S0 (ph_sol ph)) ->
  slens (nodes (pG P)) G -> length (gm G) = nodes (pG P) -> length (gq G) = nodes (pG P) ->
  exists L' G', stress_strain P L G = Ok (L', G').
Proof.
  intros HP H0 He HA HS Lm Lq. unfold stress_strain. rewrite H0. cbn [bind].
  destruct (points_total (stress_one P S0) (fun G1 => slens (nodes (pG P)) G1 /\ vis_frame G G1) L G) as (L' & G' & E & S1 & F1).
  - exact He.
  - split; [exact HS|apply vis_frame_refl].
  - intros k ph p G1 Hin Hp (S1 & F1). destruct (HA ph p Hin Hp) as [HR HE].
    destruct (strain_total P G1 p HP HR) as [p1 E1].
    { rewrite F1. exact Lm. } { rewrite F1. exact Lq. }
    destruct (law_total P S0 (ph_sol ph) k p1 G1) as (p2 & G2 & E2); [|exact S1|exact HE|].
    { rewrite (strain_frame _ _ _ _ E1). exact HR. }
    assert (X : exists p3, stress_one P S0 k ph p G1 = Ok (p3, G2)).
    { unfold stress_one, update_stress. rewrite E1. cbn [bind]. rewrite E2. cbn [bind]. eauto. }
    destruct X as [p3 X]. exists p3, G2. split; [exact X|]. apply stress_one_rel in X.
    destruct X as (_ & V & Sl & _). split; [auto|]. exact (vis_frame_trans _ _ _ F1 V).
  - change (exists L'0 G'0, bind (points (stress_one P S0) L G) (fun '(L, G) =>
      if cyclic_lr (pB P) then bind (cyc_fields P [Fpressure; Fgammadot; Fdev; Fyield; Fmu_s; Fmu; FI] G) (fun G => Ok (L, G))
      else Ok (L, G)) = Ok (L'0, G'0)).
    rewrite E. cbn [bind]. destruct (cyclic_lr (pB P)); [|eauto].
    destruct (cyc_fields_total P [Fpressure; Fgammadot; Fdev; Fyield; Fmu_s; Fmu; FI] G' HP S1) as (G2 & E2 & _).
    rewrite E2. cbn [bind]. eauto.
Qed.

Lemma cyc_fields_frame P fs : forall (G G' : grid R), cyc_fields P fs G = Ok G' -> vis_frame G G'.
Proof.
  unfold cyc_fields. induction fs as [|f fs IH]; intros G G' E; cbn [foldM] in E.
  - injection E as <-. apply vis_frame_refl.
  - pbinds E. pbinds E0. injection E0 as <-. eapply vis_frame_trans; [|apply IH; exact E].
    destruct G; destruct f; reflexivity.
Qed.
Lemma stress_strain_rel P L (G : grid R) L' G' : stress_strain P L G = Ok (L', G') ->
  Lrel (fun ph p p' => strained p p' /\ (s_law (ph_sol ph) <> ElasticTime -> pm p' = pm p)) L L' /\ vis_frame G G'.
Proof.
  unfold stress_strain. intros E. pbinds E.
  match goal with H : points _ _ _ = Ok (?l, ?g) |- _ => rename H into EP; rename l into L1; rename g into G1 end.
  apply (points_rel (stress_one P a) (fun G1 => vis_frame G G1)
    (fun ph p p' => strained p p' /\ (s_law (ph_sol ph) <> ElasticTime -> pm p' = pm p)) L G L1 G1) in EP.
  - destruct EP as [V LR]. destruct (cyclic_lr (pB P)).
    + pbinds E. injection E as <- <-. split; [exact LR|]. eapply vis_frame_trans; [exact V|].
      eapply cyc_fields_frame; eauto.
    + injection E as <- <-. auto.
  - apply vis_frame_refl.
  - intros k ph p G2 p' G2' _ _ V X. apply stress_one_rel in X. destruct X as (X1 & X2 & _ & X3).
    split; [exact (vis_frame_trans _ _ _ V X2)|auto].
Qed.

Lemma forces_total P L (G : grid R) : proper (pG P) -> enough L -> all_live L (fun _ p => reaches P p) ->
  f_lens P G -> exists G', forces_all P L G = Ok G'.
Proof.
  intros HP He HA HF. unfold forces_all.
  destruct (points_r_total (fun _ _ p G => nodal_forces P p G) (f_lens P) L G He HF) as (G' & E & F').
  - intros k ph p G1 Hin Hp F1. destruct (four_total P (pnstar p)
      (fun G r n =>
         fi <- py_upd (gfi G) n (fun a => vadd a (vscale (pV p) (mv (pstress p) (Gr p r)))) ;;
         fe <- py_upd (gfe G) n (fun a => vadd a (vscale (Nr p r * pm p) (pb p))) ;;
         Ok (G <| gfi := fi |> <| gfe := fe |>)) (f_lens P) G1 F1) as (s' & E & I).
    + intros r t Hr (I1 & I2). destruct (HA ph p Hin Hp r Hr) as [c Hc].
      rewrite (py_upd_some _ _ c) by (rewrite I1; exact Hc). cbn [bind].
      rewrite (py_upd_some _ _ c) by (rewrite I2; exact Hc). cbn [bind].
      eexists. split; [reflexivity|]. split; cbn; rewrite upd_length; auto.
    + exists s'. split; [exact E|exact I].
  - rewrite E. cbn [bind]. destruct (cyclic_lr (pB P)); [|eauto]. destruct F' as [F1 F2]. unfold cyc_forces.
    destruct (cyc_total vadd (pG P) (gfi G') v0 HP F1) as (l1 & -> & _). cbn [bind].
    destruct (cyc_total vadd (pG P) (gfe G') v0 HP F2) as (l2 & -> & _). cbn [bind]. eauto.
Qed.

(** The frame of the two force stages and of the boundary conditions. *)
Definition force_frame (G G' : grid R) : Prop := G' = G <| gfi := gfi G' |> <| gfe := gfe G' |> <| gext := gext G' |>.
Lemma forces_frame P L (G G' : grid R) : proper (pG P) -> f_lens P G -> forces_all P L G = Ok G' ->
  frame_f G G' /\ f_lens P G'.
Proof.
  intros HP HF E. unfold forces_all in E. pbinds E.
  destruct (force_loop_spec P L G a HF E0) as (F & L1 & _). unfold frame_f in F.
  destruct (cyclic_lr (pB P)).
  - unfold cyc_forces in E. pbinds E. injection E as <-. split.
    + unfold frame_f. cbn. rewrite F. destruct G; reflexivity.
    + destruct L1 as [A B].
      destruct (cyc_total vadd (pG P) (gfi a) v0 HP A) as (l1 & Y1 & Z1).
      destruct (cyc_total vadd (pG P) (gfe a) v0 HP B) as (l2 & Y2 & Z2).
      rewrite Y1 in E1. rewrite Y2 in E2. injection E1 as <-. injection E2 as <-. split; cbn; auto.
  - injection E as <-. split; [|exact L1]. exact F.
Qed.
Lemma BCs_frame P rho (G G' : grid R) : BCs P rho G = Ok G' -> force_frame G G'.
Proof.
  unfold BCs. cbv zeta. intros E. destruct (p_aniso P && _)%bool; [discriminate|]. injection E as <-.
  unfold force_frame. destruct G. destruct (vertical_force (pB P)), (horizontal_force (pB P)); reflexivity.
Qed.
Lemma BCs_sized P rho (G G' : grid R) : sized (pG P) G -> BCs P rho G = Ok G' -> sized (pG P) G'.
Proof.
  unfold BCs, sized. cbv zeta. intros (S1 & S2 & S3 & S4 & S5 & S6 & S7 & S8) E.
  destruct (p_aniso P && _)%bool; [discriminate|]. injection E as <-.
  destruct (vertical_force (pB P)), (horizontal_force (pB P)); cbn [bv bh bconv gm gq gfi gfe gext set];
    do 6 (split; [assumption|]);
    rewrite ?zipw_length, ?combine_length, ?map_slice_length, ?zipw_length, ?combine_length, ?map_slice_length, ?S4, ?S7, ?S8, ?Nat.min_id; auto.
Qed.
Lemma BCs_total P rho (G : grid R) : p_aniso P = false \/ p_t P <> 0 -> exists G', BCs P rho G = Ok G'.
Proof.
  intros H. unfold BCs. cbv zeta.
  assert ((p_aniso P && (p_t P =? n0)%num)%bool = false) as ->; [|eauto].
  apply andb_false_iff. destruct H as [H|H]; [auto|right]. apply Reqb_false. exact H.
Qed.
Lemma um_total P (G : grid R) : (conveyor (pB P) = true -> has (p_v0 P)) -> exists G', update_momentum P G = Ok G'.
Proof.
  intros H. unfold update_momentum. cbv zeta.
  destruct (if roughness (pB P) then _ else _) as [[v h] qd].
  destruct (conveyor (pB P)); [|eauto]. destruct (p_v0 P); [|exfalso; apply H; auto]. cbn [attr bind]. eauto.
Qed.

Lemma move_all_total P (G : grid R) L : enough L -> all_live L (fun _ p => reaches P p) ->
  (forall ph, In ph L -> s_law (ph_sol ph) = Rigid -> has (p_intruder_v P)) ->
  length (gm G) = nodes (pG P) -> length (gq G) = nodes (pG P) ->
  length (gqd G) = nodes (pG P) -> length (gV G) = nodes (pG P) ->
  exists L', move_all P G L = Ok L'.
Proof.
  intros He HA HI Lm Lq Ld LV. unfold move_all.
  match goal with |- context [phases_ ?f L] => set (F := f) end.
  assert (A : forall ph, In ph L -> exists ph', F ph = Ok ph').
  { intros ph Hin. unfold F. destruct (is_rigid (s_law (ph_sol ph))) eqn:ER.
    - assert (HR : s_law (ph_sol ph) = Rigid) by (destruct (s_law (ph_sol ph)); try discriminate; reflexivity).
      specialize (HI ph Hin HR). unfold has in HI.
      destruct (each_total (fun p (_ : unit) => p <- move_rigid_point P p ;; Ok (p, tt)) (fun _ => True)
        (ph_n ph) (ph_pts ph) tt) as (l & t & E & _).
      + apply He. exact Hin.
      + exact I.
      + intros p t Hp _. unfold move_rigid_point. destruct (p_intruder_v P); [|congruence]. cbn [attr bind]. eauto.
      + rewrite E. cbn [bind]. eauto.
    - destruct (each_total (move_material_point P G) (fun _ => True) (ph_n ph) (ph_pts ph) (ph_sv ph)) as (l & t & E & _).
      + apply He. exact Hin.
      + exact I.
      + intros p t Hp _. destruct (move_total P G p t (HA ph p Hin Hp) Lm Lq Ld LV) as (p' & t' & ->). eauto.
      + rewrite E. cbn [bind]. eauto. }
  clear - A. assert (B : exists L', Forall2 (fun ph ph' => F ph = Ok ph') L L').
  { induction L as [|ph L IH]; [exists []; constructor|].
    destruct (A ph) as [ph' E]; [left; reflexivity|]. destruct IH as [L' H]; [intros; apply A; right; auto|].
    exists (ph' :: L'). constructor; auto. }
  destruct B as [L' B]. exists L'. apply phases_ok. exact B.
Qed.
Lemma move_all_counted P (G : grid R) L L' : move_all P G L = Ok L' -> counted L -> counted L'.
Proof.
  unfold move_all. intros E HC. apply phases_ok in E. unfold counted in *.
  induction E as [|ph ph' L L' E F IH]; [intros ? []|].
  intros q [<-|Hq]; [|apply IH; auto; intros; apply HC; right; auto].
  assert (C : ph_n ph = length (ph_pts ph)) by (apply HC; left; reflexivity).
  destruct (is_rigid _); pbinds E; injection E as <-; cbn [ph_n ph_pts set];
    match goal with H : each _ _ _ _ = Ok _ |- _ => apply each_length in H; rewrite H; exact C end.
Qed.

Lemma inout_total P (L : list (phase R)) : counted L ->
  inlet_right (pB P) = false -> inlet_top (pB P) = false -> (outlet_left (pB P) = true -> has (pdx (pG P))) ->
  exists L', inout P L = Ok L'.
Proof.
  intros HC H1 H2 H3. unfold inout. rewrite H1, H2.
  assert (CC : forall A B : list (phase R), Forall2 (fun ph ph' => ph_n ph' = length (ph_pts ph')) A B -> counted B).
  { induction 1; intros ? []; subst; auto. }
  assert (A1 : exists L1, (if outlet_left (pB P) then outlet_left_f P L else Ok L) = Ok L1 /\ counted L1).
  { destruct (outlet_left (pB P)); [|eauto]. unfold outlet_left_f. destruct (pdx (pG P)) as [dx|]; [|exfalso; apply H3; auto].
    destruct (outlet_spec (fun p => (vx (px p) <? x_m (pG P) + dx)%num) (fun p => Ok (vx (px p) <? x_m (pG P) + dx)%num) L)
      as (L1 & E & F); [auto|exact HC|]. exists L1. split; [exact E|]. apply (CC L).
    clear - F. induction F as [|? ? ? ? (_ & X & _)]; constructor; auto. }
  destruct A1 as (L1 & -> & C1). cbn [bind].
  assert (A2 : exists L2, (if outlet_bottom (pB P) then outlet_bottom_f P L1 else Ok L1) = Ok L2 /\ counted L2).
  { destruct (outlet_bottom (pB P)); [|eauto]. unfold outlet_bottom_f.
    destruct (outlet_spec (fun p => (vy (px p) <? y_m (pG P))%num) (fun p => Ok (vy (px p) <? y_m (pG P))%num) L1)
      as (L2 & E & F); [auto|exact C1|]. exists L2. split; [exact E|]. apply (CC L1).
    clear - F. induction F as [|? ? ? ? (_ & X & _)]; constructor; auto. }
  destruct A2 as (L2 & -> & C2). cbn [bind]. destruct (cyclic_lr (pB P)); [|eauto].
  unfold cyclic_lr_f. apply points__total; [|eauto]. intros ph Hin. rewrite (C2 ph Hin). lia.
Qed.

Lemma wipe_frame P (G : grid R) : gV (wipe P G) = gV G /\ bv (wipe P G) = bv G /\ bh (wipe P G) = bh G /\ bconv (wipe P G) = bconv G.
Proof. unfold wipe. destruct (p_seg P); repeat split; reflexivity. Qed.

(** What a state needs for the next step to succeed. *)
Record ready (s : state R) : Prop := {
  rd_proper : proper (pG (sP s));
  rd_grid : grid_ok (pG (sP s)) (sG s);
  rd_count : counted (sL s);
  rd_dom : all_live (sL s) (fun _ p => in_dom (pG (sP s)) (px p) /\ (p_check (sP s) = true -> vz (px p) = 0));
  rd_laws : exists S0, sol0 (sL s) = Ok S0 /\ forall ph, In ph (sL s) -> equipped S0 (ph_sol ph);
  rd_rigid : forall ph, In ph (sL s) -> s_law (ph_sol ph) = Rigid -> has (p_intruder_v (sP s));
  rd_conv : conveyor (pB (sP s)) = true -> has (p_v0 (sP s));
  rd_aniso : p_aniso (sP s) = false \/ p_t (sP s) <> 0;
  rd_seg : p_seg (sP s) = false;
  rd_inlets : inlet_right (pB (sP s)) = false /\ inlet_top (pB (sP s)) = false;
  rd_outlet : outlet_left (pB (sP s)) = true -> has (pdx (pG (sP s))) }.

Lemma Lrel_sol {T} (R1 : phase T -> particle T -> particle T -> Prop) L L' : Lrel R1 L L' -> map ph_sol L' = map ph_sol L.
Proof. induction 1 as [|ph ph' L L' (E1 & _) HL IH]; cbn; [reflexivity|]. rewrite E1, IH. reflexivity. Qed.
Lemma Lrel_counted {T} (R1 : phase T -> particle T -> particle T -> Prop) L L' : Lrel R1 L L' -> counted L -> counted L'.
Proof.
  unfold counted. induction 1 as [|ph ph' L L' (E1 & E2 & E3 & F & Ln) HL IH]; simpl; intros He.
  - intros ? [].
  - intros ph1 [<-|Hin]; auto. rewrite E2, Ln. auto.
Qed.
Lemma sol0_map {T} (L L' : list (phase T)) S0 : map ph_sol L' = map ph_sol L -> sol0 L = Ok S0 -> sol0 L' = Ok S0.
Proof. destruct L, L'; cbn; intros E H; try discriminate. injection E as E1 _. rewrite E1. exact H. Qed.
Lemma sol_in {T} (L L' : list (phase T)) (Q : solid T -> Prop) : map ph_sol L' = map ph_sol L ->
  (forall ph, In ph L -> Q (ph_sol ph)) -> forall ph, In ph L' -> Q (ph_sol ph).
Proof.
  intros E H ph Hin. assert (I : In (ph_sol ph) (map ph_sol L)) by (rewrite <- E; apply in_map; exact Hin).
  apply in_map_iff in I. destruct I as (q & <- & Hq). auto.
Qed.
Lemma counted_enough {T} (L : list (phase T)) : counted L -> enough L.
Proof. intros H ph Hin. rewrite (H ph Hin). lia. Qed.

Lemma march_total uf fill s : ready s -> exists s', time_march uf fill s = Ok s'.
Proof.
  intros [HP HG HC HD (S0 & HS0 & HL) HR HV HA Hs (HI1 & HI2) HO].
  set (P := sP s <| p_loads := uf (sP s) |>). set (Pg := pG (sP s)) in *.
  pose proof (counted_enough _ HC) as He.
  set (G0 := wipe (sP s) (sG s)).
  assert (OK0 : grid_ok Pg G0) by (apply wipe_ok; exact HG).
  (* gravity *)
  destruct (points__total (fun k _ p => Ok (increment_gravity P k p)) (sL s) He) as [L1 E1]; [eauto|].
  assert (R1 : Lrel (fun _ p p' => px p' = px p) (sL s) L1).
  { eapply points__rel; [|exact E1]. intros k ph p p' _ _ X. injection X as <-. unfold increment_gravity.
    destruct (Nat.eqb k 0); reflexivity. }
  assert (D1 : all_live L1 (fun _ p => in_dom Pg (px p) /\ (p_check (sP s) = true -> vz (px p) = 0))).
  { eapply Lrel_all_live; [exact R1| |exact HD]. cbv beta. intros ph p ph' p' _ _ _ _ _ X. rewrite X. auto. }
  assert (D1' : all_live L1 (fun _ p => in_dom (pG P) (px p))) by (intros ph p X Y; apply (D1 ph p X Y)).
  pose proof (Lrel_enough _ _ _ R1 He) as He1.
  (* location *)
  destruct (locate_total P G0 L1 HP OK0 He1 D1') as (L2 & L3 & E2 & E3).
  pose proof (locate_loops P G0 L1 L2 L3 HP OK0 D1' E2 E3) as R3.
  pose proof (Lrel_enough _ _ _ R3 He1) as He3.
  assert (Re3 : all_live L3 (fun _ p => reaches P p)).
  { eapply (Lrel_all_live _ _ _ _ _ R3); [|exact D1']. cbv beta. intros ? ? ? ? _ _ _ _ _ -> X.
    apply located_reaches; [exact HP|]. apply locate_located; exact X. }
  assert (EC : (if p_check P then check_positions P G0 L3 else Ok tt) = Ok tt).
  { destruct (p_check P) eqn:EK; [|reflexivity].
    refine (p_C03_check_never_fires P G0 L1 L2 L3 HP OK0 _ He1 E2 E3).
    intros ph p X Y. destruct (D1 ph p X Y) as [Z1 Z2]. split; [exact Z1|]. apply Z2. exact EK. }
  (* mapping *)
  assert (PL : p2g_lens P G0) by apply (wipe_lens P (sG s)).
  destruct (p2g_all_total P L3 G0 PL) as [G1 E4].
  { apply (wipe_seg P (sG s)). } { exact He3. }
  { intros ph p X Y. split; [apply (Re3 ph p X Y)|]. intros Q. change (p_seg (sP s) = true) in Q. congruence. }
  destruct (p2g_all_mass P L3 G0 G1 PL E4) as (Lm & _).
  destruct (wipe_frame (sP s) (sG s)) as (WV & Wv & Wh & Wc).
  destruct (p2g_all_mom P L3 G0 G1 PL) as (Lq & _); [unfold G0; rewrite Wv; apply HG|unfold G0; rewrite Wh; apply HG|exact E4|].
  pose proof (p2g_all_frame P L3 G0 G1 PL E4) as F1.
  (* cyclic *)
  assert (E5 : exists G2, (if cyclic_lr (pB P) then cyc_mq P G1 else Ok G1) = Ok G2 /\ length (gm G2) = nodes Pg /\
     length (gq G2) = nodes Pg /\ G2 = G1 <| gm := gm G2 |> <| gq := gq G2 |>).
  { destruct (cyclic_lr (pB P)).
    - unfold cyc_mq. destruct (cyc_total nadd (pG P) (gm G1) 0 HP Lm) as (l1 & -> & X1). cbn [bind].
      destruct (cyc_total vadd (pG P) (gq G1) v0 HP Lq) as (l2 & -> & X2). cbn [bind]. eexists. split; [reflexivity|].
      split; [exact X1|]. split; [exact X2|]. destruct G1; reflexivity.
    - exists G1. split; [reflexivity|]. split; [exact Lm|]. split; [exact Lq|]. destruct G1; reflexivity. }
  destruct E5 as (G2 & E5 & Lm2 & Lq2 & F2).
  assert (SL2 : slens (nodes Pg) G2).
  { intros f. rewrite F2, F1. pose proof (wipe_slens (sP s) (sG s) f) as X. fold G0 in X. fold Pg in X.
    destruct f; exact X. }
  (* stress *)
  pose proof (Lrel_sol _ _ _ R1) as Q1. pose proof (Lrel_sol _ _ _ R3) as Q3.
  assert (Q : map ph_sol L3 = map ph_sol (sL s)) by congruence.
  destruct (stress_strain_total P L3 G2 S0 HP (sol0_map _ _ _ Q HS0) He3) as (L4 & G3 & E6); auto.
  { intros ph p X Y. split; [apply (Re3 ph p X Y)|]. apply (sol_in _ _ (equipped S0) Q HL ph X). }
  destruct (stress_strain_rel P L3 G2 L4 G3 E6) as [R4 F3].
  assert (Re4 : all_live L4 (fun _ p => reaches P p)).
  { eapply (Lrel_all_live _ _ _ _ _ R4); [|exact Re3]. cbv beta. intros ? ? ? ? _ _ _ _ _ (X & _). apply strained_reaches, X. }
  pose proof (Lrel_enough _ _ _ R4 He3) as He4.
  (* forces *)
  assert (FL : f_lens P G3).
  { unfold f_lens. rewrite F3. cbn. rewrite F2. cbn. rewrite F1. cbn. unfold G0. rewrite wipe_fi, wipe_fe, repeat_length. auto. }
  destruct (forces_total P L4 G3 HP He4 Re4 FL) as [G4 E7].
  destruct (forces_frame P L4 G3 G4 HP FL E7) as [F4 FL4].
  destruct (BCs_total P (s_rho S0) G4 HA) as [G5 E8]. pose proof (BCs_frame _ _ _ _ E8) as F5.
  destruct (um_total P G5 HV) as [G6 E9].
  assert (SZ5 : sized (pG P) G5).
  { eapply BCs_sized; [|exact E8]. unfold sized. change (nx (pG P) * ny (pG P))%nat with (nodes Pg).
    rewrite (proj1 FL4), (proj2 FL4). rewrite F4. cbn [bv bh bconv gm gq gext set]. rewrite F3. cbn [bv bh bconv gm gq gext set].
    rewrite F2. cbn [bv bh bconv gm gq gext set]. rewrite F1. cbn [bv bh bconv gm gq gext set].
    rewrite Lm2, Lq2. unfold G0. rewrite Wv, Wh, Wc.
    rewrite (go_bv _ _ HG), (go_bh _ _ HG), (go_bconv _ _ HG). unfold wipe. destruct (p_seg (sP s)); cbn [gext set];
    rewrite repeat_length; do 7 (split; [reflexivity|]); reflexivity. }
  assert (MS : length (gm G6) = nodes Pg /\ length (gq G6) = nodes Pg /\ length (gqd G6) = nodes Pg /\ length (gV G6) = nodes Pg).
  { destruct (um_shape P G5 G6 E9) as [F6 _].
    split; [rewrite F6; apply SZ5|]. split; [apply (um_q_len P G5 G6 SZ5 E9)|].
    split; [rewrite (um_qd P G5 G6 E9); apply (rates_len P G5 SZ5)|].
    rewrite F6. cbn [gV set]. rewrite F5. cbn [gV set]. rewrite F4. cbn [gV set]. rewrite F3. cbn [gV set].
    rewrite F2. cbn [gV set]. rewrite F1. cbn [gV set]. unfold G0. rewrite WV. apply HG. }
  destruct MS as (M1 & M2 & M3 & M4).
  set (G7 := calculate_gammadot fill P G6).
  pose proof (Lrel_sol _ _ _ R4) as Q4.
  destruct (move_all_total P G7 L4 He4 Re4) as [L5 E10].
  { apply (sol_in (sL s) L4 (fun So => s_law So = Rigid -> has (p_intruder_v P))); [congruence|]. exact HR. }
  { exact M1. } { exact M2. } { exact M3. } { exact M4. }
  assert (C5 : counted L5).
  { eapply move_all_counted; [exact E10|]. eapply Lrel_counted; [exact R4|]. eapply Lrel_counted; [exact R3|].
    eapply Lrel_counted; [exact R1|exact HC]. }
  destruct (inout_total P L5 C5 HI1 HI2 HO) as [L6 E11].
  exists (mkState P G7 L6). unfold time_march. rewrite HS0. cbn [bind]. fold P. fold G0. unfold update_forces.
  rewrite E1. cbn [bind]. rewrite E2. cbn [bind]. rewrite E3. cbn [bind]. rewrite EC. cbn [bind].
  rewrite E4. cbn [bind]. rewrite E5. cbn [bind]. rewrite E6. cbn [bind]. rewrite E7. cbn [bind].
  rewrite E8. cbn [bind]. rewrite E9. cbn [bind]. change (p_seg P) with (p_seg (sP s)). rewrite Hs. cbn [bind].
  fold G7. rewrite E10. cbn [bind]. rewrite E11. reflexivity.
Qed.

(** ** Moving a located particle *)
(** Nodal velocity and acceleration as the particles see them. *)
Definition node_v (P : params R) (G : grid R) (a : axis) (k : nat) : R :=
  if Rltb (p_Mtol P) (nth k (gm G) 0) then comp a (nth k (gq G) v0) / nth k (gm G) 0 else 0.
Definition node_acc (P : params R) (G : grid R) (a : axis) (k : nat) : R :=
  if Rltb (p_Mtol P) (nth k (gm G) 0) then comp a (nth k (gqd G) v0) / nth k (gm G) 0 else 0.

Lemma corner_sum P p X : proper (pG P) -> located (pG P) p ->
  fsum 4 (fun r => X (corner_node (pG P) (cell_node (pG P) (px p)) r) * Nr p r) =
  fsum (nodes (pG P)) (fun k => hat (pG P) (px p) k * X k).
Proof.
  intros HP HL. rewrite <- (moment_sum P X p (Nr p) HP HL). apply fsum_ext. intros k Hk.
  rewrite <- (wt_hat P p k HP HL). unfold wt. lra.
Qed.

Definition dv_of (P : params R) (sv : V3 R) (p : particle R) : V3 R := match pv p with Own v => v | Shared => sv end.

Lemma move_exact P G p sv p' sv' : proper (pG P) -> located (pG P) p ->
  length (gm G) = nodes (pG P) -> length (gq G) = nodes (pG P) -> length (gqd G) = nodes (pG P) ->
  move_material_point P G p sv = Ok (p', sv') ->
  p' = p <| px := px p' |> <| pv := pv p' |> <| prho := prho p' |> /\
  (forall a, comp a (px p') = comp a (px p) + p_dt P * fsum (nodes (pG P)) (fun k => hat (pG P) (px p) k * node_v P G a k)) /\
  let dv a := p_dt P * fsum (nodes (pG P)) (fun k => hat (pG P) (px p) k * node_acc P G a k) in
  match pv p with
  | Own v => sv' = sv /\ exists v', pv p' = Own v' /\ forall a, comp a v' = comp a v + dv a
  | Shared => pv p' = Shared /\ forall a, comp a sv' = comp a sv + dv a
  end.
Proof.
  intros HP HL Lm Lq Ld E. unfold move_material_point in E.
  destruct (four P (pnstar p) _ (p, sv)) as [[q u]|] eqn:E0; [|discriminate]. cbn [bind] in E. pbinds E.
  injection E as <- <-. cbn [px pv prho set].
  change (four P (pnstar p) (fun ps r n => body_move P G ps r n) (p, sv) = Ok (q, u)) in E0.
  pose (c := fun r => corner_node (pG P) (cell_node (pG P) (px p)) r).
  assert (GET : forall A (l : list A) r (d : A), length l = nodes (pG P) -> (r < 4)%nat ->
     py_get l (nearby (pnstar p) r (nx (pG P))) = Ok (nth (c r) l d)).
  { intros A l r d Hl Hr. destruct HL as (HD & EN & _). rewrite EN, nearby_corner by auto.
    apply py_get_some. apply pyi_nonneg. rewrite Hl. apply corner_colrow; auto. }
  pose (I := fun s : particle R * V3 R => fst s = p <| px := px (fst s) |> <| pv := pv (fst s) |> /\
     match pv p with Own _ => snd s = sv /\ exists w, pv (fst s) = Own w | Shared => pv (fst s) = Shared end).
  assert (STEP : forall r s s', (r < 4)%nat -> I s -> body_move P G s r (nearby (pnstar p) r (nx (pG P))) = Ok s' ->
     I s' /\ (forall a, comp a (px (fst s')) = comp a (px (fst s)) + p_dt P * (node_v P G a (c r) * Nr p r)) /\
     (forall a, comp a (dv_of P (snd s') (fst s')) = comp a (dv_of P (snd s) (fst s)) + p_dt P * (node_acc P G a (c r) * Nr p r))).
  { intros r [q1 u1] s' Hr [I1 I2] EB. cbn [fst snd] in *. unfold body_move in EB.
    rewrite (GET _ (gm G) r 0 Lm Hr) in EB. cbn [bind] in EB.
    change (p_Mtol P <? nth (c r) (gm G) 0)%num with (Rltb (p_Mtol P) (nth (c r) (gm G) 0)) in EB.
    assert (NN : Nr q1 r = Nr p r) by (rewrite I1; reflexivity).
    assert (NX : forall x, Nr (q1 <| px := x |>) r = Nr p r) by (intros; rewrite I1; reflexivity).
    unfold node_v, node_acc. destruct (Rltb (p_Mtol P) (nth (c r) (gm G) 0)).
    - rewrite (GET _ (gq G) r v0 Lq Hr) in EB. rewrite (GET _ (gqd G) r v0 Ld Hr) in EB. cbn [bind] in EB.
      cbv zeta in EB. cbn [pv set] in EB. rewrite NN in EB.
      destruct (pv p) as [v|] eqn:EV.
      + destruct I2 as [-> [w Ew]]. rewrite Ew in EB. injection EB as <-. cbn [fst snd]. split; [|split].
        * unfold I. cbn [fst snd px pv set]. try rewrite EV. split; [rewrite I1; destruct p; reflexivity|eauto].
        * intros a'. cbn [px set]. rewrite comp_vadd, comp_vdivs, comp_vscale. unR. unfold Rdiv. ring.
        * intros a'. unfold dv_of. cbn [pv set]. rewrite Ew. rewrite comp_vadd, comp_vdivs, comp_vscale, NX. unR. unfold Rdiv. ring.
      + rewrite I2 in EB. injection EB as <-. cbn [fst snd]. split; [|split].
        * unfold I. cbn [fst snd px pv set]. try rewrite EV. split; [rewrite I1; destruct p; reflexivity|auto].
        * intros a'. cbn [px set]. rewrite comp_vadd, comp_vdivs, comp_vscale. unR. unfold Rdiv. ring.
        * intros a'. unfold dv_of. cbn [pv set]. rewrite I2. rewrite comp_vadd, comp_vdivs, comp_vscale, NX. unR. unfold Rdiv. ring.
    - injection EB as <-. cbn [fst snd]. split; [split; auto|]. split; intros a'; lra. }
  assert (I0 : I (p, sv)).
  { split; [destruct p; reflexivity|]. cbn [fst snd]. destruct (pv p) eqn:EV; eauto. }
  assert (A : I (q, u)).
  { eapply (four_ind P (pnstar p) _ (fun _ s => I s)) in E0; [exact E0|exact I0|].
    intros r s s' Hr Is X. apply (STEP r s s' Hr Is X). }
  assert (B1 : forall a, comp a (px q) = comp a (px p) + fsum 4 (fun r => p_dt P * (node_v P G a (c r) * Nr p r))).
  { intros a'. pose proof E0 as E2. apply (four_acc P (pnstar p) _ I (fun _ => True) (fun s => comp a' (px (fst s)))
      (fun r => p_dt P * (node_v P G a' (c r) * Nr p r))) in E2; [apply E2|exact I0|].
    intros r s s' Hr Is X. destruct (STEP r s s' Hr Is X) as (X1 & X2 & _). auto. }
  assert (B2 : forall a, comp a (dv_of P u q) = comp a (dv_of P sv p) + fsum 4 (fun r => p_dt P * (node_acc P G a (c r) * Nr p r))).
  { intros a'. pose proof E0 as E2. apply (four_acc P (pnstar p) _ I (fun _ => True) (fun s => comp a' (dv_of P (snd s) (fst s)))
      (fun r => p_dt P * (node_acc P G a' (c r) * Nr p r))) in E2; [apply E2|exact I0|].
    intros r s s' Hr Is X. destruct (STEP r s s' Hr Is X) as (X1 & _ & X2). auto. }
  destruct A as [A1 A2]. cbn [fst snd] in *.
  split; [rewrite A1; destruct p; reflexivity|]. split.
  - intros a'. rewrite B1, fsum_scal. rewrite <- (corner_sum P p (node_v P G a') HP HL). reflexivity.
  - assert (B3 : forall a, fsum 4 (fun r => p_dt P * (node_acc P G a (c r) * Nr p r)) =
       p_dt P * fsum (nodes (pG P)) (fun k => hat (pG P) (px p) k * node_acc P G a k)).
    { intros a'. rewrite fsum_scal. rewrite <- (corner_sum P p (node_acc P G a') HP HL). reflexivity. }
    unfold dv_of in B2. destruct (pv p) as [v|] eqn:EV.
    + destruct A2 as [-> [w Ew]]. split; [reflexivity|]. exists w. split; [exact Ew|]. intros a'.
      specialize (B2 a'). rewrite Ew in B2. rewrite B2, B3. reflexivity.
    + split; [exact A2|]. intros a'. specialize (B2 a'). rewrite A2 in B2. rewrite B2, B3. reflexivity.
Qed.

(** The density assigned to a point: the tent-weighted nodal densities. *)
Definition node_rho (P : params R) (G : grid R) (k : nat) : R :=
  if Rltb (p_Mtol P) (nth k (gm G) 0) then nth k (gm G) 0 / nth k (gV G) 0 else 0.
Definition dense (P : params R) (G : grid R) (p p' : particle R) : Prop :=
  prho p' = fsum (nodes (pG P)) (fun k => hat (pG P) (px p) k * node_rho P G k).

Lemma move_dense P G p sv p' sv' : proper (pG P) -> located (pG P) p ->
  length (gm G) = nodes (pG P) -> length (gV G) = nodes (pG P) ->
  move_material_point P G p sv = Ok (p', sv') -> dense P G p p'.
Proof.
  intros HP HL Lm LV E. unfold move_material_point in E.
  destruct (four P (pnstar p) _ (p, sv)) as [[q u]|] eqn:E0; [|discriminate]. cbn [bind] in E. pbinds E.
  injection E as <- <-. unfold dense. cbn [px pv prho set].
  change (four P (pnstar p) (fun ps r n => body_move P G ps r n) (p, sv) = Ok (q, u)) in E0.
  assert (A : q = p <| px := px q |> <| pv := pv q |>).
  { eapply (four_ind P (pnstar p) _ (fun _ s => fst s = p <| px := px (fst s) |> <| pv := pv (fst s) |>)) in E0;
      [exact E0|destruct p; reflexivity|].
    intros r [q1 u1] s' Hr I1 X. cbn [fst] in I1. unfold body_move in X. pbinds X.
    destruct (p_Mtol P <? a0)%num; [|injection X as <-; exact I1]. pbinds X. cbn [pv set] in X.
    destruct (pv q1); injection X as <-; cbn [fst px pv set]; rewrite I1; destruct p; reflexivity. }
  assert (NN : forall r, Nr q r = Nr p r) by (intros r; rewrite A; reflexivity).
  assert (SN : pnstar q = pnstar p) by (rewrite A; reflexivity). rewrite SN in E1.
  apply (four_acc P (pnstar p) _ (fun _ => True) (fun _ => True) (fun x => x)
    (fun r => node_rho P G (corner_node (pG P) (cell_node (pG P) (px p)) r) * Nr p r)) in E1; [|exact I|].
  - destruct E1 as (_ & _ & ->). rewrite (corner_sum P p (node_rho P G) HP HL). unR. lra.
  - intros r x x' Hr _ X. split; [exact I|]. split; [exact I|].
    assert (GET : forall (l : list R), length l = nodes (pG P) ->
       py_get l (nearby (pnstar p) r (nx (pG P))) = Ok (nth (corner_node (pG P) (cell_node (pG P) (px p)) r) l 0)).
    { intros l Hl. destruct HL as (HD & EN & _). rewrite EN, nearby_corner by auto.
      apply py_get_some. apply pyi_nonneg. rewrite Hl. apply corner_colrow; auto. }
    rewrite (GET _ Lm) in X. cbn [bind] in X. unfold node_rho.
    change (p_Mtol P <? nth (corner_node (pG P) (cell_node (pG P) (px p)) r) (gm G) 0)%num with
      (Rltb (p_Mtol P) (nth (corner_node (pG P) (cell_node (pG P) (px p)) r) (gm G) 0)) in X.
    destruct (Rltb _ _).
    + rewrite (GET _ LV) in X. cbn [bind] in X. injection X as <-. rewrite NN. unR. unfold Rdiv. ring.
    + injection X as <-. lra.
Qed.

(** A point moved by the grid. *)
Definition moved (P : params R) (G : grid R) (p p' : particle R) : Prop :=
  p' = p <| px := px p' |> <| pv := pv p' |> <| prho := prho p' |> /\
  (forall a, comp a (px p') = comp a (px p) + p_dt P * fsum (nodes (pG P)) (fun k => hat (pG P) (px p) k * node_v P G a k)) /\
  match pv p with
  | Own v => exists v', pv p' = Own v' /\ forall a, comp a v' = comp a v +
               p_dt P * fsum (nodes (pG P)) (fun k => hat (pG P) (px p) k * node_acc P G a k)
  | Shared => pv p' = Shared
  end.
(** A point of an intruder. *)
Definition driven (P : params R) (p p' : particle R) : Prop :=
  exists w, p_intruder_v P = Some w /\ p' = p <| px := vadd (px p) (vscale (p_dt P) w) |> <| pv := Own w |>.

Definition phase_moved (P : params R) (G : grid R) (ph ph' : phase R) : Prop :=
  ph_sol ph' = ph_sol ph /\ ph_n ph' = ph_n ph /\ length (ph_pts ph') = length (ph_pts ph) /\
  Forall2 (if is_rigid (s_law (ph_sol ph)) then driven P else moved P G) (live ph) (live ph') /\
  ((forall p, In p (live ph) -> pv p <> Shared) -> ph_sv ph' = ph_sv ph) /\
  (is_rigid (s_law (ph_sol ph)) = false -> Forall2 (dense P G) (live ph) (live ph')).

Lemma each_moved P (G : grid R) n : forall l sv l' sv', proper (pG P) ->
  (forall p, In p (firstn n l) -> located (pG P) p) ->
  length (gm G) = nodes (pG P) -> length (gq G) = nodes (pG P) -> length (gqd G) = nodes (pG P) ->
  each n (move_material_point P G) l sv = Ok (l', sv') ->
  Forall2 (moved P G) (firstn n l) (firstn n l') /\ ((forall p, In p (firstn n l) -> pv p <> Shared) -> sv' = sv).
Proof.
  induction n as [|n IH]; intros l sv l' sv' HP HL Lm Lq Ld E; cbn [each] in E.
  - injection E as <- <-. split; [constructor|auto].
  - destruct l as [|p l]; [discriminate|]. pbinds E. injection E as <- <-.
    apply move_exact in E0; auto; [|apply HL; left; reflexivity].
    destruct (IH _ _ _ _ HP (fun q Hq => HL q (or_intror Hq)) Lm Lq Ld E1) as [F S1].
    destruct E0 as (F0 & X0 & V0). split.
    + cbn [firstn]. constructor; [|exact F]. split; [exact F0|]. split; [exact X0|].
      cbv zeta in V0. destruct (pv p); [apply V0|apply V0].
    + intros HO. rewrite S1 by (intros q Hq; apply HO; right; exact Hq).
      cbv zeta in V0. destruct (pv p) eqn:EV; [apply V0|]. exfalso. apply (HO p); [left; reflexivity|exact EV].
Qed.

Lemma move_all_rel P (G : grid R) L L' : proper (pG P) -> all_live L (fun _ p => located (pG P) p) ->
  length (gm G) = nodes (pG P) -> length (gq G) = nodes (pG P) -> length (gqd G) = nodes (pG P) -> length (gV G) = nodes (pG P) ->
  move_all P G L = Ok L' -> Forall2 (phase_moved P G) L L'.
Proof.
  intros HP HL Lm Lq Ld LV E. apply phases_ok in E.
  induction E as [|ph ph' L L' E F IH]; [constructor|]. constructor.
  - destruct (is_rigid (s_law (ph_sol ph))) eqn:ER; pbinds E; injection E as <-.
    + pose proof (each_length _ _ _ _ _ _ E0) as Ln. split; [reflexivity|]. split; [reflexivity|]. split; [exact Ln|].
      split; [|split; [auto|intros Q; rewrite Q in ER; discriminate]]. rewrite ER. unfold live. cbn [ph_n ph_pts set].
      apply (each_live _ (fun _ => True) (driven P)) in E0; [apply E0|exact I|].
      intros p t p' t' _ _ X. pbinds X. injection X as <- <-. split; [exact I|]. unfold move_rigid_point in E.
      pbinds E. injection E as <-. apply attr_ok in E1. eexists. split; [exact E1|reflexivity].
    + pose proof (each_length _ _ _ _ _ _ E0) as Ln. split; [reflexivity|]. split; [reflexivity|]. split; [exact Ln|].
      rewrite ER. unfold live. cbn [ph_n ph_pts ph_sv set].
      assert (HL1 : forall p, In p (firstn (ph_n ph) (ph_pts ph)) -> located (pG P) p)
        by (intros p Hp; apply (HL ph p); [left; reflexivity|exact Hp]).
      pose proof E0 as E1. apply (each_moved P G _ _ _ _ _ HP) in E0; auto.
      destruct E0 as [E2 E3]. split; [exact E2|]. split; [exact E3|]. intros _.
      apply (each_live _ (fun _ => True) (dense P G)) in E1; [apply E1|exact I|].
      intros p t p' t' Hp _ X. split; [exact I|]. eapply move_dense; eauto.
  - apply IH. intros q p Hq Hp. apply (HL q p); [right; exact Hq|exact Hp].
Qed.

(** ** The stages of a step that succeeded *)
Lemma strained_located Pg p p' : strained p p' -> located Pg p -> located Pg p'.
Proof. unfold strained, law_frame. intros E. rewrite E. exact (fun H => H). Qed.

Lemma march_stages uf fill s s' : proper (pG (sP s)) -> grid_ok (pG (sP s)) (sG s) ->
  all_live (sL s) (fun _ p => in_dom (pG (sP s)) (px p)) ->
  p_seg (sP s) = false -> cyclic_lr (pB (sP s)) = false ->
  time_march uf fill s = Ok s' ->
  let P := sP s <| p_loads := uf (sP s) |> in let Pg := pG (sP s) in
  exists S0 L1 L3 L4 L5 G1 G3 G4 G5 G6,
    sol0 (sL s) = Ok S0 /\
    update_forces P (sL s) = Ok L1 /\ Lrel (fun _ p p' => exists b, p' = p <| pb := b |>) (sL s) L1 /\
    Lrel (fun _ p p' => in_dom Pg (px p) /\ p' = locate Pg p) L1 L3 /\
    p2g_all P L3 (wipe (sP s) (sG s)) = Ok G1 /\ frame_all (wipe (sP s) (sG s)) G1 /\
    stress_strain P L3 G1 = Ok (L4, G3) /\
    Lrel (fun ph p p' => strained p p' /\ (s_law (ph_sol ph) <> ElasticTime -> pm p' = pm p)) L3 L4 /\ vis_frame G1 G3 /\
    all_live L4 (fun _ p => located Pg p) /\
    force_loop P L4 G3 = Ok G4 /\ f_lens P G3 /\ BCs P (s_rho S0) G4 = Ok G5 /\ sized Pg G4 /\ sized Pg G5 /\
    update_momentum P G5 = Ok G6 /\
    sP s' = P /\ sG s' = calculate_gammadot fill P G6 /\
    Forall2 (phase_moved P G6) L4 L5 /\ inout P L5 = Ok (sL s').
Proof.
  intros HP HG HD Hs Hc E P Pg.
  unfold time_march in E. fold P in E. cbv zeta in E. pbinds E.
  rename a into S0, a0 into L1, a1 into L2, a2 into L3, a4 into G1, b into L4, b0 into G3, a6 into G4, a7 into G5, a8 into G6.
  assert (CP : cyclic_lr (pB P) = false) by exact Hc. rewrite CP in E6. injection E6 as <-.
  assert (SP : p_seg P = false) by exact Hs. rewrite SP in E11. injection E11 as <- <-.
  injection E as <-. cbn [sP sG sL].
  set (G0 := wipe (sP s) (sG s)) in *.
  assert (OK0 : grid_ok Pg G0) by (apply wipe_ok; exact HG).
  assert (R1 : Lrel (fun _ p p' => exists b, p' = p <| pb := b |>) (sL s) L1).
  { eapply points__rel; [|exact E1]. intros k ph p p' _ _ X. injection X as <-. unfold increment_gravity.
    destruct (Nat.eqb k 0); [eauto|]. exists (pb p). destruct p; reflexivity. }
  assert (D1 : all_live L1 (fun _ p => in_dom (pG P) (px p))).
  { eapply Lrel_all_live; [exact R1| |exact HD]. cbv beta. intros ph p ph' p' _ _ _ _ _ [b ->]. auto. }
  pose proof (locate_loops P G0 L1 L2 L3 HP OK0 D1 E2 E3) as R3.
  assert (R3' : Lrel (fun _ p p' => in_dom Pg (px p) /\ p' = locate Pg p) L1 L3).
  { eapply Lrel_impl; [exact R3|]. intros ph p p' Hin Hp ->. split; [apply (D1 ph p Hin Hp)|reflexivity]. }
  assert (PL : p2g_lens P G0) by apply (wipe_lens P (sG s)).
  pose proof (p2g_all_frame P L3 G0 G1 PL E5) as F1.
  destruct (p2g_all_mass P L3 G0 G1 PL E5) as (Lm & _).
  destruct (wipe_frame (sP s) (sG s)) as (WV & Wv & Wh & Wc).
  destruct (p2g_all_mom P L3 G0 G1 PL) as (Lq & _); [unfold G0; rewrite Wv; apply HG|unfold G0; rewrite Wh; apply HG|exact E5|].
  destruct (stress_strain_rel P L3 G1 L4 G3 E7) as [R4 F3].
  assert (Lo3 : all_live L3 (fun _ p => located Pg p)).
  { eapply (Lrel_all_live _ _ _ _ _ R3); [|exact D1]. cbv beta. intros ? ? ? ? _ _ _ _ _ -> X. apply locate_located; exact X. }
  assert (Lo4 : all_live L4 (fun _ p => located Pg p)).
  { eapply (Lrel_all_live _ _ _ _ _ R4); [|exact Lo3]. cbv beta. intros ? ? ? ? _ _ _ _ _ (X & _). apply strained_located, X. }
  assert (FL : f_lens P G3).
  { unfold f_lens. rewrite F3. cbn. rewrite F1. cbn. unfold G0. rewrite wipe_fi, wipe_fe, repeat_length. auto. }
  assert (E8' : force_loop P L4 G3 = Ok G4).
  { unfold forces_all in E8. pbinds E8. rewrite CP in E8. injection E8 as <-. assumption. }
  destruct (force_loop_spec P L4 G3 G4 FL E8') as (F4 & FL4 & _). unfold frame_f in F4.
  assert (SZ4 : sized Pg G4).
  { unfold sized. change (nx Pg * ny Pg)%nat with (nodes Pg).
    rewrite (proj1 FL4), (proj2 FL4). rewrite F4. cbn [bv bh bconv gm gq gext set]. rewrite F3. cbn [bv bh bconv gm gq gext set].
    rewrite Lm, Lq. rewrite F1. cbn [bv bh bconv gm gq gext set]. unfold G0. rewrite Wv, Wh, Wc.
    rewrite (go_bv _ _ HG), (go_bh _ _ HG), (go_bconv _ _ HG). unfold wipe. destruct (p_seg (sP s)); cbn [gext set];
    rewrite repeat_length; do 7 (split; [reflexivity|]); reflexivity. }
  assert (SZ5 : sized (pG P) G5) by (eapply BCs_sized; [exact SZ4|exact E9]).
  exists S0, L1, L3, L4, a9, G1, G3, G4, G5, G6.
  assert (MV : Forall2 (phase_moved P G6) L4 a9).
  { apply (move_all_rel P (calculate_gammadot fill P G6) L4 a9); auto.
    - change (length (gm G6) = nodes (pG P)). destruct (um_shape P G5 G6 E10) as [F6 _]. rewrite F6. apply SZ5.
    - change (length (gq G6) = nodes (pG P)). apply (um_q_len P G5 G6 SZ5 E10).
    - change (length (gqd G6) = nodes (pG P)). rewrite (um_qd P G5 G6 E10); apply (rates_len P G5 SZ5).
    - change (length (gV G6) = nodes (pG P)). destruct (um_shape P G5 G6 E10) as [F6 _]. rewrite F6. cbn.
      rewrite (BCs_frame _ _ _ _ E9). cbn. rewrite F4. cbn. rewrite F3. cbn. rewrite F1. cbn. unfold G0. rewrite WV. apply (go_Vlen _ _ HG). }
  split; [exact E0|]. split; [exact E1|]. split; [exact R1|]. split; [exact R3'|]. split; [exact E5|]. split; [exact F1|].
  split; [exact E7|]. split; [exact R4|]. split; [exact F3|]. split; [exact Lo4|]. split; [exact E8'|]. split; [exact FL|].
  split; [exact E9|]. split; [exact SZ4|]. split; [exact SZ5|]. split; [exact E10|]. split; [reflexivity|]. split; [reflexivity|].
  split; [exact MV|exact E13].
Qed.

(** ** Walls and weights *)
Lemma masks_grow P (G G' : grid R) k : sized (pG P) G -> update_momentum P G = Ok G' ->
  (k < nodes (pG P))%nat ->
  (nth k (bv G) false = true -> nth k (bv G') false = true) /\ (nth k (bh G) false = true -> nth k (bh G') false = true).
Proof.
  intros HS HU Hk. rewrite (um_bv P G G' HU), (um_bh P G G' HU). unfold masks_after.
  destruct HS as (A & B & _). destruct (roughness (pB P)); [|auto]. destruct (truthy_mu (wall_mu (pB P))); [|auto].
  unfold friction_masks. cbn [fst snd].
  rewrite !map_slice_nth by (rewrite ?map_slice_length, ?A, ?B; exact Hk).
  split; intros ->; repeat match goal with |- context [if ?c then _ else _] => destruct c end; reflexivity.
Qed.
Lemma um_normal P (G G' : grid R) k : sized (pG P) G -> update_momentum P G = Ok G' -> (k < nodes (pG P))%nat ->
  (nth k (bv G') false = true -> vx (nth k (gqd G') v0) = 0) /\ (nth k (bh G') false = true -> vy (nth k (gqd G') v0) = 0).
Proof.
  intros HS HU Hk. pose proof (rates_len P G HS) as RL. pose proof (masks_after_len P G HS) as [ML1 ML2].
  rewrite (um_bv P G G' HU), (um_bh P G G' HU), (um_qd P G G' HU). unfold rates_after in *.
  destruct (masks_after P G) as [v h]. cbn [fst snd] in *. cbv zeta in *.
  match goal with |- context [mask_x v ?q] => set (q0 := q) in * end.
  assert (Lq : length q0 = nodes (pG P)).
  { unfold q0. destruct HS as (A & B & _ & _ & _ & C & D & _).
    assert (LZ : length (zipw vsub (gfe G) (gfi G)) = nodes (pG P)) by (rewrite zipw_length, C, D, Nat.min_id; reflexivity).
    assert (LD : length (if p_damping P then map (fun q => vmuls q (lit 7 10)) (zipw vsub (gfe G) (gfi G)) else zipw vsub (gfe G) (gfi G)) = nodes (pG P))
      by (destruct (p_damping P); rewrite ?map_length; exact LZ).
    destruct (roughness (pB P)); [|exact LD]. destruct (truthy_mu _).
    - rewrite friction_len; [exact LD| |]; rewrite ?ML1, ?ML2; symmetry; exact LD.
    - unfold mask_x, mask_y. rewrite !zipw_length, LD. fold (nodes (pG P)) in ML1, ML2. rewrite ML1, ML2. unfold nodes. lia. }
  destruct (mask_x_comp v q0 k) as (X1 & X2 & X3 & X4); [rewrite Lq; exact ML1|].
  destruct (mask_y_comp h (mask_x v q0) k) as (Y1 & Y2 & Y3 & Y4); [rewrite X4, Lq; exact ML2|].
  split; intros E.
  - rewrite Y1, X1, E. lra.
  - rewrite Y2, E. lra.
Qed.

Lemma hat_nonneg Pg x k : 0 <= hat Pg x k.
Proof. unfold hat. apply Rmult_le_pos; apply tent_nonneg. Qed.
Lemma hat_sums Pg x : proper Pg -> in_dom Pg x ->
  fsum (nodes Pg) (fun k => hat Pg x k) = 1 /\
  fsum (nodes Pg) (fun k => hat Pg x k * node_x Pg k) = vx x /\
  fsum (nodes Pg) (fun k => hat Pg x k * node_y Pg k) = vy x.
Proof.
  intros HP HD. pose (p := locate Pg (ex_p1 <| px := x |>)).
  assert (HL : located Pg p) by (apply locate_located; exact HD).
  pose (P := ex_params (T := R) ex_bounds <| pG := Pg |>).
  pose proof (cell_w_pos _ HP) as Hw. pose proof (cell_h_pos _ HP) as Hh.
  pose proof (corner_sum P p (fun _ => 1) HP HL) as S1. pose proof (corner_sum P p (node_x Pg) HP HL) as S2.
  pose proof (corner_sum P p (node_y Pg) HP HL) as S3.
  change (pG P) with Pg in *. change (px p) with x in *.
  assert (NN : forall r, Nr p r = wN (cell_w Pg) (cell_h Pg) (loc Pg x) r) by (intros; apply (located_N Pg p r HL)).
  pose proof (shape_unity (cell_w Pg) (cell_h Pg) (loc Pg x)) as U.
  destruct (shape_position (cell_w Pg) (cell_h Pg) (loc Pg x)) as [UX UY]; [lra|lra|].
  assert (NU : fsum 4 (fun r => Nr p r) = 1).
  { rewrite (fsum_ext _ _ (wN (cell_w Pg) (cell_h Pg) (loc Pg x))) by auto. apply U; lra. }
  split; [|split].
  - rewrite (fsum_ext _ _ (fun k => hat Pg x k * 1)) by (intros; lra). rewrite <- S1.
    rewrite (fsum_ext _ _ (fun r => Nr p r)) by (intros; lra). exact NU.
  - rewrite <- S2. rewrite (fsum_ext _ _ (fun r => node_x Pg (cell_node Pg x) * Nr p r + wN (cell_w Pg) (cell_h Pg) (loc Pg x) r * fst (corner (cell_w Pg) (cell_h Pg) r))).
    + rewrite fsum_plus, (fsum_scal _ _ (fun r => Nr p r)), NU, UX. unfold loc. cbn. lra.
    + intros r Hr. rewrite (proj1 (corner_xy Pg HP x r HD Hr)), <- NN. lra.
  - rewrite <- S3. rewrite (fsum_ext _ _ (fun r => node_y Pg (cell_node Pg x) * Nr p r + wN (cell_w Pg) (cell_h Pg) (loc Pg x) r * snd (corner (cell_w Pg) (cell_h Pg) r))).
    + rewrite fsum_plus, (fsum_scal _ _ (fun r => Nr p r)), NU, UY. unfold loc. cbn. lra.
    + intros r Hr. rewrite (proj2 (corner_xy Pg HP x r HD Hr)), <- NN. lra.
Qed.

Lemma fsum_zero_terms n f : (forall i, (i < n)%nat -> 0 <= f i) -> fsum n f = 0 -> forall i, (i < n)%nat -> f i = 0.
Proof.
  induction n as [|n IH]; intros H0 E i Hi; [lia|]. simpl in E.
  assert (A : 0 <= fsum n f) by (apply fsum_nonneg; intros; apply H0; lia).
  assert (B : 0 <= f n) by (apply H0; lia).
  destruct (Nat.eq_dec i n) as [->|]; [lra|]. apply IH; [intros; apply H0; lia|lra|lia].
Qed.

(** A convex combination of nodal values that dominate nothing but zero stays
    positive: the core of confinement.  [g] measures the distance from a wall. *)
Lemma stays_positive Pg x (g c : nat -> R) : proper Pg ->
  (forall k, (k < nodes Pg)%nat -> (g k = 0 /\ c k = 0) \/ 0 < c k) ->
  0 < fsum (nodes Pg) (fun k => hat Pg x k * g k) ->
  0 < fsum (nodes Pg) (fun k => hat Pg x k * c k).
Proof.
  intros HP HC HS.
  assert (NN : forall k, (k < nodes Pg)%nat -> 0 <= hat Pg x k * c k).
  { intros k Hk. apply Rmult_le_pos; [apply hat_nonneg|]. destruct (HC k Hk) as [[_ ->]|]; lra. }
  destruct (Rle_lt_or_eq_dec 0 _ (fsum_nonneg _ _ NN)) as [|E]; [assumption|exfalso].
  assert (Z : fsum (nodes Pg) (fun k => hat Pg x k * g k) = 0); [|lra].
  apply fsum_zero. intros k Hk. pose proof (fsum_zero_terms _ _ NN (eq_sym E) k Hk) as T.
  destruct (HC k Hk) as [[-> _]|Hc]; [lra|]. apply Rmult_integral in T. destruct T as [->|]; lra.
Qed.
